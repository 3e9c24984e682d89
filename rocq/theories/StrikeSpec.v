(** Words for C94. *)
From Coq Require Import Reals.
From Verif Require Import Base BlackModel.
Local Open Scope R_scope.

(** prices of two options that differ in the strike: a call with the higher strike costs no more, and less by no more than the difference of the
    strikes is worth; the reverse for a put; a straddle moves by no more than that; [unit] is what a unit of money at the end is worth *)
Definition slope_fine (t : option_type) (unit k1 k2 x1 x2 : R) : Prop :=
  match t with
  | Call => x1 - unit * (k2 - k1) <= x2 <= x1
  | Put => x1 <= x2 <= x1 + unit * (k2 - k1)
  | _ => Rabs (x2 - x1) <= unit * (k2 - k1)
  end.
(** there are prices for these kinds and strikes; they move with the strike as they may; and an option with a strike between two others
    costs no more than the portfolio of these that pays at least as much (no butterfly has a negative price) *)
Definition no_arbitrage (price : option_type -> R -> outcome R) (unit : R) (kinds : option_type -> Prop) (strikes : R -> Prop) : Prop :=
  forall t k1 k2 w, kinds t -> strikes k1 -> strikes k2 -> k1 <= k2 -> 0 <= w <= 1 ->
    exists x1 x2 x, price t k1 = Ok x1 /\ price t k2 = Ok x2 /\ price t (w * k1 + (1 - w) * k2) = Ok x /\
      slope_fine t unit k1 k2 x1 x2 /\ x <= w * x1 + (1 - w) * x2.
