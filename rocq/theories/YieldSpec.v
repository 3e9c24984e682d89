(** Lines of curves, and what they are worth. *)
From Coq Require Import Reals List ZArith Bool Arith.
From Verif Require Import Base StringModel CurveModel YieldModel.
Import ListNotations.
Open Scope nat_scope.

(** a curve, its base, the base's base and so on *)
Inductive line (h : heap) : nat -> list nat -> Prop :=
| line_end a name f : nth_error h a = Some (Curve name f None) -> line h a [a]
| line_on a name f b l : nth_error h a = Some (Curve name f (Some b)) -> line h b l -> line h a (a :: l).
(** the forward rates of a curve, and the discount factor they give alone *)
Definition rates (h : heap) (a : nat) : option pwl := match nth_error h a with Some (Curve _ p _) => Some p | _ => None end.
Definition alone (h : heap) (a : nat) (from to_ : Z) : outcome R :=
  match rates h a with Some p => df (DiscountPWLF p None) from to_ | None => UB end.
Definition product (vs : list R) : R := fold_right Rmult 1%R vs.
(** enough fuel for any line *)
Definition polled (h : heap) (a : nat) : list nat -> option (list nat) := poll (S a) h a.
Definition polled_handles (h : heap) (a : nat) : handles -> option handles := poll_handles (S a) h a.
Definition worth (h : heap) (a : nat) (from to_ : Z) : outcome R := discount_at (S a) h a from to_.

(** a user's way to put the curve [n] in the place of [old]: copy the curves above it, from the nearest on, each time naming the
    copy that takes the place of its base *)
Fixpoint rebuild (h : heap) (above : list nat) (old n : nat) (name : str) : option (heap * nat) :=
  match above with
  | [] => Some (h, n)
  | a :: rest => match rebuild h rest old n name with
                 | Some (h1, n1) => clone h1 a name [(Some (hd old rest), Some n1)]
                 | None => None end
  end.
