(** Words for C87. *)
From Coq Require Import List ZArith Reals.
From Coq Require Import Floats.SpecFloat.
From Verif Require Import Base ScriptModel DomainSpec BsSpec.
From Verif Require BsModel.
Import ListNotations.

(** what is asked of a model: from a vector of its dimension it makes one path, whatever path (of those it was given at first, or made)
    it writes over *)
Definition path_maker {N : Num} (dim : nat) (generate : list spec_float -> list sample -> outcome (list sample)) (blank : list sample) (path : list spec_float -> list sample) : Prop :=
  exists writable : list sample -> Prop, writable blank /\
    forall v old, List.length v = dim -> writable old -> generate v old = Ok (path v) /\ writable (path v).

(** the samples of the Black-Scholes model, one per date: the spot follows the Brownian motion the draws make (C52), the numeraire
    grows at the rate *)
Section BlackScholes.
Variables (f_log f_sqrt f_exp : R -> R) (f_pow : R -> R -> R).
Local Notation RN := (RNum f_log f_sqrt f_exp f_pow).
Local Open Scope R_scope.
Definition bs_path (m : BsModel.bs) (times gauss : list R) : list (@sample RN) :=
  map (fun i => @Sample RN
        (BsModel.b_spot m * exp ((BsModel.b_rate m - BsModel.b_div m - 1/2 * BsModel.b_vol m * BsModel.b_vol m) * nth i times 0
                                 + BsModel.b_vol m * brownian (from_today times) gauss (position times i)))
        (exp (BsModel.b_rate m * nth i times 0))) (seq 0 (List.length times)).
End BlackScholes.
