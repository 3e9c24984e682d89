(** What several results differentiated at once should give. *)
From Coq Require Import Reals List Arith.
From Verif Require Import Base Vec AadModel AadSpec AadRealSpec MultiModel.
Import ListNotations.

Section Spec.
Variables ncdf erfc : R -> R.
Variables (BN BA BD : nat).
(** the computation with exact real numbers, for at most [K] results; the smallest adjoints are left out as in the code *)
Definition r_jacobian (K : nat) := jacobian 0%R 1%R Rplus Rmult r_tiny r_is_zero r_beval r_bleft r_bright (r_ueval ncdf erfc) r_uder BN BA BD (Mode true K).
Definition r_sweeps (K : nat) := sweeps 0%R 1%R Rplus Rmult r_tiny r_is_zero BN (Mode true K).
End Spec.
(** adjoint [j] of the number with index [q] *)
Definition adjoint {D} (ns : list (number D)) (q j : nat) (t : mtape D) : outcome D := do n <- get ns q; get_many (at_node n) j t.
(** adjoint [j] of every input is the derivative of result [j] with respect to it *)
Definition derivatives (ncdf erfc : R -> R) (x : nat -> R) (p : list (stmt R)) (results : list nat) (ns : list (number R)) (t : mtape R) : Prop :=
  forall j r i q, nth_error results j = Some r -> only_input p i q ->
  exists a, adjoint ns q j t = Ok a /\ derivable_pt_lim (fun y => nth r (r_values ncdf erfc (with_input x i y) p []) 0%R) (x i) a.
