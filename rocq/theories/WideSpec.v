(** Words for general band matrices over the reals. *)
From Coq Require Import Reals List Arith Bool.
From Verif Require Import Base LinNum WideModel BandSpec.
Import ListNotations.
Local Open Scope R_scope.
Definition updated (mat : nat -> nat -> R) (i j : nat) (v : R) : nat -> nat -> R := fun r c => if (r =? i)%nat && (c =? j)%nat then v else mat r c.
(** w was made as an n by n matrix with these numbers of diagonals above and below the main one, then written to by Set and Add in any way;
    mat is the matrix those calls describe *)
Inductive written (n above below : nat) : @band RealLin -> (nat -> nat -> R) -> Prop :=
| written_new : written n above below (band_new n above below) (fun _ _ => 0)
| written_set w mat i j v w' : written n above below w mat -> (i < n)%nat -> (j < n)%nat -> band_set w i j v = Ok w' ->
    written n above below w' (updated mat i j v)
| written_add w mat i j v w' : written n above below w mat -> (i < n)%nat -> (j < n)%nat -> band_add w i j v = Ok w' ->
    written n above below w' (updated mat i j (mat i j + v)).
Definition in_band (above below i j : nat) : Prop := (i <= j + below /\ j <= i + above)%nat.
Definition equal_transpose (n : nat) (mat : nat -> nat -> R) : Prop := forall i j, (i < n)%nat -> (j < n)%nat -> mat i j = mat j i.
(** the diagonal is not small enough to count as zero *)
Definition solid_diagonal (n : nat) (mat : nat -> nat -> R) : Prop := forall i, (i < n)%nat -> @epsilon RealLin <= Rabs (mat i i).
