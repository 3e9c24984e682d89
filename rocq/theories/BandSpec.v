(** Words of the linear-algebra properties: a matrix is a function of row and column. *)
From Coq Require Import Reals List Arith.
From Verif Require Import Base BandModel.
Import ListNotations.
Open Scope R_scope.
(** f 0 + ... + f (n-1) *)
Fixpoint sum (n : nat) (f : nat -> R) : R := match n with O => 0 | S k => sum k f + f k end.
(** b is the product of the n by n matrix with x *)
Definition product (n : nat) (mat : nat -> nat -> R) (x b : list R) : Prop :=
  length b = n /\ forall i, (i < n)%nat -> nth i b 0 = sum n (fun j => mat i j * nth j x 0).
Definition transposed (mat : nat -> nat -> R) : nat -> nat -> R := fun i j => mat j i.
Definition identity (i j : nat) : R := if (i =? j)%nat then 1 else 0.
(** a matrix of the library: made with a size and then written to in any way *)
Inductive built (n : nat) : tri -> Prop :=
| built_new t : tri_new n = Ok t -> built n t
| built_set t i j v t' : built n t -> (i < n)%nat -> (j < n)%nat -> tri_set t i j v = Ok t' -> built n t'.
(** what reading its elements gives *)
Definition reads (t : tri) (n : nat) (mat : nat -> nat -> R) : Prop := forall i j, (i < n)%nat -> (j < n)%nat -> tri_at t i j = Ok (mat i j).
(** the diagonal outweighs the rest of its row *)
Definition dominant (n : nat) (mat : nat -> nat -> R) (margin : R) : Prop :=
  forall i, (i < n)%nat -> margin + sum n (fun j => if (j =? i)%nat then 0 else Rabs (mat i j)) <= Rabs (mat i i).
