(** Words of the matrix property. *)
From Coq Require Import List Arith.
From Verif Require Import Base MatrixModel.
Import ListNotations.
Section Spec.
Context {A : Type}.
Variable dflt : A.
(** the matrices a program can make *)
Inductive made : mat A -> Prop :=
| made_default : made no_matrix
| made_new r c v : made (new_mat r c v)
| made_resize moved m r c m' : made m -> resize dflt moved m r c = Ok m' -> made m'
| made_put m i j x m' : made m -> i < rows m -> j < cols m -> put_at m i j x = Ok m' -> made m'
| made_copy m : made m -> made (copy_of m)
| made_transpose m m' : made m -> make_transpose dflt m = Ok m' -> made m'
| made_from vv by_cols m : (forall v w, In v vv -> In w vv -> length v = length w) -> from_vectors dflt vv by_cols true false = Ok m -> made m.
(** the entries of m are those of f *)
Definition holds (m : mat A) (r c : nat) (f : nat -> nat -> A) : Prop := rows m = r /\ cols m = c /\ forall i j, i < r -> j < c -> at_ m i j = Ok (f i j).
(** the entries of a list of rows *)
Definition entry (vv : list (list A)) (i j : nat) : A := nth j (nth i vv []) dflt.
Definition rectangular (vv : list (list A)) (c : nat) : Prop := forall v, In v vv -> length v = c.
End Spec.
