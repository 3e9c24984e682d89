(** Words of the property of reports and n-dimensional arrays. *)
From Coq Require Import List Arith.
From Verif Require Import Base StringModel NdModel.
Import ListNotations.
(** every coordinate is below the size of its axis *)
Definition in_range (sizes loc : list nat) : Prop := Forall2 (fun n x => x < n) sizes loc.
Definition cells (sizes : list nat) : nat := fold_right Nat.mul 1 sizes.
(** the arrays a program makes without resizing *)
Inductive made_array {A} (sizes : list nat) : arr A -> Prop :=
| made_new_array v a : new_array sizes v = Ok a -> made_array sizes a
| made_put_array a loc x a' : made_array sizes a -> in_range sizes loc -> arr_put a loc x = Ok a' -> made_array sizes a'.
(** axis names, none given twice *)
Definition distinct (names : list str) : Prop := ForallOrdPairs (fun a b => ci_compare a b <> Eq) names.
Section Spec.
Context {A : Type}.
Variable zero : A.
Fixpoint write_all (r : report A) (ws : list (list nat * A)) : report A * outcome unit :=
  match ws with
  | [] => (r, Ok tt)
  | (loc, x) :: t => match write_cell zero r loc x with (r', Ok _) => write_all r' t | e => e end
  end.
(** the value written to an address last, zero if none was *)
Definition latest (ws : list (list nat * A)) (loc : list nat) : A :=
  fold_left (fun x w => if list_eq_dec Nat.eq_dec (fst w) loc then snd w else x) ws zero.
(** the first size grows to hold every address written *)
Definition grown (n0 : nat) (ws : list (list nat * A)) : nat := fold_left (fun n w => Nat.max n (S (hd 0 (fst w)))) ws n0.
End Spec.
