(** Words of the property of header tables. *)
From Coq Require Import ZArith List Arith Bool.
From Verif Require Import Base StringModel NdModel HeaderModel.
Import ListNotations.
Local Open Scope nat_scope.
Section Spec.
Context {A C : Type}.
Variable zero : A.
Variable blank : C.
(** rows added: axis, place, entries *)
Definition addition : Type := str * nat * list C.
Fixpoint add_all (f : full A C) (adds : list addition) : outcome (full A C) :=
  match adds with [] => Ok f | (axis, k, values) :: r => do f' <- add_header_row blank f axis (Z.of_nat k) values; add_all f' r end.
Definition about (name : str) (a : addition) : bool := match ci_compare name (fst (fst a)) with Eq => true | _ => false end.
(** the row added last at a place, blank if none *)
Definition latest_row (adds : list addition) (name : str) (k : nat) (none : list C) : list C :=
  fold_left (fun x a => if about name a && (snd (fst a) =? k) then snd a else x) adds none.
(** the table is as long as the axis, or as the rows added to it need *)
Definition rows_needed (n : nat) (adds : list addition) (name : str) : nat :=
  fold_left (fun n a => if about name a then Nat.max n (S (snd (fst a))) else n) adds n.
(** the rows fit: each is for an axis there is, and as wide as its labels *)
Definition fitting (names : list str) (ls : list (list str)) (adds : list addition) : Prop :=
  Forall (fun a => exists i, i < length names /\ ci_compare (nth i names []) (fst (fst a)) = Eq /\ length (snd a) = length (nth i ls [])) adds.
End Spec.
