(** What it means for an object graph to be copied, and which graphs can be archived. *)
From Coq Require Import String Ascii ZArith List Bool Lia.
From Verif Require Import Base DateModel StringModel StringSpec OMap DictModel SplatModel SplatSpec ShareModel.
Import ListNotations.
Open Scope Z_scope.

Section Spec.
Variables N T : Type.
Notation cell := (DictModel.cell N T).
Variable heap : nat -> object N T.

(** Members copied: same names, same values; a reference to [a] becomes a reference to the copy of [a]. *)
Definition member_copy (copy : nat -> nat -> Prop) (p q : str * member N T) : Prop :=
  fst p = fst q /\ match snd p, snd q with
                   | MRef a, MRef h => copy a h
                   | MRef _, _ | _, MRef _ => False
                   | x, y => x = y
                   end.
(** [b], from position [h] on, is a copy of what [root] refers to: one copy for each object, different for different objects. *)
Definition is_copy (root : nat) (h : nat) (b : list (object N T)) : Prop :=
  exists copy : nat -> nat -> Prop,
    copy root h /\
    (forall a k, copy a k -> exists o, nth_error b k = Some o /\ otype o = otype (heap a) /\
       Forall2 (member_copy copy) (members (heap a)) (members o)) /\
    (forall a k k', copy a k -> copy a k' -> k = k') /\
    (forall a a' k, copy a k -> copy a' k -> a = a').

(** A member that has a faithful table. *)
Definition readable (m : member N T) : Prop :=
  match m with
  | MScalar _ => True
  | MVector _ l => forall x, In x l -> ~ blank x
  | MMatrix m => exists w, 1 <= w /\ m <> [] /\ Forall (fun l => zlen l = w) m /\
      forall j, (1 <= j < Z.to_nat w)%nat -> exists l x, In l m /\ nth_error l j = Some x /\ ~ blank x
  | MRef _ => True
  end.
(** An object that can be archived: a type whose reader reads these members, at least one member, different names, readable
    values. *)
Definition archivable (schema : str -> option (list (str * kind))) (o : object N T) : Prop :=
  otype o <> [] /\ members o <> [] /\ schema (otype o) = Some (map (fun p => (fst p, kind_of (snd p))) (members o)) /\
  Forall (fun p => fst p <> [] /\ readable (snd p)) (members o) /\
  ForallOrdPairs (fun p q => ~ same_up_to_case (fst p) (fst q)) (members o).
(** The objects [root] refers to, directly or not. *)
Inductive reachable (root : nat) : nat -> Prop :=
| reachable_root : reachable root root
| reachable_ref a n b : reachable root a -> In (n, MRef b) (members (heap a)) -> reachable root b.
(** References go down in [rank]: there are no cycles. *)
Definition acyclic (root : nat) (rank : nat -> nat) : Prop :=
  forall a n b, reachable root a -> In (n, MRef b) (members (heap a)) -> (rank b < rank a)%nat.
End Spec.
Arguments is_copy {N T}. Arguments archivable {N T}. Arguments acyclic {N T}. Arguments reachable {N T}. Arguments readable {N T}. Arguments member_copy {N T}.
