(** What a set of trades needs. *)
From Coq Require Import ZArith List Reals.
From Verif Require Import OMap StringModel StringSpec DateTimeModel UnderlyingModel PathSpec.
Import ListNotations.

Inductive need := Pays (ccy day : Z) | Fixes (index : str) (at_ : when) | Credit (name : str) (day : Z).
(** How an Underlying_ comes about: from nothing, by Include, and by adding one to another in any grouping. *)
Inductive book := Empty | Include (b : book) (n : need) | Add (b more : book).
Fixpoint needs (b : book) : list need :=
  match b with Empty => [] | Include b n => needs b ++ [n] | Add b c => needs b ++ needs c end.
Fixpoint build (b : book) : underlying :=
  match b with
  | Empty => nothing
  | Include b (Pays c d) => include_ccy (build b) c d
  | Include b (Fixes i t) => include_index (build b) i t
  | Include b (Credit n d) => include_credit (build b) n d
  | Add b c => add_to (build b) (build c)
  end.
(** What the result says about a currency, an index and a credit name. *)
Definition pay_date (u : underlying) (c : Z) : option Z := mfind Z.compare (pay_ccys u) c.
Definition fix_time (u : underlying) (i : str) : option when := mfind ci_compare (indices u) i.
Definition credit_date (u : underlying) (n : str) : option Z := mfind ci_compare (credits u) n.
(** [o] is the latest of the dates [v] with [P v], or nothing when there is none. *)
Definition latest {V} (le : V -> V -> Prop) (P : V -> Prop) (o : option V) : Prop :=
  match o with None => forall v, ~ P v | Some v => P v /\ forall w, P w -> le w v end.
Definition when_le (a b : when) : Prop := (fst a < fst b)%Z \/ (fst a = fst b /\ (snd a <= snd b)%R).
