(** What a dictionary is, independently of the map it is stored in. *)
From Coq Require Import String Ascii ZArith List Bool Lia.
From Verif Require Import Base DateModel StringModel StringSpec OMap DictModel.
Import ListNotations.
Open Scope Z_scope.

(** Two keys name the same entry when they agree up to letter case once spaces, tabs and underscores are dropped. *)
Definition same_key (a b : str) : Prop := exists ta tb, strip a ta /\ strip b tb /\ same_up_to_case ta tb.

Section Spec.
Variables N T : Type.
Notation cell := (cell N T).
(** The insertions made so far, newest first, each under a key as the user wrote it. *)
Inductive stored : list (str * cell) -> dict N T -> Prop :=
| stored_none : stored [] []
| stored_more l d d' k v : stored l d -> insert d k v = Ok d' -> stored ((k, v) :: l) d'.

(** A cell that keeps its meaning as text: what is written is not empty, has no separator in it, and is read as the cell. *)
Definition portable (coerce : cell -> outcome str) (read : str -> outcome cell) (v : cell) : Prop :=
  exists t, coerce v = Ok t /\ t <> [] /\ ~ In ";"%char t /\ ~ In "="%char t /\ read t = Ok v.
(** A key that keeps its meaning as text: something of it is left, and that contains no separator. *)
Definition portable_key (k : str) : Prop :=
  exists t, strip k t /\ t <> [] /\ ~ In ";"%char t /\ ~ In "="%char t.
End Spec.
Arguments stored {N T}. Arguments portable {N T}.
