(** Specification vocabulary for strings, independent of the model's functions. *)
From Coq Require Import String Ascii ZArith List Bool.
From Verif Require Import Base StringModel.
Import ListNotations.
Open Scope Z_scope.

(** Two bytes are the same up to letter case when they are equal or one is a letter and the other is the same
    letter in the other case.  (Letters are recognised by the low seven bits, so bytes 193..218 and 225..250 are
    also paired.) *)
Definition same_letter (c d : ascii) : Prop :=
  code c = code d \/
  (65 <= code c mod 128 <= 90 /\ code d = code c + 32) \/ (65 <= code d mod 128 <= 90 /\ code c = code d + 32).
Definition same_up_to_case (a b : str) : Prop := Forall2 same_letter a b.

(** Joining with a one-character separator. *)
Fixpoint join (sep : ascii) (l : list str) : str :=
  match l with
  | [] => []
  | [a] => a
  | a :: r => a ++ sep :: join sep r
  end.

(** Space, tab and underscore are ignored by condensed comparison. *)
Definition ignorable (c : ascii) : Prop := c = " "%char \/ c = "009"%char \/ c = "_"%char.
Inductive strip : str -> str -> Prop :=
| strip_nil : strip [] []
| strip_skip c s t : ignorable c -> strip s t -> strip (c :: s) t
| strip_keep c s t : ~ ignorable c -> strip s t -> strip (c :: s) (c :: t).
Definition ascii_only (s : str) : Prop := Forall (fun c => code c < 128) s.

Fixpoint iter {A} (n : nat) (f : A -> A) (x : A) : A := match n with O => x | S k => f (iter k f x) end.
