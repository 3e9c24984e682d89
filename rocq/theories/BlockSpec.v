(** What the tape's memory promises: a list of the recorded elements, a mark as a number of elements. *)
From Coq Require Import List Arith Bool.
From Verif Require Import Base BlockModel.
Import ListNotations.

Section Spec.
Context {T : Type}.
(** the elements recorded, and how many there were when the mark was set *)
Definition tape : Type := (list T * option nat)%type.
(** [None]: the program asks to go back to a mark that was not set, or lies ahead *)
Definition spec_step (o : op T) (t : tape) : option tape :=
  let '(l, m) := t in
  match o with
  | Emplace x => Some (l ++ [x], m)
  | SetMark => Some (l, Some (length l))
  | RewindToMark => match m with Some k => if k <=? length l then Some (firstn k l, m) else None | None => None end
  | Rewind => Some ([], m)
  | Clear => Some ([], None)
  end.
Fixpoint spec_run (ops : list (op T)) (t : tape) : option tape :=
  match ops with [] => Some t | o :: r => match spec_step o t with Some t' => spec_run r t' | None => None end end.
(** element number [k] is kept throughout the operations *)
Fixpoint keeps (k : nat) (ops : list (op T)) (t : tape) : Prop :=
  k < length (fst t) /\ match ops with [] => True | o :: r => match spec_step o t with Some t' => keeps k r t' | None => True end end.
End Spec.
Arguments tape T : clear implicits.
