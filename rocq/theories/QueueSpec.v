(** The queue as one object used by one thread at a time. *)
From Coq Require Import List Bool.
From Verif Require Import QueueModel.
Import ListNotations.
Section Spec.
Context {V : Type}.
(** [obeys (q, interrupted) e (q', interrupted')] *)
Inductive obeys : list V * bool -> event V -> list V * bool -> Prop :=
| o_push (q : list V) b (v : V) : obeys (q, b) (Pushed v) (q ++ [v], b)
| o_pop (q : list V) b (v : V) : obeys (v :: q, b) (Popped v) (q, b)
| o_try b : obeys ([], b) TryFailed ([], b)
| o_fail q : obeys (q, true) PopFailed (q, true)
| o_empty (q : list V) b : obeys (q, b) (SaidEmpty (match q with [] => true | _ => false end)) (q, b)
| o_intr q b : obeys (q, b) Interrupted (q, true).
Inductive obeys_all : list V * bool -> list (event V) -> list V * bool -> Prop :=
| all_nil a : obeys_all a [] a
| all_snoc a b c (es : list (event V)) e : obeys_all a es b -> obeys b e c -> obeys_all a (es ++ [e]) c.
(** values pushed and popped, in order *)
Fixpoint pushes (es : list (event V)) : list V := match es with [] => [] | Pushed v :: r => v :: pushes r | _ :: r => pushes r end.
Fixpoint pops (es : list (event V)) : list V := match es with [] => [] | Popped v :: r => v :: pops r | _ :: r => pops r end.
End Spec.
