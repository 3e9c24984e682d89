(** Words of the grid-filling property. *)
From Coq Require Import Reals List.
Import ListNotations.
Local Open Scope R_scope.
(** each point is followed by one related to it *)
Inductive steps (P : R -> R -> Prop) : list R -> Prop :=
| steps_nil : steps P []
| steps_one x : steps P [x]
| steps_cons x y l : P x y -> steps P (y :: l) -> steps P (x :: y :: l).
Definition increasing : list R -> Prop := steps Rlt.
Definition steps_above (d : R) : list R -> Prop := steps (fun x y => x + d < y).
Definition steps_at_most (d : R) : list R -> Prop := steps (fun x y => y - x <= d).
