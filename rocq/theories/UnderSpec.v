(** Words of the property of the underdetermined search. *)
From Coq Require Import ZArith List.
From Verif Require Import Base DateTimeModel UnderModel.
Import ListNotations.
Local Open Scope Z_scope.
(** the points at which the function, and its gradient, were evaluated *)
Fixpoint evaluated {X} (l : list (call X)) : list X := match l with [] => [] | CallF x :: r => x :: evaluated r | CallJ _ :: r => evaluated r end.
Fixpoint differentiated {X} (l : list (call X)) : list X := match l with [] => [] | CallJ x :: r => x :: differentiated r | CallF _ :: r => differentiated r end.
Definition evaluations {X} (l : list (call X)) : Z := Z.of_nat (length (evaluated l)).
Definition gradients {X} (l : list (call X)) : Z := Z.of_nat (length (differentiated l)).
