(** Words of the property of the normal distribution function. *)
From Coq Require Import Reals.
Local Open Scope R_scope.
(** a complementary error function satisfies this reflection *)
Definition reflects (erfc : R -> R) : Prop := forall x, erfc (- x) = 2 - erfc x.
