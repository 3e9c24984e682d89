(** What a cubic spline is, in words of real functions. *)
From Coq Require Import Reals List Arith ZArith.
From Verif Require Import CubicModel.
Import ListNotations.
Open Scope R_scope.

(** s has derivative s1 everywhere, s1 has derivative s2 everywhere, and s2 is continuous *)
Definition twice_smooth (s s1 s2 : R -> R) : Prop :=
  (forall t, derivable_pt_lim s t (s1 t)) /\ (forall t, derivable_pt_lim s1 t (s2 t)) /\ continuity s2.
(** between neighbouring knots the third derivative is constant *)
Definition cubic_between (x : list R) (s2 : R -> R) : Prop :=
  forall k, (S k < length x)%nat -> exists c, forall t, nth k x 0 < t < nth (S k) x 0 -> derivable_pt_lim s2 t c.
(** the derivative of the order asked for takes the value asked for at t *)
Definition meets (b : boundary) (s1 s2 : R -> R) (t : R) : Prop :=
  (order b = 1%Z /\ s1 t = bvalue b) \/ (order b = 2%Z /\ s2 t = bvalue b) \/ (order b = 3%Z /\ derivable_pt_lim s2 t (bvalue b)).
Definition known_order (b : boundary) : Prop := (1 <= order b <= 3)%Z.
