(** C74: the coordinate maps of the finite-difference grids. *)
From Coq Require Import Reals Bool Lra.
From Verif Require Import Base BlackModel CoordModel CoordProofs.
Local Open Scope R_scope.

(** A map is made from a width of at least 2e-14 and a range of slopes of at least 1; anything else is refused. *)
Theorem C74_made : forall w r, ((exists m, new_sinh_map w r = Ok m) <-> epsilon <= w /\ 1 <= r) /\
  (~ (epsilon <= w /\ 1 <= r) -> new_sinh_map w r = Throw).
Proof.
  intros w r. split; [apply made_iff|]. intros N. rewrite <- made_iff in N. unfold new_sinh_map in *. destruct (is_positive w && _); [|reflexivity]. exfalso. apply N. eexists. reflexivity.
Qed.
Print Assumptions C74_made.
(** The map to x and the map to y undo one another. *)
Theorem C74_inverse : forall w r m, new_sinh_map w r = Ok m -> forall t, y_of m (x_of m t) = t /\ x_of m (y_of m t) = t.
Proof. intros w r m H t. apply back_and_forth. eapply made_sound, H. Qed.
Print Assumptions C74_inverse.
(** What is returned beside the value of a map are its first and second derivatives. *)
Theorem C74_derivatives : forall w r m, new_sinh_map w r = Ok m -> forall y,
  derivable_pt_lim (x_of m) y (dx_dy m y) /\ derivable_pt_lim (dx_dy m) y (d2x_dy2 m y).
Proof. intros w r m H y. split; [apply map_rate|apply map_rate2]; eapply made_sound, H. Qed.
Print Assumptions C74_derivatives.
(** A map takes 0 to 0 with slope 1, is symmetric and increasing, and its slope is nowhere less than 1. *)
Theorem C74_shape : forall w r m, new_sinh_map w r = Ok m ->
  x_of m 0 = 0 /\ dx_dy m 0 = 1 /\ (forall y, x_of m (- y) = - x_of m y /\ dx_dy m (- y) = dx_dy m y) /\
  (forall a b, a < b -> x_of m a < x_of m b) /\ (forall y, 1 <= dx_dy m y).
Proof.
  intros w r m H. pose proof (made_sound w r m H) as S. repeat split.
  - destruct m as [|l]; cbn [x_of]; [reflexivity|]. unfold Rdiv. rewrite Rmult_0_l, sinh_zero. ring.
  - destruct m as [|l]; cbn [dx_dy]; [reflexivity|]. unfold Rdiv. now rewrite Rmult_0_l, cosh_zero.
  - apply map_odd, S.
  - apply map_odd, S.
  - intros a b. now apply map_inc.
  - intros y. now apply slope_one.
Qed.
Print Assumptions C74_shape.
(** Within the width the slope lies between 1 and the range asked for, which it reaches at the width; a range that differs from 1 by less
    than a rounding error gives the identity, so it is reached up to 2e-14. *)
Theorem C74_range : forall w r m, new_sinh_map w r = Ok m ->
  (forall x, Rabs x <= w -> 1 <= dx_dy m (y_of m x) <= r) /\ (epsilon <= r * r - 1 -> dx_dy m (y_of m w) = r) /\ r - epsilon < dx_dy m (y_of m w) <= r.
Proof.
  intros w r m H. split; [intros x; now apply slope_range|]. split; [now apply slope_edge|now apply slope_edge_close].
Qed.
Print Assumptions C74_range.
(** The identity map leaves every coordinate alone. *)
Theorem C74_identity : exists m, new_identity_map = Ok m /\ forall t, x_of m t = t /\ y_of m t = t /\ dx_dy m t = 1 /\ d2x_dy2 m t = 0.
Proof. exists IdentityMap. split; [exact identity_made|]. repeat split. Qed.
Print Assumptions C74_identity.
Example C74_example : exists m, new_sinh_map 3 10 = Ok m /\ dx_dy m (y_of m 3) = 10 /\ m <> IdentityMap.
Proof.
  destruct (proj2 (made_iff 3 10)) as [m H]; [unfold epsilon; lra|]. exists m. split; [exact H|]. split; [apply (slope_edge 3 10 m H); unfold epsilon; lra|].
  intros ->. destruct (made 3 10 _ H) as (_ & _ & [[_ E]|[E _]]); [unfold epsilon in E; lra|discriminate].
Qed.
