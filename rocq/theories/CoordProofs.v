From Coq Require Import Reals Bool Lra.
From Verif Require Import Base BrentModel BlackModel BlackProofs CoordModel.
Local Open Scope R_scope.

Definition sound (m : coord_map) : Prop := match m with IdentityMap => True | SinhMap l => 0 < l end.
Lemma eps_pos : 0 < epsilon. Proof. unfold epsilon. lra. Qed.
Lemma positive_iff x : is_positive x = true <-> epsilon <= x.
Proof. unfold is_positive, rleb. destruct (Rle_dec epsilon x); split; try tauto; discriminate. Qed.
Lemma rleb_iff x y : rleb x y = true <-> x <= y.
Proof. unfold rleb. destruct (Rle_dec x y); split; try tauto; discriminate. Qed.
Lemma rltb_iff x y : rltb x y = true <-> x < y.
Proof. unfold rltb. destruct (Rlt_dec x y); split; try tauto; discriminate. Qed.
(** What is made: the range squared less one decides. *)
Lemma made w r m : new_sinh_map w r = Ok m -> epsilon <= w /\ 1 <= r /\
  ((m = IdentityMap /\ r * r - 1 < epsilon) \/ (m = SinhMap (w / sqrt (r * r - 1)) /\ epsilon <= r * r - 1)).
Proof.
  unfold new_sinh_map. destruct (is_positive w && rleb 1 r) eqn:E; [|discriminate]. apply andb_true_iff in E as [E1 E2].
  apply positive_iff in E1. apply rleb_iff in E2. split; [exact E1|]. split; [exact E2|].
  assert (0 <= r * r - 1) as P by nra. rewrite sqrt_sqrt in H by exact P. revert H. unfold is_zero. pose proof eps_pos.
  destruct (rltb (r * r - 1) epsilon) eqn:Q.
  - apply rltb_iff in Q. assert (rltb (- (r * r - 1)) epsilon = true) as -> by (apply rltb_iff; lra). cbn [andb]. intros [= <-]. left. split; [reflexivity|exact Q].
  - cbn [andb]. intros [= <-]. right. split; [reflexivity|]. apply Rnot_lt_le. intros L. apply rltb_iff in L. congruence.
Qed.
Lemma made_sound w r m : new_sinh_map w r = Ok m -> sound m.
Proof.
  intros H. destruct (made w r m H) as (W & _ & [[-> _]|[-> E]]); [exact Logic.I|]. pose proof eps_pos. cbn [sound].
  apply Rdiv_lt_0_compat; [lra|]. apply sqrt_lt_R0. lra.
Qed.
Lemma back_and_forth m y : sound m -> y_of m (x_of m y) = y /\ x_of m (y_of m y) = y.
Proof.
  destruct m as [|l]; cbn [sound x_of y_of]; intros H; [split; reflexivity|]. split.
  - replace (l * sinh (y / l) / l) with (sinh (y / l)) by (field; lra). rewrite arcsinh_sinh. field. lra.
  - replace (l * arcsinh (y / l) / l) with (arcsinh (y / l)) by (field; lra). rewrite sinh_arcsinh. field. lra.
Qed.
Lemma scaled_rate l y : l <> 0 -> derivable_pt_lim (fun z => z / l) y (/ l).
Proof.
  intros H. apply (rate_ext (mult_real_fct (/ l) id)); [intros z; unfold mult_real_fct, id; field; exact H|].
  eapply rate_value; [apply derivable_pt_lim_scal, derivable_pt_lim_id|ring].
Qed.
Lemma map_rate m y : sound m -> derivable_pt_lim (x_of m) y (dx_dy m y).
Proof.
  destruct m as [|l]; cbn [sound x_of dx_dy]; intros H; [apply derivable_pt_lim_id|].
  apply (rate_ext (mult_real_fct l (comp sinh (fun z => z / l)))); [reflexivity|].
  eapply rate_value; [apply derivable_pt_lim_scal, derivable_pt_lim_comp; [apply scaled_rate; lra|apply derivable_pt_lim_sinh]|]. field. lra.
Qed.
Lemma map_rate2 m y : sound m -> derivable_pt_lim (dx_dy m) y (d2x_dy2 m y).
Proof.
  destruct m as [|l]; cbn [sound dx_dy d2x_dy2]; intros H; [apply derivable_pt_lim_const|].
  apply (rate_ext (comp cosh (fun z => z / l))); [reflexivity|].
  eapply rate_value; [apply derivable_pt_lim_comp; [apply scaled_rate; lra|apply derivable_pt_lim_cosh]|]. field. lra.
Qed.
Lemma cosh_sq y : cosh y = sqrt (sinh y * sinh y + 1).
Proof.
  assert (P : 0 < cosh y) by (unfold cosh; pose proof (exp_pos y); pose proof (exp_pos (- y)); lra).
  rewrite <- (sqrt_square (cosh y)) by lra. f_equal. unfold cosh, sinh.
  assert (exp y * exp (- y) = 1) by (rewrite <- exp_plus, Rplus_opp_r; apply exp_0). nra.
Qed.
Lemma slope_at m x : sound m -> dx_dy m (y_of m x) = match m with IdentityMap => 1 | SinhMap l => sqrt ((x / l) * (x / l) + 1) end.
Proof.
  destruct m as [|l]; cbn [sound dx_dy y_of]; intros H; [reflexivity|]. rewrite cosh_sq.
  replace (l * arcsinh (x / l) / l) with (arcsinh (x / l)) by (field; lra). now rewrite sinh_arcsinh.
Qed.
Lemma slope_one m y : sound m -> 1 <= dx_dy m y.
Proof.
  destruct m as [|l]; cbn [sound dx_dy]; intros H; [lra|]. rewrite cosh_sq. rewrite <- sqrt_1 at 1. apply sqrt_le_1_alt. nra.
Qed.
Lemma map_inc m a b : sound m -> a < b -> x_of m a < x_of m b.
Proof.
  intros H L. apply (mono_lt (x_of m) (dx_dy m)); [exact L|intros; now apply map_rate|]. intros x _. pose proof (slope_one m x H). lra.
Qed.
Lemma sinh_zero : sinh 0 = 0. Proof. unfold sinh. rewrite Ropp_0. lra. Qed.
Lemma cosh_zero : cosh 0 = 1. Proof. unfold cosh. rewrite Ropp_0, exp_0. lra. Qed.
Lemma map_odd m y : sound m -> x_of m (- y) = - x_of m y /\ dx_dy m (- y) = dx_dy m y.
Proof.
  destruct m as [|l]; cbn [sound x_of dx_dy]; intros H; [split; lra|]. replace (- y / l) with (- (y / l)) by (field; lra).
  unfold sinh, cosh. rewrite Ropp_involutive. split; lra.
Qed.
(** The slope within a width. *)
Lemma slope_range w r m x : new_sinh_map w r = Ok m -> Rabs x <= w -> 1 <= dx_dy m (y_of m x) <= r.
Proof.
  intros H Hx. split; [apply slope_one; eapply made_sound, H|]. rewrite slope_at by (eapply made_sound, H).
  destruct (made w r m H) as (W & R1 & [[-> _]|[-> E]]); [exact R1|]. pose proof eps_pos.
  assert (S0 : 0 < sqrt (r * r - 1)) by (apply sqrt_lt_R0; lra). assert (SS : sqrt (r * r - 1) * sqrt (r * r - 1) = r * r - 1) by (apply sqrt_sqrt; lra).
  apply Rle_trans with (sqrt (r * r)); [apply sqrt_le_1_alt|rewrite sqrt_square; lra].
  replace (x / (w / sqrt (r * r - 1)) * (x / (w / sqrt (r * r - 1)))) with ((x * x) / (w * w) * (sqrt (r * r - 1) * sqrt (r * r - 1))) by (field; lra). rewrite SS.
  assert (x * x <= w * w). { unfold Rabs in Hx. destruct (Rcase_abs x); nra. }
  assert (x * x / (w * w) <= 1). { apply (Rmult_le_reg_r (w * w)); [nra|]. unfold Rdiv. rewrite Rmult_assoc, Rinv_l by nra. lra. }
  nra.
Qed.
Lemma slope_edge w r m : new_sinh_map w r = Ok m -> epsilon <= r * r - 1 -> dx_dy m (y_of m w) = r.
Proof.
  intros H L. rewrite slope_at by (eapply made_sound, H). pose proof eps_pos. destruct (made w r m H) as (W & R1 & [[-> E]|[-> E]]); [lra|].
  assert (S0 : 0 < sqrt (r * r - 1)) by (apply sqrt_lt_R0; lra). assert (SS : sqrt (r * r - 1) * sqrt (r * r - 1) = r * r - 1) by (apply sqrt_sqrt; lra).
  transitivity (sqrt (r * r)); [f_equal|apply sqrt_square; lra].
  replace (w / (w / sqrt (r * r - 1)) * (w / (w / sqrt (r * r - 1)))) with (sqrt (r * r - 1) * sqrt (r * r - 1)) by (field; lra). lra.
Qed.
Lemma slope_edge_close w r m : new_sinh_map w r = Ok m -> r - epsilon < dx_dy m (y_of m w) <= r.
Proof.
  intros H. destruct (made w r m H) as (W & R1 & [[E1 E]|[E1 E]]); pose proof eps_pos.
  - subst. cbn [y_of dx_dy]. nra.
  - rewrite (slope_edge w r m H E). lra.
Qed.
Lemma made_iff w r : (exists m, new_sinh_map w r = Ok m) <-> epsilon <= w /\ 1 <= r.
Proof.
  split; [intros [m H]; destruct (made w r m H) as (A & B & _); tauto|]. intros [A B]. unfold new_sinh_map.
  apply positive_iff in A. apply rleb_iff in B. rewrite A, B. cbn [andb]. eexists. reflexivity.
Qed.
Lemma identity_made : new_identity_map = Ok IdentityMap.
Proof.
  unfold new_identity_map. pose proof eps_pos. destruct (proj2 (made_iff 1 1)) as [m H0]; [unfold epsilon; lra|]. rewrite H0. destruct (made 1 1 m H0) as (_ & _ & [[-> _]|[_ E]]); [reflexivity|lra].
Qed.
