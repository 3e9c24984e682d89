(** Proofs for C88. *)
From Coq Require Import Reals Lra.
From Coquelicot Require Import Coquelicot.
From Verif Require Import Base BlackModel BlackSpec BlackProofs ExpectSpec.
Local Open Scope R_scope.

Definition at_right (F : R -> R) (l : R) : Prop := forall e, 0 < e -> exists m, forall b, m < b -> Rabs (F b - l) < e.
Definition at_left (F : R -> R) (l : R) : Prop := forall e, 0 < e -> exists m, forall a, a < m -> Rabs (F a - l) < e.
Lemma right_lin F G l k c d : at_right F l -> at_right G k -> at_right (fun x => c * F x + d * G x) (c * l + d * k).
Proof.
  intros HF HG e He. assert (Hc : 0 < e / (2 * (Rabs c + 1))) by (apply Rdiv_lt_0_compat; [exact He|pose proof (Rabs_pos c); lra]).
  assert (Hd : 0 < e / (2 * (Rabs d + 1))) by (apply Rdiv_lt_0_compat; [exact He|pose proof (Rabs_pos d); lra]).
  destruct (HF _ Hc) as (m1 & H1). destruct (HG _ Hd) as (m2 & H2). exists (Rmax m1 m2). intros b Hb. specialize (H1 b). specialize (H2 b). pose proof (Rmax_l m1 m2). pose proof (Rmax_r m1 m2).
  specialize (H1 ltac:(lra)). specialize (H2 ltac:(lra)). replace (c * F b + d * G b - (c * l + d * k)) with (c * (F b - l) + d * (G b - k)) by ring.
  eapply Rle_lt_trans; [apply Rabs_triang|]. rewrite !Rabs_mult. pose proof (Rabs_pos c). pose proof (Rabs_pos d). pose proof (Rabs_pos (F b - l)). pose proof (Rabs_pos (G b - k)).
  assert (Rabs c * Rabs (F b - l) < e / 2). { apply Rle_lt_trans with (Rabs c * (e / (2 * (Rabs c + 1)))); [apply Rmult_le_compat_l; lra|]. apply Rlt_le_trans with ((Rabs c + 1) * (e / (2 * (Rabs c + 1)))); [apply Rmult_lt_compat_r; lra|]. right. field. lra. }
  assert (Rabs d * Rabs (G b - k) < e / 2). { apply Rle_lt_trans with (Rabs d * (e / (2 * (Rabs d + 1)))); [apply Rmult_le_compat_l; lra|]. apply Rlt_le_trans with ((Rabs d + 1) * (e / (2 * (Rabs d + 1)))); [apply Rmult_lt_compat_r; lra|]. right. field. lra. }
  lra.
Qed.
Lemma right_of_left F l : at_left F l <-> at_right (fun x => F (- x)) l.
Proof.
  split; intros H e He; destruct (H e He) as (m & Hm); exists (- m); intros b Hb; [apply Hm; lra|]. specialize (Hm (- b) ltac:(lra)). now rewrite Ropp_involutive in Hm.
Qed.
Lemma left_lin F G l k c d : at_left F l -> at_left G k -> at_left (fun x => c * F x + d * G x) (c * l + d * k).
Proof. intros H1%right_of_left H2%right_of_left. apply right_of_left. exact (right_lin (fun x => F (- x)) (fun x => G (- x)) l k c d H1 H2). Qed.
Lemma right_shift F l v : at_right F l -> at_right (fun x => F (x - v)) l.
Proof. intros H e He. destruct (H e He) as (m & Hm). exists (m + v). intros b Hb. apply Hm. lra. Qed.
Lemma left_shift F l v : at_left F l -> at_left (fun x => F (x - v)) l.
Proof. intros H e He. destruct (H e He) as (m & Hm). exists (m + v). intros b Hb. apply Hm. lra. Qed.

Lemma zero_integral a b : is_RInt (fun _ : R => 0) a b 0.
Proof.
  pose proof (is_RInt_const (V := R_NormedModule) a b 0) as I. assert (E : @eq R (scal (b - a) 0) 0) by (unfold scal; cbn; unfold mult; cbn; ring). exact (eq_ind _ (fun l : R => is_RInt (fun _ : R => 0) a b l) I 0 E).
Qed.
Section Mean.
Variable n : R -> R.
Lemma mean_ext g h x : (forall z, g z = h z) -> mean n g x -> mean n h x.
Proof.
  intros E H e He. destruct (H e He) as (m & Hm). exists m. intros a b Ha Hb. destruct (Hm a b Ha Hb) as (y & Hy & Hd). exists y. split; [|exact Hd].
  eapply is_RInt_ext; [|exact Hy]. intros z _. cbn beta. now rewrite E.
Qed.
Lemma mean_lin g h x y c d : mean n g x -> mean n h y -> mean n (fun z => c * g z + d * h z) (c * x + d * y).
Proof.
  intros HF HG e He. assert (Hc : 0 < e / (2 * (Rabs c + 1))) by (apply Rdiv_lt_0_compat; [exact He|pose proof (Rabs_pos c); lra]).
  assert (Hd : 0 < e / (2 * (Rabs d + 1))) by (apply Rdiv_lt_0_compat; [exact He|pose proof (Rabs_pos d); lra]).
  destruct (HF _ Hc) as (m1 & H1). destruct (HG _ Hd) as (m2 & H2). exists (Rmax m1 m2). intros a b Ha Hb. pose proof (Rmax_l m1 m2). pose proof (Rmax_r m1 m2).
  destruct (H1 a b ltac:(lra) ltac:(lra)) as (u & Iu & Du). destruct (H2 a b ltac:(lra) ltac:(lra)) as (w & Iw & Dw). exists (c * u + d * w). split.
  - pose proof (is_RInt_plus (V := R_NormedModule) _ _ a b _ _ (is_RInt_scal (V := R_NormedModule) _ a b c _ Iu) (is_RInt_scal (V := R_NormedModule) _ a b d _ Iw)) as I. eapply is_RInt_ext; [|exact I].
    intros z _. unfold plus, scal; cbn. unfold mult; cbn. ring.
  - replace (c * u + d * w - (c * x + d * y)) with (c * (u - x) + d * (w - y)) by ring.
    eapply Rle_lt_trans; [apply Rabs_triang|]. rewrite !Rabs_mult. pose proof (Rabs_pos c). pose proof (Rabs_pos d). pose proof (Rabs_pos (u - x)). pose proof (Rabs_pos (w - y)).
    assert (Rabs c * Rabs (u - x) < e / 2). { apply Rle_lt_trans with (Rabs c * (e / (2 * (Rabs c + 1)))); [apply Rmult_le_compat_l; lra|]. apply Rlt_le_trans with ((Rabs c + 1) * (e / (2 * (Rabs c + 1)))); [apply Rmult_lt_compat_r; lra|]. right. field. lra. }
    assert (Rabs d * Rabs (w - y) < e / 2). { apply Rle_lt_trans with (Rabs d * (e / (2 * (Rabs d + 1)))); [apply Rmult_le_compat_l; lra|]. apply Rlt_le_trans with ((Rabs d + 1) * (e / (2 * (Rabs d + 1)))); [apply Rmult_lt_compat_r; lra|]. right. field. lra. }
    lra.
Qed.
Section Primitive.
Variables h F : R -> R.
Hypothesis HF : forall z, derivable_pt_lim F z (h z * n z).
Hypothesis Hc : forall z, continuous (fun z => h z * n z) z.
Lemma integral a b : is_RInt (fun z => h z * n z) a b (F b - F a).
Proof.
  apply (is_RInt_derive F (fun z => h z * n z) a b); intros z _; [apply is_derive_Reals; apply HF|apply Hc].
Qed.
Lemma mean_all l r : at_left F l -> at_right F r -> mean n h (r - l).
Proof.
  intros HL HR e He. destruct (HL (e / 2) ltac:(lra)) as (m1 & H1). destruct (HR (e / 2) ltac:(lra)) as (m2 & H2). exists (Rmax (- m1) m2). intros a b Ha Hb.
  pose proof (Rmax_l (- m1) m2). pose proof (Rmax_r (- m1) m2). exists (F b - F a). split; [apply integral|].
  specialize (H1 a ltac:(lra)). specialize (H2 b ltac:(lra)). replace (F b - F a - (r - l)) with ((F b - r) + - (F a - l)) by ring. eapply Rle_lt_trans; [apply Rabs_triang|]. rewrite Rabs_Ropp. lra.
Qed.
Lemma mean_right g z0 r : at_right F r -> (forall z, z < z0 -> g z = 0) -> (forall z, z0 < z -> g z = h z) -> mean n g (r - F z0).
Proof.
  intros HR G0 G1 e He. destruct (HR e He) as (m & Hm). exists (Rmax (Rmax m z0) (- z0)). intros a b Ha Hb.
  pose proof (Rmax_l (Rmax m z0) (- z0)). pose proof (Rmax_r (Rmax m z0) (- z0)). pose proof (Rmax_l m z0). pose proof (Rmax_r m z0).
  exists (F b - F z0). split; [|replace (F b - F z0 - (r - F z0)) with (F b - r) by ring; apply Hm; lra].
  replace (F b - F z0) with (plus 0 (F b - F z0)) by (unfold plus; cbn; ring). apply (is_RInt_Chasles (V := R_NormedModule) _ a z0 b).
  - eapply is_RInt_ext; [|apply zero_integral].
    intros z. rewrite Rmin_left, Rmax_right by lra. intros Hz. cbn beta. rewrite G0 by lra. symmetry. apply Rmult_0_l.
  - eapply is_RInt_ext; [|apply integral]. intros z. rewrite Rmin_left, Rmax_right by lra. intros Hz. cbn beta. now rewrite G1 by lra.
Qed.
End Primitive.
End Mean.

Section Law.
Variables N n : R -> R.
Hypothesis HN : normal_law N n.
Lemma N_left : at_left N 0.
Proof. intros e He. destruct (nl_zero _ _ HN e He) as (m & Hm). exists m. intros a Ha. rewrite Rminus_0_r. now apply Hm. Qed.
Lemma N_right : at_right N 1.
Proof.
  intros e He. destruct (nl_zero _ _ HN e He) as (m & Hm). exists (- m). intros b Hb. specialize (Hm (- b) ltac:(lra)). rewrite (nl_sym _ _ HN) in Hm. rewrite <- Rabs_Ropp. now replace (- (N b - 1)) with (1 - N b) by ring.
Qed.
Lemma n_even x : n (- x) = n x.
Proof. destruct (nl_gauss _ _ HN) as (c & _ & Hn). rewrite !Hn. do 2 f_equal. field. Qed.
Lemma n_right : at_right n 0.
Proof.
  destruct (nl_gauss _ _ HN) as (c & Hc & Hn). intros e He. exists (Rmax 1 (2 * c / e)). intros b Hb. pose proof (Rmax_l 1 (2 * c / e)). pose proof (Rmax_r 1 (2 * c / e)).
  rewrite Rminus_0_r, Rabs_pos_eq by (left; apply (n_pos N n HN)). rewrite Hn. assert (Hy : 0 < b * b / 2) by nra. pose proof (exp_ineq1 (b * b / 2) ltac:(lra)) as Hi.
  rewrite exp_Ropp. apply Rmult_lt_reg_r with (exp (b * b / 2)); [apply exp_pos|]. rewrite Rmult_assoc, Rinv_l by (apply Rgt_not_eq, exp_pos). rewrite Rmult_1_r.
  assert (2 * c < e * b). { assert (2 * c / e * e < b * e) by (apply Rmult_lt_compat_r; lra). replace (2 * c / e * e) with (2 * c) in * by (field; lra). lra. }
  assert (e * b <= e * (b * b)) by (apply Rmult_le_compat_l; nra). nra.
Qed.
Lemma n_left : at_left n 0.
Proof. apply right_of_left. intros e He. destruct (n_right e He) as (m & Hm). exists m. intros b Hb. rewrite n_even. now apply Hm. Qed.
Lemma n_cont z : continuous n z.
Proof. apply (ex_derive_continuous n). exists (- z * n z). apply is_derive_Reals. apply (n_rate N n HN). Qed.

(** lognormal *)
Lemma unit_shift v z : exp (v * z - v * v / 2) * n z = n (z - v).
Proof. pose proof (unit_density N n HN (- v) z) as E. replace (z + - v) with (z - v) in E by ring. rewrite <- E. do 2 f_equal. field. Qed.
Definition log_prim (f v k z : R) : R := f * N (z - v) + - k * N z.
Lemma log_rate f v k z : derivable_pt_lim (log_prim f v k) z ((lognormal f v z - k) * n z).
Proof.
  unfold log_prim. eapply rate_value.
  - apply derivable_pt_lim_plus; apply derivable_pt_lim_mult; try apply derivable_pt_lim_const; [|apply (nl_rate _ _ HN)].
    apply (derivable_pt_lim_comp (fun z => z - v) N); [apply derivable_pt_lim_minus; [apply derivable_pt_lim_id|apply derivable_pt_lim_const]|apply (nl_rate _ _ HN)].
  - cbv beta. unfold lognormal. rewrite <- (unit_shift v z). ring.
Qed.
Lemma log_cont f v k z : continuous (fun z => (lognormal f v z - k) * n z) z.
Proof.
  apply (continuous_mult (fun z => lognormal f v z - k) n); [|apply n_cont]. apply (ex_derive_continuous (fun z => lognormal f v z - k)). unfold lognormal. auto_derive. exact Logic.I.
Qed.
Lemma log_mean f v k : mean n (fun z => lognormal f v z - k) (f - k).
Proof.
  replace (f - k) with ((f * 1 + - k * 1) - (f * 0 + - k * 0)) by ring. apply (mean_all n (fun z => lognormal f v z - k) (log_prim f v k)); [apply log_rate|apply log_cont| |]; unfold log_prim.
  - apply (left_lin (fun z => N (z - v)) N); [apply left_shift|]; apply N_left.
  - apply (right_lin (fun z => N (z - v)) N); [apply right_shift|]; apply N_right.
Qed.
Lemma log_call f v k : 0 < f -> 0 < k -> 0 < v -> mean n (fun z => Rmax 0 (lognormal f v z - k)) (f * N (d_plus f v k) - k * N (d_minus f v k)).
Proof.
  intros Hf Hk Hv. set (z0 := - d_minus f v k).
  replace (f * N (d_plus f v k) - k * N (d_minus f v k)) with ((f * 1 + - k * 1) - log_prim f v k z0).
  2: { unfold log_prim, z0. replace (- d_minus f v k - v) with (- d_plus f v k) by (unfold d_plus; ring). rewrite !(nl_sym _ _ HN). ring. }
  assert (E0 : lognormal f v z0 = k).
  { unfold lognormal, z0, d_minus. replace (v * - (ln (f / k) / v - 1 / 2 * v) - v * v / 2) with (- ln (f / k)) by (field; lra). rewrite exp_Ropp, exp_ln by (apply Rdiv_lt_0_compat; lra). field. lra. }
  assert (Mono : forall y z, y < z -> lognormal f v y < lognormal f v z) by (intros y z H; unfold lognormal; apply Rmult_lt_compat_l; [exact Hf|]; apply exp_increasing; nra).
  apply (mean_right n (fun z => lognormal f v z - k) (log_prim f v k)).
  - apply log_rate.
  - apply log_cont.
  - unfold log_prim. apply (right_lin (fun z => N (z - v)) N); [apply right_shift|]; apply N_right.
  - intros z Hz. pose proof (Mono z z0 Hz). apply Rmax_left. lra.
  - intros z Hz. pose proof (Mono z0 z Hz). apply Rmax_right. lra.
Qed.

(** normal *)
Definition nor_prim (f v k z : R) : R := (f - k) * N z + - v * n z.
Lemma nor_rate f v k z : derivable_pt_lim (nor_prim f v k) z ((shifted f v z - k) * n z).
Proof.
  unfold nor_prim. eapply rate_value.
  - apply derivable_pt_lim_plus; apply derivable_pt_lim_mult; try apply derivable_pt_lim_const; [apply (nl_rate _ _ HN)|apply (n_rate N n HN)].
  - cbv beta. unfold shifted. ring.
Qed.
Lemma nor_cont f v k z : continuous (fun z => (shifted f v z - k) * n z) z.
Proof. apply (continuous_mult (fun z => shifted f v z - k) n); [|apply n_cont]. apply (ex_derive_continuous (fun z => shifted f v z - k)). unfold shifted. auto_derive. exact Logic.I. Qed.
Lemma nor_mean f v k : mean n (fun z => shifted f v z - k) (f - k).
Proof.
  replace (f - k) with (((f - k) * 1 + - v * 0) - ((f - k) * 0 + - v * 0)) by ring. apply (mean_all n (fun z => shifted f v z - k) (nor_prim f v k)); [apply nor_rate|apply nor_cont| |]; unfold nor_prim.
  - apply (left_lin N n); [apply N_left|apply n_left].
  - apply (right_lin N n); [apply N_right|apply n_right].
Qed.
Lemma nor_call f v k : 0 < v -> mean n (fun z => Rmax 0 (shifted f v z - k)) ((f - k) * N ((f - k) / v) + v * n ((f - k) / v)).
Proof.
  intros Hv. set (z0 := - ((f - k) / v)).
  replace ((f - k) * N ((f - k) / v) + v * n ((f - k) / v)) with (((f - k) * 1 + - v * 0) - nor_prim f v k z0).
  2: { unfold nor_prim, z0. rewrite (nl_sym _ _ HN), n_even. ring. }
  assert (E0 : shifted f v z0 = k) by (unfold shifted, z0; field; lra).
  assert (Mono : forall y z, y < z -> shifted f v y < shifted f v z) by (intros y z H; unfold shifted; nra).
  apply (mean_right n (fun z => shifted f v z - k) (nor_prim f v k)).
  - apply nor_rate.
  - apply nor_cont.
  - unfold nor_prim. apply (right_lin N n); [apply N_right|apply n_right].
  - intros z Hz. pose proof (Mono z z0 Hz). apply Rmax_left. lra.
  - intros z Hz. pose proof (Mono z0 z Hz). apply Rmax_right. lra.
Qed.
(** the other options from the call *)
Lemma from_call (spot : R -> R) f k c t x (opt : option_type -> outcome R) : mean n (fun z => Rmax 0 (spot z - k)) c -> mean n (fun z => spot z - k) (f - k) ->
  opt Call = Ok c -> parity opt f k -> opt t = Ok x -> t <> NotSet -> exists g, (forall z, payout t (spot z) k = Ok (g z)) /\ mean n g x.
Proof.
  intros Hc Hm Ec (c' & p & v & E1 & E2 & E3 & P1 & P2) Et Hn. rewrite Ec in E1. injection E1 as <-.
  destruct t; [| | |contradiction]; cbn [payout]; eexists; (split; [reflexivity|]).
  - rewrite Ec in Et. injection Et as <-. exact Hc.
  - rewrite E2 in Et. injection Et as <-. replace p with (1 * c + - 1 * (f - k)) by lra. eapply mean_ext; [|apply mean_lin; [exact Hc|exact Hm]].
    intros z. cbn beta. unfold Rmax. repeat destruct (Rle_dec _ _); lra.
  - rewrite E3 in Et. injection Et as <-. replace v with (2 * c + - 1 * (f - k)) by lra. eapply mean_ext; [|apply mean_lin; [exact Hc|exact Hm]].
    intros z. cbn beta. unfold Rmax, Rabs. destruct (Rle_dec _ _); destruct (Rcase_abs _); lra.
Qed.
End Law.
