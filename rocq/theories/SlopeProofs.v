(** Proofs about C92. *)
From Coq Require Import Reals List Lra Lia.
From Coquelicot Require Import Coquelicot.
From Verif Require Import Base BlackModel BlackSpec BlackProofs ExpectSpec ExpectProofs SlopeSpec.
Import ListNotations.
Local Open Scope R_scope.

Lemma max_slope g x d : derivable_pt_lim g x d -> g x <> 0 -> derivable_pt_lim (fun y => Rmax 0 (g y)) x (if Rlt_dec 0 (g x) then d else 0).
Proof.
  intros Hd Hx. apply is_derive_Reals in Hd. assert (C : continuous g x) by (apply (ex_derive_continuous g); eexists; exact Hd). apply is_derive_Reals.
  destruct (Rlt_dec 0 (g x)) as [Hp|Hp].
  - apply (is_derive_ext_loc g); [|exact Hd]. assert (L : locally x (fun y => 0 < g y)) by (apply (C (fun u => 0 < u)), (open_gt 0); exact Hp).
    revert L. apply filter_imp. intros y Hy. symmetry. apply Rmax_right. lra.
  - apply (is_derive_ext_loc (fun _ => 0)); [|apply (is_derive_const (V := R_NormedModule))]. assert (L : locally x (fun y => g y < 0)) by (apply (C (fun u => u < 0)), (open_lt 0); lra).
    revert L. apply filter_imp. intros y Hy. symmetry. apply Rmax_left. lra.
Qed.
(** every option is a call and some forwards *)
Definition calls (t : option_type) : R := match t with Straddle => 2 | NotSet => 0 | _ => 1 end.
Definition forwards (t : option_type) : R := match t with Call => 0 | NotSet => 0 | _ => -1 end.
Definition made (t : option_type) (s k : R) : R := calls t * Rmax 0 (s - k) + forwards t * (s - k).
Lemma made_payout t s k : t <> NotSet -> payout t s k = Ok (made t s k).
Proof.
  intros Ht. destruct t; [| | |contradiction]; cbn [payout]; apply f_equal; unfold made, calls, forwards, Rmax; repeat destruct (Rle_dec _ _); unfold Rabs; try destruct (Rcase_abs _); lra.
Qed.
Section Law.
Variables N n : R -> R.
Hypothesis HN : normal_law N n.
Lemma made_slope t (spot : R -> R -> R) x k z0 dx A B : (forall z, derivable_pt_lim (fun y => spot y z) x (dx z)) -> (forall z, z <> z0 -> spot x z <> k) ->
  mean n (fun z => if Rlt_dec 0 (spot x z - k) then dx z else 0) A -> mean n dx B -> expected_slope n (fun y z => made t (spot y z) k) x (calls t * A + forwards t * B).
Proof.
  intros Hd Hz HA HB. exists z0, (fun z => calls t * (if Rlt_dec 0 (spot x z - k) then dx z else 0) + forwards t * dx z). split; [|now apply mean_lin].
  intros z Ez. unfold made. assert (D : derivable_pt_lim (fun y => spot y z - k) x (dx z)).
  { replace (dx z) with (dx z - 0) by ring. apply (derivable_pt_lim_minus (fun y => spot y z) (fun _ => k)); [apply Hd|apply derivable_pt_lim_const]. }
  apply (derivable_pt_lim_plus (fun y => calls t * Rmax 0 (spot y z - k)) (fun y => forwards t * (spot y z - k))).
  - apply (derivable_pt_lim_scal (fun y => Rmax 0 (spot y z - k))). apply (max_slope (fun y => spot y z - k)); [exact D|]. specialize (Hz z Ez). lra.
  - now apply (derivable_pt_lim_scal (fun y => spot y z - k)).
Qed.
(** lognormal: the slopes in the forward and in the volatility *)
Definition unit_log (v z : R) : R := exp (v * z - v * v / 2).
Lemma unit_rate v z : derivable_pt_lim (fun z => N (z - v)) z (unit_log v z * n z).
Proof.
  unfold unit_log. rewrite (unit_shift N n HN). eapply rate_value.
  - apply (derivable_pt_lim_comp (fun z => z - v) N); [apply derivable_pt_lim_minus; [apply derivable_pt_lim_id|apply derivable_pt_lim_const]|apply (nl_rate _ _ HN)].
  - ring.
Qed.
Lemma unit_cont v z : continuous (fun z => unit_log v z * n z) z.
Proof. apply (continuous_mult (unit_log v) n); [|apply (n_cont N n HN)]. apply (ex_derive_continuous (unit_log v)). unfold unit_log. auto_derive. exact Logic.I. Qed.
Definition vol_log (f v z : R) : R := f * unit_log v z * (z - v).
Lemma vol_rate f v z : derivable_pt_lim (fun z => - f * n (z - v)) z (vol_log f v z * n z).
Proof.
  unfold vol_log, unit_log. replace (f * exp (v * z - v * v / 2) * (z - v) * n z) with (f * (z - v) * (exp (v * z - v * v / 2) * n z)) by ring. rewrite (unit_shift N n HN). eapply rate_value.
  - apply (derivable_pt_lim_scal (fun z => n (z - v))). apply (derivable_pt_lim_comp (fun z => z - v) n); [apply derivable_pt_lim_minus; [apply derivable_pt_lim_id|apply derivable_pt_lim_const]|apply (n_rate N n HN)].
  - ring.
Qed.
Lemma vol_cont f v z : continuous (fun z => vol_log f v z * n z) z.
Proof. apply (continuous_mult (vol_log f v) n); [|apply (n_cont N n HN)]. apply (ex_derive_continuous (vol_log f v)). unfold vol_log, unit_log. auto_derive. exact Logic.I. Qed.
Lemma zero_scale (F : R -> R) c : at_right F 0 -> at_right (fun z => c * F z) 0.
Proof. intros H. pose proof (right_lin F F 0 0 c 0 H H) as E. intros e He. destruct (E e He) as (m & Hm). exists m. intros b Hb. specialize (Hm b Hb). now replace (c * F b - 0) with (c * F b + 0 * F b - (c * 0 + 0 * 0)) by ring. Qed.
Lemma zero_scale_left (F : R -> R) c : at_left F 0 -> at_left (fun z => c * F z) 0.
Proof. intros H. pose proof (left_lin F F 0 0 c 0 H H) as E. intros e He. destruct (E e He) as (m & Hm). exists m. intros b Hb. specialize (Hm b Hb). now replace (c * F b - 0) with (c * F b + 0 * F b - (c * 0 + 0 * 0)) by ring. Qed.
Lemma unit_mean v : mean n (unit_log v) 1.
Proof. replace 1 with (1 - 0) by ring. apply (mean_all n (unit_log v) (fun z => N (z - v))); [apply unit_rate|apply unit_cont|apply left_shift, (N_left N n HN)|apply right_shift, (N_right N n HN)]. Qed.
Lemma vol_mean f v : mean n (vol_log f v) 0.
Proof.
  replace 0 with (0 - 0) by ring. apply (mean_all n (vol_log f v) (fun z => - f * n (z - v))); [apply vol_rate|apply vol_cont| |].
  - apply (zero_scale_left (fun z => n (z - v))). apply left_shift, (n_left N n HN).
  - apply (zero_scale (fun z => n (z - v))). apply right_shift, (n_right N n HN).
Qed.
Section Log.
Variables f v k : R.
Hypothesis (Hf : 0 < f) (Hk : 0 < k) (Hv : 0 < v).
Let z0 := - d_minus f v k.
Lemma at_strike : lognormal f v z0 = k.
Proof. unfold lognormal, z0, d_minus. replace (v * - (ln (f / k) / v - 1 / 2 * v) - v * v / 2) with (- ln (f / k)) by (field; lra). rewrite exp_Ropp, exp_ln by (apply Rdiv_lt_0_compat; lra). field. lra. Qed.
Lemma log_mono y z : y < z -> lognormal f v y < lognormal f v z.
Proof. intros H. unfold lognormal. apply Rmult_lt_compat_l; [exact Hf|]. apply exp_increasing. nra. Qed.
Lemma off_strike z : z <> z0 -> lognormal f v z <> k.
Proof. intros H E. pose proof at_strike as E0. destruct (Rtotal_order z z0) as [L|[L|L]]; [apply log_mono in L; lra|contradiction|apply log_mono in L; lra]. Qed.
Lemma above_mean h F : (forall z, derivable_pt_lim F z (h z * n z)) -> (forall z, continuous (fun z => h z * n z) z) -> forall r, at_right F r ->
  mean n (fun z => if Rlt_dec 0 (lognormal f v z - k) then h z else 0) (r - F z0).
Proof.
  intros H1 H2 r Hr. pose proof at_strike as E0. apply (mean_right n h F H1 H2); [exact Hr| |].
  - intros z Hz. apply log_mono in Hz. destruct (Rlt_dec _ _); [lra|reflexivity].
  - intros z Hz. apply log_mono in Hz. destruct (Rlt_dec _ _); [reflexivity|lra].
Qed.
Lemma log_delta t : expected_slope n (fun y z => made t (lognormal y v z) k) f (calls t * N (d_plus f v k) + forwards t * 1).
Proof.
  apply (made_slope t (fun y z => lognormal y v z) f k z0 (unit_log v)).
  - intros z. unfold lognormal, unit_log. apply is_derive_Reals. auto_derive; [exact Logic.I|ring].
  - intros z. apply off_strike.
  - replace (N (d_plus f v k)) with (1 - N (z0 - v)).
    2: { unfold z0. replace (- d_minus f v k - v) with (- d_plus f v k) by (unfold d_plus; ring). rewrite (nl_sym _ _ HN). ring. }
    apply (above_mean (unit_log v) (fun z => N (z - v))); [apply unit_rate|apply unit_cont|apply right_shift, (N_right N n HN)].
  - apply unit_mean.
Qed.
Lemma log_vega t : expected_slope n (fun y z => made t (lognormal f y z) k) v (calls t * (f * n (d_plus f v k)) + forwards t * 0).
Proof.
  apply (made_slope t (fun y z => lognormal f y z) v k z0 (vol_log f v)).
  - intros z. unfold lognormal, vol_log, unit_log. apply is_derive_Reals. auto_derive; [exact Logic.I|]. replace (v * z + - (v * v * / 2)) with (v * z - v * v / 2) by (unfold Rdiv; ring). field.
  - intros z. apply off_strike.
  - replace (f * n (d_plus f v k)) with (0 - - f * n (z0 - v)).
    2: { unfold z0. replace (- d_minus f v k - v) with (- d_plus f v k) by (unfold d_plus; ring). rewrite (n_even N n HN). ring. }
    apply (above_mean (vol_log f v) (fun z => - f * n (z - v))); [apply vol_rate|apply vol_cont|]. apply (zero_scale (fun z => n (z - v))). apply right_shift, (n_right N n HN).
  - apply vol_mean.
Qed.
End Log.
(** normal *)
Lemma one_mean : mean n (fun _ => 1) 1.
Proof.
  assert (H : mean n (fun _ => 1) (1 - 0)); [|now rewrite Rminus_0_r in H]. apply (mean_all n (fun _ => 1) N); [intros z; rewrite Rmult_1_l; apply (nl_rate _ _ HN)| |apply (N_left N n HN)|apply (N_right N n HN)].
  intros z. apply (continuous_mult (fun _ => 1) n); [apply continuous_const|apply (n_cont N n HN)].
Qed.
Lemma draw_rate z : derivable_pt_lim (fun z => - 1 * n z) z (z * n z).
Proof. eapply rate_value; [apply (derivable_pt_lim_scal n), (n_rate N n HN)|]. ring. Qed.
Lemma draw_cont z : continuous (fun z => z * n z) z.
Proof. apply (continuous_mult (fun z => z) n); [apply continuous_id|apply (n_cont N n HN)]. Qed.
Lemma draw_mean : mean n (fun z => z) 0.
Proof. replace 0 with (0 - 0) by ring. apply (mean_all n (fun z => z) (fun z => - 1 * n z)); [apply draw_rate|apply draw_cont|apply zero_scale_left, (n_left N n HN)|apply zero_scale, (n_right N n HN)]. Qed.
Section Nor.
Variables f v k : R.
Hypothesis (Hv : 0 < v).
Let z0 := - ((f - k) / v).
Lemma nor_strike z : (z < z0 -> shifted f v z < k) /\ (z0 < z -> k < shifted f v z).
Proof. assert (E0 : shifted f v z0 = k) by (unfold shifted, z0; field; lra). unfold shifted in *. split; intros H; nra. Qed.
Lemma nor_above h F : (forall z, derivable_pt_lim F z (h z * n z)) -> (forall z, continuous (fun z => h z * n z) z) -> forall r, at_right F r ->
  mean n (fun z => if Rlt_dec 0 (shifted f v z - k) then h z else 0) (r - F z0).
Proof.
  intros H1 H2 r Hr. apply (mean_right n h F H1 H2); [exact Hr| |].
  - intros z Hz. apply nor_strike in Hz. destruct (Rlt_dec _ _); [lra|reflexivity].
  - intros z Hz. apply nor_strike in Hz. destruct (Rlt_dec _ _); [reflexivity|lra].
Qed.
Lemma nor_off z : z <> z0 -> shifted f v z <> k.
Proof. intros H. destruct (nor_strike z) as (A & B). destruct (Rtotal_order z z0) as [L|[L|L]]; [apply A in L; lra|contradiction|apply B in L; lra]. Qed.
Lemma nor_delta t : expected_slope n (fun y z => made t (shifted y v z) k) f (calls t * N ((f - k) / v) + forwards t * 1).
Proof.
  apply (made_slope t (fun y z => shifted y v z) f k z0 (fun _ => 1)).
  - intros z. unfold shifted. apply is_derive_Reals. auto_derive; [exact Logic.I|ring].
  - intros z. apply nor_off.
  - replace (N ((f - k) / v)) with (1 - N z0) by (unfold z0; rewrite (nl_sym _ _ HN); ring).
    apply (nor_above (fun _ => 1) N); [intros z; rewrite Rmult_1_l; apply (nl_rate _ _ HN)|intros z; apply (continuous_mult (fun _ => 1) n); [apply continuous_const|apply (n_cont N n HN)]|apply (N_right N n HN)].
  - apply one_mean.
Qed.
Lemma nor_vega t : expected_slope n (fun y z => made t (shifted f y z) k) v (calls t * n ((f - k) / v) + forwards t * 0).
Proof.
  apply (made_slope t (fun y z => shifted f y z) v k z0 (fun z => z)).
  - intros z. unfold shifted. apply is_derive_Reals. auto_derive; [exact Logic.I|ring].
  - intros z. apply nor_off.
  - replace (n ((f - k) / v)) with (0 - - 1 * n z0) by (unfold z0; rewrite (n_even N n HN); ring).
    apply (nor_above (fun z => z) (fun z => - 1 * n z)); [apply draw_rate|apply draw_cont|]. apply zero_scale, (n_right N n HN).
  - apply draw_mean.
Qed.
End Nor.
End Law.
(** one draw does not matter *)
Lemma integral_but (f g : R -> R) (p a b y : R) : (forall z, z <> p -> f z = g z) -> a < b -> is_RInt f a b y -> is_RInt g a b y.
Proof.
  intros E Hab H. destruct (Rlt_dec a p) as [Ha|Ha]; [destruct (Rlt_dec p b) as [Hb|Hb]|].
  - assert (X : ex_RInt f a b) by (exists y; exact H). destruct (ex_RInt_Chasles_1 f a p b ltac:(lra) X) as (u & Hu). destruct (ex_RInt_Chasles_2 f a p b ltac:(lra) X) as (w & Hw).
    pose proof (is_RInt_Chasles f a p b u w Hu Hw) as H'. assert (Ey : y = plus u w) by (rewrite <- (is_RInt_unique _ _ _ _ H); exact (is_RInt_unique _ _ _ _ H')). rewrite Ey.
    apply (is_RInt_Chasles g a p b); (eapply is_RInt_ext; [|eassumption]); intros z; rewrite Rmin_left, Rmax_right by lra; intros Hz; apply E; lra.
  - eapply is_RInt_ext; [|exact H]. intros z. rewrite Rmin_left, Rmax_right by lra. intros Hz. apply E. lra.
  - eapply is_RInt_ext; [|exact H]. intros z. rewrite Rmin_left, Rmax_right by lra. intros Hz. apply E. lra.
Qed.
Lemma mean_but n f g p x : (forall z, z <> p -> f z = g z) -> mean n f x -> mean n g x.
Proof.
  intros E H e He. destruct (H e He) as (m & Hm). exists (Rmax m 0). pose proof (Rmax_l m 0). pose proof (Rmax_r m 0). intros a b Ha Hb. destruct (Hm a b ltac:(lra) ltac:(lra)) as (y & Hy & D). exists y. split; [|exact D].
  eapply (integral_but (fun z => f z * n z)); [|lra|exact Hy]. intros z Hz. cbv beta. now rewrite (E z Hz).
Qed.
