(** The approximation of the inverse: sign, order and symmetry; one step of polishing. *)
From Coq Require Import Reals List ZArith Lia Lra Factorial.
From Verif Require Import Base BlackModel BlackSpec BlackProofs NormalModel NormalProofs NormalInverse.
Import ListNotations.
Local Open Scope R_scope.

Lemma middle_is z : middle z = z * mnum (z * z) / mden (z * z).
Proof. unfold middle. change (mnum (z * z) * z / mden (z * z) = z * mnum (z * z) / mden (z * z)). unfold Rdiv. ring. Qed.
Lemma square_in z : - (47575 / 10 ^ 5) <= z <= 47575 / 10 ^ 5 -> 0 <= z * z <= 2264 / 10000.
Proof. intros H. split; nra. Qed.
Lemma middle_odd z : middle (- z) = - middle z.
Proof. rewrite !middle_is. replace (- z * - z) with (z * z) by ring. unfold Rdiv. ring. Qed.
Lemma middle_pos z : 0 < z <= 47575 / 10 ^ 5 -> 0 < middle z.
Proof. intros H. pose proof (square_in z ltac:(lra)) as B. rewrite middle_is. apply Rdiv_lt_0_compat; [apply Rmult_lt_0_compat; [lra|now apply mnum_pos]|now apply mden_pos]. Qed.
Lemma mnum_rate r : derivable_pt_lim mnum r (mnum1 r).
Proof. eapply rate_value; [unfold mnum; repeat (apply derivable_pt_lim_plus || apply derivable_pt_lim_mult || apply derivable_pt_lim_const || apply derivable_pt_lim_id)|]. unfold mnum1, fct_cte. ring. Qed.
Lemma mden_rate r : derivable_pt_lim mden r (mden1 r).
Proof. eapply rate_value; [unfold mden; repeat (apply derivable_pt_lim_plus || apply derivable_pt_lim_mult || apply derivable_pt_lim_const || apply derivable_pt_lim_id)|]. unfold mden1, fct_cte. ring. Qed.
Lemma square_rate z : derivable_pt_lim (fun z => z * z) z (2 * z).
Proof. eapply rate_value; [apply derivable_pt_lim_mult; apply derivable_pt_lim_id|]. unfold id. ring. Qed.
Lemma middle_rate z : - (47575 / 10 ^ 5) <= z <= 47575 / 10 ^ 5 ->
  derivable_pt_lim middle z (((mnum (z * z) + 2 * (z * z) * mnum1 (z * z)) * mden (z * z) - 2 * (z * z) * mnum (z * z) * mden1 (z * z)) / (mden (z * z) * mden (z * z))).
Proof.
  intros H. pose proof (mden_pos _ (square_in z H)) as Hd. apply (rate_ext (fun z => z * mnum (z * z) / mden (z * z))); [intros; symmetry; apply middle_is|].
  eapply rate_value; [apply (derivable_pt_lim_div (fun z => z * mnum (z * z)) (fun z => mden (z * z)) z); [| |lra]|].
  - apply (derivable_pt_lim_mult id (fun z => mnum (z * z))); [apply derivable_pt_lim_id|]. apply (derivable_pt_lim_comp (fun z => z * z) mnum); [apply square_rate|apply mnum_rate].
  - apply (derivable_pt_lim_comp (fun z => z * z) mden); [apply square_rate|apply mden_rate].
  - unfold Rsqr, id. field. lra.
Qed.
Lemma middle_lt x y : - (47575 / 10 ^ 5) <= x -> x < y -> y <= 47575 / 10 ^ 5 -> middle x < middle y.
Proof.
  intros Hx H Hy. eapply mono_lt; [exact H| |].
  - intros z Hz. apply middle_rate. lra.
  - intros z Hz. cbv beta. pose proof (square_in z ltac:(lra)) as B. pose proof (mden_pos _ B). apply Rdiv_lt_0_compat; [now apply middle_rate_pos|now apply Rmult_lt_0_compat].
Qed.
(** * The root of the logarithm *)
Definition z_low : R := 2727393868 / 10 ^ 9.
Lemma next_factorial n v : INR (fact n) = v -> INR (fact (S n)) = INR (S n) * v.
Proof. intros <-. rewrite fact_simpl. apply mult_INR. Qed.
Lemma exp_low : x_low <= exp (- (z_low * z_low / 2)).
Proof.
  set (q := 4649173319503 / 10 ^ 13). assert (z_low * z_low / 2 <= 8 * q) as Hq by (unfold z_low, q; lra).
  apply Rle_trans with (exp (- (8 * q))); [|destruct Hq as [Hq|Hq]; [apply Rlt_le, exp_increasing; lra|rewrite Hq; lra]].
  assert (62818703370 / 10 ^ 11 <= exp (- q)) as Hs.
  { destruct (series_sides 5 q ltac:(unfold q; lra)) as [P _]. eapply Rle_trans; [|exact P].
    assert (INR (fact 1) = 1) as F1 by reflexivity.
    assert (INR (fact 2) = 2) as F2 by (rewrite (next_factorial _ _ F1), INR_IZR_INZ; cbn [Z.of_nat Pos.of_succ_nat Pos.succ]; lra).
    assert (INR (fact 3) = 6) as F3 by (rewrite (next_factorial _ _ F2), INR_IZR_INZ; cbn [Z.of_nat Pos.of_succ_nat Pos.succ]; lra).
    assert (INR (fact 4) = 24) as F4 by (rewrite (next_factorial _ _ F3), INR_IZR_INZ; cbn [Z.of_nat Pos.of_succ_nat Pos.succ]; lra).
    assert (INR (fact 5) = 120) as F5 by (rewrite (next_factorial _ _ F4), INR_IZR_INZ; cbn [Z.of_nat Pos.of_succ_nat Pos.succ]; lra).
    assert (INR (fact 6) = 720) as F6 by (rewrite (next_factorial _ _ F5), INR_IZR_INZ; cbn [Z.of_nat Pos.of_succ_nat Pos.succ]; lra).
    assert (INR (fact 7) = 5040) as F7 by (rewrite (next_factorial _ _ F6), INR_IZR_INZ; cbn [Z.of_nat Pos.of_succ_nat Pos.succ]; lra).
    assert (INR (fact 8) = 40320) as F8 by (rewrite (next_factorial _ _ F7), INR_IZR_INZ; cbn [Z.of_nat Pos.of_succ_nat Pos.succ]; lra).
    assert (INR (fact 9) = 362880) as F9 by (rewrite (next_factorial _ _ F8), INR_IZR_INZ; cbn [Z.of_nat Pos.of_succ_nat Pos.succ]; lra).
    assert (INR (fact 10) = 3628800) as F10 by (rewrite (next_factorial _ _ F9), INR_IZR_INZ; cbn [Z.of_nat Pos.of_succ_nat Pos.succ]; lra).
    assert (INR (fact 11) = 39916800) as F11 by (rewrite (next_factorial _ _ F10), INR_IZR_INZ; cbn [Z.of_nat Pos.of_succ_nat Pos.succ]; lra).
    cbn [series Nat.mul Nat.add]. rewrite F1, F2, F3, F4, F5, F6, F7, F8, F9, F10, F11. unfold q. lra. }
  replace (- (8 * q)) with (- q + - q + (- q + - q) + (- q + - q + (- q + - q))) by ring. rewrite !exp_plus. set (e := exp (- q)) in *. clearbody e.
  assert (39461894930 / 10 ^ 11 <= e * e) as E2 by nra. set (e2 := e * e) in *. clearbody e2. assert (15572411514 / 10 ^ 11 <= e2 * e2) as E4 by nra. set (e4 := e2 * e2) in *. clearbody e4. unfold x_low. nra.
Qed.
Definition root (x : R) : R := sqrt (-2 * ln x).
Lemma ln_lt x y : 0 < x -> x < y -> ln x < ln y. Proof. intros. now apply ln_increasing. Qed.
Lemma root_low x : 0 < x -> x < x_low -> z_low < root x.
Proof.
  intros H0 H. pose proof (ln_lt x (exp (- (z_low * z_low / 2))) H0 ltac:(pose proof exp_low; lra)) as L. rewrite ln_exp in L.
  unfold root. rewrite <- (sqrt_square z_low) by (unfold z_low; lra). apply sqrt_lt_1; unfold z_low in *; lra.
Qed.
Lemma root_lt x y : 0 < x -> x < y -> y < x_low -> root y < root x.
Proof.
  intros H0 H Hy. pose proof (ln_lt x y H0 H). assert (ln y < 0) by (rewrite <- ln_1; apply ln_lt; unfold x_low in *; lra). unfold root. apply sqrt_lt_1; lra.
Qed.
Lemma joint : NormalModel.tail z_low < middle (- (47575 / 10 ^ 5)).
Proof.
  rewrite middle_is. change (NormalModel.tail z_low) with (tnum z_low / tden z_low). set (r := - (47575 / 10 ^ 5) * - (47575 / 10 ^ 5)).
  assert (0 < mden r) as H1 by (apply mden_pos; unfold r; lra). assert (0 < tden z_low) as H2 by (apply tden_pos; unfold z_low; lra).
  apply Rlt_trans with (- (1972961050 / 10 ^ 9)).
  - apply Rmult_lt_reg_r with (tden z_low); [exact H2|]. replace (tnum z_low / tden z_low * tden z_low) with (tnum z_low) by (field; lra). unfold tnum, tden, z_low. coefs. lra.
  - apply Rmult_lt_reg_r with (mden r); [exact H1|]. replace (- (47575 / 10 ^ 5) * mnum r / mden r * mden r) with (- (47575 / 10 ^ 5) * mnum r) by (field; lra). unfold mnum, mden, r. coefs. lra.
Qed.

(** * The approximation *)
Definition rough (x : R) : R := if Rlt_dec x x_low then NormalModel.tail (root x) else if Rlt_dec x_high x then - NormalModel.tail (root (1 - x)) else middle (x - 1 / 2).
Lemma rough_ok x : 0 < x < 1 -> rough_inverse x = Some (rough x).
Proof. intros H. unfold rough_inverse, rough. destruct (Rlt_dec x x_low); [destruct (Req_EM_T x 0); [lra|reflexivity]|]. destruct (Rlt_dec x_high x); [destruct (Req_EM_T x 1); [lra|reflexivity]|reflexivity]. Qed.
Lemma rough_odd x : rough (1 - x) = - rough x.
Proof.
  unfold rough, x_high. destruct (Rlt_dec (1 - x) x_low), (Rlt_dec (1 - x_low) (1 - x)), (Rlt_dec x x_low), (Rlt_dec (1 - x_low) x); try (unfold x_low in *; lra).
  all: replace (1 - (1 - x)) with x by ring; try ring. rewrite <- middle_odd. f_equal. lra.
Qed.
Lemma rough_half : rough (1 / 2) = 0.
Proof. pose proof (rough_odd (1 / 2)) as H. replace (1 - 1 / 2) with (1 / 2) in H by lra. lra. Qed.
Lemma rough_lt_low x y : 0 < x -> x < y -> y <= 1 / 2 -> rough x < rough y.
Proof.
  intros H0 H Hy. unfold rough. destruct (Rlt_dec x x_low) as [Cx|Cx], (Rlt_dec y x_low) as [Cy|Cy].
  - apply tail_decreasing; [pose proof (root_low y ltac:(lra) Cy); unfold z_low in *; lra|now apply root_lt].
  - destruct (Rlt_dec x_high y); [unfold x_high, x_low in *; lra|]. apply Rlt_le_trans with (middle (- (47575 / 10 ^ 5))).
    + apply Rlt_trans with (NormalModel.tail z_low); [|exact joint]. apply tail_decreasing; [unfold z_low; lra|now apply root_low].
    + destruct (Req_dec (y - 1 / 2) (- (47575 / 10 ^ 5))) as [->|Hne]; [lra|]. apply Rlt_le, middle_lt; unfold x_low in *; lra.
  - lra.
  - destruct (Rlt_dec x_high x); [unfold x_high, x_low in *; lra|]. destruct (Rlt_dec x_high y); [unfold x_high, x_low in *; lra|]. apply middle_lt; unfold x_low in *; lra.
Qed.
Lemma rough_lt x y : 0 < x -> x < y -> y < 1 -> rough x < rough y.
Proof.
  intros H0 H H1. destruct (Rle_lt_dec y (1 / 2)) as [Hy|Hy]; [now apply rough_lt_low|].
  assert (rough (1 / 2) < rough y) as Q. { enough (rough (1 - y) < rough (1 / 2)) by (rewrite rough_odd, rough_half in *; lra). apply rough_lt_low; lra. }
  destruct (Rle_lt_dec x (1 / 2)) as [Hx|Hx].
  - apply Rle_lt_trans with (rough (1 / 2)); [|exact Q]. destruct (Req_dec x (1 / 2)) as [->|]; [lra|]. apply Rlt_le, rough_lt_low; lra.
  - enough (rough (1 - y) < rough (1 - x)) by (rewrite !rough_odd in *; lra). apply rough_lt_low; lra.
Qed.

(** * One step of polishing *)
Section Polish.
Variables N n : R -> R.
Hypothesis HN : normal_law N n.
Definition weight : R := Rabs (inv_norm * n 0 - 1).
Lemma density_at z : n z = n 0 * exp (- (z * z / 2)).
Proof using HN. destruct (nl_gauss _ _ HN) as (c & _ & E). rewrite !E. replace (- (0 * 0 / 2)) with 0 by field. rewrite exp_0. ring. Qed.
Lemma density_le x y : x <= y -> y <= 0 -> n x <= n y.
Proof using HN.
  intros H Hy. rewrite (density_at x), (density_at y). apply Rmult_le_compat_l; [apply Rlt_le, (n_pos N n HN)|]. destruct (Req_dec (x * x) (y * y)) as [->|Hne]; [lra|]. apply Rlt_le, exp_increasing. nra.
Qed.
Lemma between x y : x <= y -> y <= 0 -> n x * (y - x) <= N y - N x <= n y * (y - x).
Proof using HN.
  intros H Hy. destruct (Req_dec x y) as [->|Hne]; [lra|]. destruct (MVT_cor2 N n x y ltac:(lra) (fun c _ => nl_rate _ _ HN c)) as (c & E & Hc). rewrite E.
  pose proof (density_le x c ltac:(lra) ltac:(lra)). pose proof (density_le c y ltac:(lra) Hy). nra.
Qed.
Definition step (x z : R) : R := z - (N z - x) * inv_norm * exp (Rmin 8 (1 / 2 * (z * z))).
Lemma half_square z : Rabs z <= 4 -> Rmin 8 (1 / 2 * (z * z)) = 1 / 2 * (z * z).
Proof using. intros H. assert (z * z <= 16) by (unfold Rabs in H; destruct (Rcase_abs z); nra). unfold Rmin. destruct (Rle_dec _ _); lra. Qed.
(** the factor times the density is nearly one *)
Lemma factor z : Rabs z <= 4 -> inv_norm * exp (Rmin 8 (1 / 2 * (z * z))) * n z = inv_norm * n 0.
Proof using HN.
  intros H. rewrite (half_square z H), (density_at z). replace (inv_norm * exp (1 / 2 * (z * z)) * (n 0 * exp (- (z * z / 2)))) with (inv_norm * n 0 * (exp (1 / 2 * (z * z)) * exp (- (z * z / 2)))) by ring.
  rewrite <- exp_plus. replace (1 / 2 * (z * z) + - (z * z / 2)) with 0 by field. rewrite exp_0. ring.
Qed.
Lemma step_low z r : Rabs z <= 4 -> z <= 0 -> r <= 0 -> Rabs (step (N r) z - r) <= Rabs (z - r) * ((1 + weight) * exp (Rabs (z * z - r * r) / 2) - 1).
Proof using HN.
  intros H4 Hz Hr. set (k := inv_norm * exp (Rmin 8 (1 / 2 * (z * z)))). pose proof (factor z H4) as Hk. fold k in Hk. set (kap := inv_norm * n 0) in *.
  assert (0 < k) as Kp by (unfold k; apply Rmult_lt_0_compat; [unfold inv_norm; lra|apply exp_pos]).
  assert (Es : step (N r) z - r = z - r - (N z - N r) * k) by (unfold step, k; ring). rewrite Es. clear Es.
  set (u := Rabs (z * z - r * r) / 2). assert (Hu : 0 <= u) by (unfold u; pose proof (Rabs_pos (z * z - r * r)); lra). assert (Eu : 1 + u <= exp u) by (destruct (Req_dec u 0) as [->|]; [rewrite exp_0; lra|apply Rlt_le, exp_ineq1; lra]).
  assert (Hw : - weight <= kap - 1 <= weight) by (unfold weight; fold kap; unfold Rabs; destruct (Rcase_abs _); lra). assert (W0 : 0 <= weight) by lra.
  assert (kap_pos : 0 < kap) by (unfold kap; apply Rmult_lt_0_compat; [unfold inv_norm; lra|apply (n_pos N n HN)]).
  assert (Hn : n r = n z * exp ((z * z - r * r) / 2)). { rewrite (density_at r), (density_at z), Rmult_assoc, <- exp_plus. do 2 f_equal. field. }
  destruct (Rle_lt_dec r z) as [H|H].
  - destruct (between r z H Hz) as [B1 B2]. rewrite (Rabs_pos_eq (z - r)) by lra.
    assert (0 <= r * r - z * z) as Hsq by nra. assert (Ev : exp ((z * z - r * r) / 2) = / exp u). { rewrite <- exp_Ropp. f_equal. unfold u. rewrite Rabs_left1 by lra. field. }
    set (d := z - r) in *. assert (0 <= d) as D0 by (unfold d; lra). set (e := exp u) in *. set (v := / e) in *. assert (Ee : e * v = 1) by (unfold v; field; lra). assert (V0 : 0 < v) by (unfold v; apply Rinv_0_lt_compat; lra). assert (V1 : v <= 1) by nra.
    assert ((N z - N r) * k <= kap * d) as U1. { rewrite <- Hk. apply Rle_trans with (n z * d * k); [apply Rmult_le_compat_r; lra|right; ring]. }
    assert (kap * v * d <= (N z - N r) * k) as U2. { rewrite <- Hk. apply Rle_trans with (n z * v * d * k); [right; ring|]. rewrite Ev in Hn. rewrite <- Hn. apply Rmult_le_compat_r; lra. }
    assert (1 - kap * v <= (1 + weight) * e - 1) as Q1. { assert (2 <= e + v) by nra. assert (0 <= (1 - weight - kap) * 0) by lra. assert (weight * v <= weight * e) by nra. nra. }
    assert (kap - 1 <= (1 + weight) * e - 1) as Q2 by nra. apply Rabs_le. split; nra.
  - destruct (between z r ltac:(lra) Hr) as [B1 B2]. rewrite (Rabs_left (z - r)) by lra. replace (- (z - r)) with (r - z) by ring.
    assert (0 <= z * z - r * r) as Hsq by nra. assert (Ev : exp ((z * z - r * r) / 2) = exp u). { f_equal. unfold u. rewrite Rabs_pos_eq by lra. reflexivity. }
    set (d := r - z) in *. assert (0 <= d) as D0 by (unfold d; lra). set (e := exp u) in *.
    assert (kap * d <= (N r - N z) * k) as U1. { rewrite <- Hk. apply Rle_trans with (n z * d * k); [right; ring|apply Rmult_le_compat_r; lra]. }
    assert ((N r - N z) * k <= kap * e * d) as U2. { rewrite <- Hk. apply Rle_trans with (n z * e * d * k); [|right; ring]. rewrite Ev in Hn. rewrite <- Hn. apply Rmult_le_compat_r; lra. }
    assert (kap * e - 1 <= (1 + weight) * e - 1) as Q1 by nra. assert (1 - kap <= (1 + weight) * e - 1) as Q2 by nra.
    replace (z - r - (N z - N r) * k) with ((N r - N z) * k - d) by (unfold d; ring). apply Rabs_le. split; nra.
Qed.
Lemma step_odd x z : step (1 - x) (- z) = - step x z.
Proof using HN. unfold step. rewrite (nl_sym _ _ HN). replace (- z * - z) with (z * z) by ring. ring. Qed.
Lemma step_near z r : Rabs z <= 4 -> 0 <= z * r -> Rabs (step (N r) z - r) <= Rabs (z - r) * ((1 + weight) * exp (Rabs (z * z - r * r) / 2) - 1).
Proof using HN.
  intros H4 H. assert ((z <= 0 /\ r <= 0) \/ (0 <= z /\ 0 <= r) ) as [[Hz Hr]|[Hz Hr]]; [|now apply step_low|].
  - destruct (Rtotal_order z 0) as [A|[A|A]], (Rtotal_order r 0) as [B|[B|B]]; try (left; lra); try (right; lra); exfalso; nra.
  - pose proof (step_low (- z) (- r) ltac:(now rewrite Rabs_Ropp) ltac:(lra) ltac:(lra)) as Q. rewrite (nl_sym _ _ HN), step_odd in Q.
    replace (- step (N r) z - - r) with (- (step (N r) z - r)) in Q by ring. replace (- z - - r) with (- (z - r)) in Q by ring. rewrite !Rabs_Ropp in Q. replace (- z * - z) with (z * z) in Q by ring. replace (- r * - r) with (r * r) in Q by ring. exact Q.
Qed.
End Polish.
