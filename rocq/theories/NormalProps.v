(** C67: the normal distribution function and its inverse. *)
From Coq Require Import Reals List ZArith Lia Lra Ranalysis.
From Verif Require Import Base BlackModel BlackSpec BlackProofs BlackNormal CubicModel CubicProofs NormalModel NormalSpec NormalSpline NormalProofs NormalInverse NormalRough.
Import ListNotations.
Local Open Scope R_scope.

(** the fast version is a continuous, strictly increasing distribution function, symmetric about zero, through the tabulated points *)
Theorem C67_fast : exists N : R -> R, (forall erfc z, ncdf erfc z false = Ok (N z)) /\ symmetric N /\ (forall x y, x < y -> N x < N y) /\ (forall z, 0 < N z < 1) /\ continuity N /\
  (forall e, 0 < e -> exists m, forall z, z < m -> N z < e) /\ N 0 = 1 / 2 /\ forall k, (k < 16)%nat -> N (nth k spline_x 0) = nth k spline_f 0.
Proof.
  destruct spline_exists as (m & Hfit & Hm). exists (phi m). split; [intros erfc z; exact (phi_ok m Hm Hfit z)|]. split; [intros z; exact (phi_sym m Hm z)|]. split; [intros; now apply phi_lt|]. split; [intros; now apply phi_in|].
  split; [now apply phi_cont|]. split; [|split; [|intros; now apply phi_knot]].
  - intros e He. exists (- 4 - / e). intros z Hz. pose proof (Rinv_0_lt_compat e He) as Hi. pose proof min_neg as Hmin. assert (z < min_spline_x) as Hz' by (unfold min_spline_x; lra).
    rewrite phi_le by lra. unfold low. destruct (Rlt_dec z min_spline_x); [|lra]. unfold tail_value. set (w := 11180061 / 10 ^ 7 * (z * z - min_spline_x * min_spline_x)).
    assert (/ e < w) as Hw by (unfold w, min_spline_x; nra). replace (- (11180061 / 10 ^ 7) * (z * z - min_spline_x * min_spline_x)) with (- w) by (unfold w; ring). rewrite exp_Ropp.
    pose proof (exp_ineq1 w ltac:(lra)) as Hx. assert (/ exp w < e). { rewrite <- (Rinv_inv e). apply Rinv_lt_contravar; [apply Rmult_lt_0_compat; lra|lra]. } unfold min_spline_f. nra.
  - rewrite phi_le by lra. now apply low_zero.
Qed.
Print Assumptions C67_fast.
Example C67_fast_ex : nth 7 spline_x 0 = - (1494029881 / 10 ^ 9) /\ nth 7 spline_f 0 = 67583453 / 10 ^ 9.
Proof. split; reflexivity. Qed.

(** but far to the left it is not the normal law: its share of the true probability vanishes *)
Theorem C67_tail_refuted erfc N n : normal_law N n -> forall K, exists m, forall z, z < m -> exists v, ncdf erfc z false = Ok v /\ K * v < N z.
Proof.
  intros HN K. destruct spline_exists as (s & Hfit & Hs). pose proof (n_pos N n HN 0) as Hc. set (c := n 0) in *.
  set (A := Rabs K * min_spline_f * exp (11180061 / 10 ^ 7 * (min_spline_x * min_spline_x) + 1 / 2) / c).
  assert (A0 : 0 <= A). { unfold A. apply Rmult_le_pos; [apply Rmult_le_pos; [apply Rmult_le_pos; [apply Rabs_pos|unfold min_spline_f; lra]|left; apply exp_pos]|left; now apply Rinv_0_lt_compat]. }
  exists (- 4 - A). intros z Hz. assert (z < min_spline_x) as Hz' by (unfold min_spline_x; lra). exists (tail_value z). split.
  { unfold ncdf. rewrite (phi_ok s Hs Hfit z), phi_le by lra. unfold low. destruct (Rlt_dec z min_spline_x); [reflexivity|lra]. }
  assert (n (z - 1) < N z) as Hn. { pose proof (between N n HN (z - 1) z ltac:(lra) ltac:(lra)) as [B _]. pose proof (N_pos N n HN (z - 1)). replace (z - (z - 1)) with 1 in B by ring. lra. }
  apply Rle_lt_trans with (n (z - 1)); [|exact Hn]. apply Rle_trans with (Rabs K * tail_value z); [apply Rmult_le_compat_r; [left; apply tail_pos|apply Rle_abs]|].
  rewrite (density_at N n HN (z - 1)). fold c. set (p := - ((z - 1) * (z - 1) / 2)).
  assert (E : Rabs K * tail_value z = c * (A * exp (p - (618 / 1000 * (z * z) + 61 / 10 ^ 7 * (z * z) + z)))).
  { unfold tail_value, A. replace (c * (Rabs K * min_spline_f * exp (11180061 / 10 ^ 7 * (min_spline_x * min_spline_x) + 1 / 2) / c * exp (p - (618 / 1000 * (z * z) + 61 / 10 ^ 7 * (z * z) + z))))
      with (Rabs K * min_spline_f * (exp (11180061 / 10 ^ 7 * (min_spline_x * min_spline_x) + 1 / 2) * exp (p - (618 / 1000 * (z * z) + 61 / 10 ^ 7 * (z * z) + z)))) by (field; lra).
    rewrite <- exp_plus, Rmult_assoc. do 3 f_equal. unfold p. field. }
  rewrite E. apply Rmult_le_compat_l; [lra|]. set (w := 618 / 1000 * (z * z) + 61 / 10 ^ 7 * (z * z) + z). assert (A <= w) as Hw by (unfold w; nra). unfold Rminus. rewrite exp_plus, exp_Ropp.
  assert (w < exp w) as Hx by (pose proof (exp_ineq1_le w); lra). pose proof (exp_pos w) as Pw. pose proof (exp_pos p) as Pp.
  assert (A * / exp w <= 1) by (apply Rmult_le_reg_r with (exp w); [exact Pw|rewrite Rmult_assoc, Rinv_l by lra; lra]). replace (A * (exp p * / exp w)) with (exp p * (A * / exp w)) by ring. nra.
Qed.
Print Assumptions C67_tail_refuted.
Example C67_tail_ex : exists N n, normal_law N n. Proof. exact normal_law_exists. Qed.

(** and where the tail takes over it has no slope *)
Theorem C67_kink_refuted erfc : ~ exists d, rate (fun z => ncdf erfc z false) (- (3734582185 / 10 ^ 9)) d.
Proof.
  intros (d & g & e & He & Eg & Hg). change (- (3734582185 / 10 ^ 9)) with min_spline_x in *. destruct spline_exists as (m & Hfit & Hm).
  assert (Ephi : forall y, Rabs (y - min_spline_x) < e -> g y = phi m y). { intros y Hy. specialize (Eg y Hy). unfold ncdf in Eg. rewrite (phi_ok m Hm Hfit y) in Eg. injection Eg. auto. }
  pose proof (rate_sides g tail_value (G0 spline_x spline_f m) min_spline_x d _ _ Hg (tail_rate min_spline_x) (g_rate m Hm min_spline_x)) as Q. rewrite tail_min, (g_slope m Hm) in Q.
  assert (- (2 * (11180061 / 10 ^ 7)) * min_spline_x * min_spline_f = 373538 / 10 ^ 9) as C; [|unfold min_spline_x, min_spline_f in C; lra]. pose proof min_neg as Hmin. apply Q.
  - exists e. split; [exact He|]. intros s Hs. rewrite Ephi by (unfold Rabs; destruct (Rcase_abs _); lra). rewrite phi_le by lra. unfold low. destruct (Rlt_dec s min_spline_x); [reflexivity|]. assert (s = min_spline_x) as -> by lra. rewrite (g_first m Hm), tail_min. reflexivity.
  - exists (Rmin e 1). pose proof (Rmin_l e 1). pose proof (Rmin_r e 1). split; [apply Rmin_pos; lra|]. intros s Hs. rewrite Ephi by (unfold Rabs; destruct (Rcase_abs _); lra). rewrite phi_le by lra. unfold low. destruct (Rlt_dec s min_spline_x); [lra|reflexivity].
Qed.
Print Assumptions C67_kink_refuted.

(** the precise version is symmetric if the error function of the C library is *)
Lemma ncdf_symmetric erfc precise : (precise = true -> reflects erfc) -> exists N, (forall z, ncdf erfc z precise = Ok (N z)) /\ symmetric N.
Proof.
  intros H. destruct precise.
  - exists (fun z => 1 / 2 * erfc (- z / sqrt 2)). split; [reflexivity|]. intros z. replace (- - z / sqrt 2) with (- (- z / sqrt 2)) by (field; apply Rgt_not_eq, sqrt_lt_R0; lra). rewrite (H eq_refl). lra.
  - destruct C67_fast as (N & E & Hs & _). exists N. split; [exact (E erfc)|exact Hs].
Qed.
Theorem C67_symmetric erfc precise z : (precise = true -> reflects erfc) -> exists v, ncdf erfc z precise = Ok v /\ ncdf erfc (- z) precise = Ok (1 - v).
Proof. intros H. destruct (ncdf_symmetric erfc precise H) as (N & E & Hs). exists (N z). rewrite !E, Hs. split; reflexivity. Qed.
Print Assumptions C67_symmetric.
Example C67_symmetric_ex : reflects (fun x => 1 - x). Proof. intros x. ring. Qed.

(** the inverse refuses what is not a probability and gives a number strictly inside *)
Theorem C67_domain erfc x precise polish : (x < 0 \/ 1 < x -> inverse_ncdf erfc x precise polish = Throw) /\ (0 < x < 1 -> exists z, inverse_ncdf erfc x precise polish = Ok (Some z)).
Proof.
  split.
  - intros H. unfold inverse_ncdf. destruct (Rle_dec 0 x); [|reflexivity]. destruct (Rle_dec x 1); [lra|reflexivity].
  - intros H. unfold inverse_ncdf. destruct (Rle_dec 0 x); [|lra]. destruct (Rle_dec x 1); [|lra]. rewrite (rough_ok x H). destruct polish; [|eauto]. destruct precise; cbn [ncdf]; [cbn [obind]; eauto|]. destruct C67_fast as (N & E & _). pose proof (E erfc (rough x)) as En. cbn [ncdf] in En. rewrite En. cbn [obind]. eauto.
Qed.
Print Assumptions C67_domain.
Example C67_domain_ex : (-1 < 0 \/ 1 < -1) /\ 0 < 1 / 3 < 1. Proof. lra. Qed.
(** at the two ends, which it accepts, the answer is not a number *)
Theorem C67_ends_refuted erfc precise polish : inverse_ncdf erfc 0 precise polish = Ok None /\ inverse_ncdf erfc 1 precise polish = Ok None.
Proof.
  unfold inverse_ncdf, rough_inverse, x_high, x_low. split.
  - destruct (Rle_dec 0 0); [|lra]. destruct (Rle_dec 0 1); [|lra]. destruct (Rlt_dec 0 _); [|lra]. destruct (Req_EM_T 0 0); [reflexivity|lra].
  - destruct (Rle_dec 0 1); [|lra]. destruct (Rle_dec 1 1); [|lra]. destruct (Rlt_dec 1 _); [lra|]. destruct (Rlt_dec _ 1); [|lra]. destruct (Req_EM_T 1 1); [reflexivity|lra].
Qed.
Print Assumptions C67_ends_refuted.

(** the inverse is antisymmetric about one half *)
Theorem C67_inverse_symmetric erfc x precise polish z : (precise = true -> reflects erfc) -> 0 < x < 1 -> inverse_ncdf erfc x precise polish = Ok (Some z) -> inverse_ncdf erfc (1 - x) precise polish = Ok (Some (- z)).
Proof.
  intros H Hx. unfold inverse_ncdf. destruct (Rle_dec 0 x); [|lra]. destruct (Rle_dec x 1); [|lra]. destruct (Rle_dec 0 (1 - x)); [|lra]. destruct (Rle_dec (1 - x) 1); [|lra]. rewrite (rough_ok x Hx), (rough_ok (1 - x) ltac:(lra)), rough_odd.
  destruct polish; [|intros E; assert (rough x = z) as <- by congruence; reflexivity]. destruct (ncdf_symmetric erfc precise H) as (N & E & Hs). rewrite !E. cbn [obind]. intros Q.
  apply (f_equal (fun o => match o with Ok (Some v) => v | _ => 0 end)) in Q. cbn iota beta in Q. do 2 f_equal. rewrite <- Q, Hs. replace (- rough x * - rough x) with (rough x * rough x) by ring. ring.
Qed.
Print Assumptions C67_inverse_symmetric.
Example C67_inverse_symmetric_ex : exists z, inverse_ncdf (fun x => 1 - x) (1 / 3) false true = Ok (Some z). Proof. apply C67_domain. lra. Qed.
(** the unpolished inverse is strictly increasing, across both joints, and zero at one half *)
Theorem C67_increasing erfc precise x y : 0 < x -> x < y -> y < 1 ->
  exists zx zy, inverse_ncdf erfc x precise false = Ok (Some zx) /\ inverse_ncdf erfc y precise false = Ok (Some zy) /\ zx < zy /\ inverse_ncdf erfc (1 / 2) precise false = Ok (Some 0).
Proof.
  intros H0 H H1. assert (forall t, 0 < t < 1 -> inverse_ncdf erfc t precise false = Ok (Some (rough t))) as Q.
  { intros t Ht. unfold inverse_ncdf. destruct (Rle_dec 0 t); [|lra]. destruct (Rle_dec t 1); [|lra]. rewrite (rough_ok t Ht). reflexivity. }
  exists (rough x), (rough y). rewrite !Q by lra. rewrite rough_half. repeat split. now apply rough_lt.
Qed.
Print Assumptions C67_increasing.
Example C67_increasing_ex : 0 < 2424 / 100000 /\ 2424 / 100000 < 2426 / 100000 /\ 2426 / 100000 < 1. Proof. lra. Qed.

(** one step of polishing takes the approximation z to the true quantile r with the square of its error, up to the error of the constant 2.5066282746310002 *)
Theorem C67_polish erfc N n x z r : normal_law N n -> (forall t, ncdf erfc t true = Ok (N t)) -> 0 < x < 1 -> N r = x -> inverse_ncdf erfc x true false = Ok (Some z) -> Rabs z <= 4 ->
  exists z', inverse_ncdf erfc x true true = Ok (Some z') /\
    Rabs (z' - r) <= Rabs (z - r) * ((1 + Rabs (25066282746310002 / 10 ^ 16 * n 0 - 1)) * exp (Rabs (z * z - r * r) / 2) - 1).
Proof.
  intros HN En Hx Hr E H4. unfold inverse_ncdf in *. destruct (Rle_dec 0 x); [|lra]. destruct (Rle_dec x 1); [|lra]. rewrite (rough_ok x Hx) in *. assert (z = rough x) as -> by congruence. rewrite En. cbn [obind]. eexists. split; [reflexivity|].
  assert (N 0 = 1 / 2) as Nz. { pose proof (nl_sym _ _ HN 0) as Q. rewrite Ropp_0 in Q. lra. }
  assert (0 <= rough x * r) as Hs.
  { pose proof rough_half as Rh. destruct (Rtotal_order x (1 / 2)) as [C|[C|C]].
    - pose proof (rough_lt x (1 / 2) ltac:(lra) C ltac:(lra)). assert (r < 0). { destruct (Rlt_le_dec r 0) as [|D]; [assumption|]. destruct (Req_dec r 0) as [->|]; [lra|]. pose proof (N_lt N n HN 0 r ltac:(lra)). lra. } nra.
    - rewrite C, Rh. lra.
    - pose proof (rough_lt (1 / 2) x ltac:(lra) C ltac:(lra)). assert (0 < r). { destruct (Rlt_le_dec 0 r) as [|D]; [assumption|]. destruct (Req_dec r 0) as [->|]; [lra|]. pose proof (N_lt N n HN r 0 ltac:(lra)). lra. } nra. }
  pose proof (step_near N n HN (rough x) r H4 Hs) as Q. unfold step, weight in Q. rewrite Hr in Q. exact Q.
Qed.
Print Assumptions C67_polish.
Example C67_polish_ex : exists erfc N n r z, normal_law N n /\ (forall t, ncdf erfc t true = Ok (N t)) /\ N r = 3 / 4 /\ inverse_ncdf erfc (3 / 4) true false = Ok (Some z) /\ Rabs z <= 4.
Proof.
  destruct normal_law_exists as (N & n & HN). assert (0 < sqrt 2) by (apply sqrt_lt_R0; lra). destruct (nl_zero _ _ HN (1 / 4) ltac:(lra)) as (m & Hm).
  assert (N 0 = 1 / 2) as Nz. { pose proof (nl_sym _ _ HN 0) as Q. rewrite Ropp_0 in Q. lra. }
  set (b := Rmax 1 (1 - m)). assert (Hb : 3 / 4 < N b). { pose proof (Rmax_r 1 (1 - m)). fold b in H0. specialize (Hm (- b) ltac:(lra)). apply Rabs_def2 in Hm. rewrite (nl_sym _ _ HN) in Hm. lra. }
  assert (continuity (fun t => N t - 3 / 4)) as Hc. { intros t. apply derivable_continuous_pt. exists (n t - 0). apply derivable_pt_lim_minus; [apply (nl_rate _ _ HN)|apply derivable_pt_lim_const]. }
  destruct (IVT (fun t => N t - 3 / 4) 0 b Hc) as (r & _ & Er); [pose proof (Rmax_l 1 (1 - m)); fold b in H0; lra|lra|lra|].
  exists (fun y => 2 * N (- y * sqrt 2)), N, n, r, (rough (3 / 4)). split; [exact HN|]. split.
  { intros t. cbn [ncdf]. f_equal. replace (- (- t / sqrt 2) * sqrt 2) with t by (field; lra). lra. }
  split; [lra|]. split.
  { unfold inverse_ncdf. destruct (Rle_dec 0 (3 / 4)); [|lra]. destruct (Rle_dec (3 / 4) 1); [|lra]. rewrite rough_ok by lra. reflexivity. }
  assert (0 < rough (3 / 4)) by (rewrite <- rough_half; apply rough_lt; lra). rewrite Rabs_pos_eq by lra. unfold rough, x_high, x_low. destruct (Rlt_dec (3 / 4) _); [lra|]. destruct (Rlt_dec _ (3 / 4)); [lra|].
  rewrite middle_is. replace (3 / 4 - 1 / 2) with (1 / 4) by lra. assert (Hd : 0 < mden (1 / 4 * (1 / 4))) by (apply mden_pos; lra).
  apply Rmult_le_reg_r with (mden (1 / 4 * (1 / 4))); [exact Hd|]. replace (1 / 4 * mnum (1 / 4 * (1 / 4)) / mden (1 / 4 * (1 / 4)) * mden (1 / 4 * (1 / 4))) with (1 / 4 * mnum (1 / 4 * (1 / 4))) by (field; lra). unfold mnum, mden. coefs. lra.
Qed.
