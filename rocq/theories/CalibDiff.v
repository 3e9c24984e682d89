(** Lemmas about the finite differences of the local volatility. *)
From Coq Require Import Reals List Lia Lra.
From Verif Require Import Base BlackModel BlackSpec BlackProofs CalibModel CalibSpec.
Local Open Scope R_scope.
Lemma first_difference f f' x h : 0 < h -> (forall y, x - h <= y <= x + h -> derivable_pt_lim f y (f' y)) ->
  exists c, x - h < c < x + h /\ (f (x + h) - f (x - h)) * (1 / 2) / h = f' c.
Proof. intros Hh Hd. destruct (MVT_cor2 f f' (x - h) (x + h) ltac:(lra) Hd) as (c & E & Hc). exists c. split; [exact Hc|]. rewrite E. field. lra. Qed.
Lemma shift_rate f y h d : derivable_pt_lim f (y + h) d -> derivable_pt_lim (fun z => f (z + h)) y d.
Proof. intros H. eapply rate_value; [apply (derivable_pt_lim_comp (fun z => z + h) f); [apply derivable_pt_lim_plus; [apply derivable_pt_lim_id|apply derivable_pt_lim_const]|exact H]|ring]. Qed.
Lemma second_difference f f1 f2 x h : 0 < h -> (forall y, x - h <= y <= x + h -> derivable_pt_lim f y (f1 y)) -> (forall y, x - h <= y <= x + h -> derivable_pt_lim f1 y (f2 y)) ->
  exists c, x - h < c < x + h /\ (f (x - h) + f (x + h) - 2 * f x) / h / h = f2 c.
Proof.
  intros Hh H1 H2. destruct (MVT_cor2 (fun y => f (y + h) - f y) (fun y => f1 (y + h) - f1 y) (x - h) x ltac:(lra)) as (c & E & Hc).
  { intros y Hy. apply (derivable_pt_lim_minus (fun z => f (z + h)) f); [apply shift_rate|]; apply H1; lra. }
  destruct (MVT_cor2 f1 f2 c (c + h) ltac:(lra)) as (d & E2 & Hd); [intros y Hy; apply H2; lra|]. exists d. split; [lra|].
  replace (x - h + h) with x in E by ring. replace (f (x - h) + f (x + h) - 2 * f x) with ((f1 (c + h) - f1 c) * (x - (x - h))) by lra. rewrite E2. field. lra.
Qed.
Section Law.
Variables N n : R -> R.
Hypothesis HN : normal_law N n.
Lemma dm_strike f v k : 0 < f -> 0 < k -> v <> 0 -> derivable_pt_lim (fun x => d_minus f v x) k (- / (k * v)).
Proof.
  intros Hf Hk Hv. unfold d_minus. assert (Hq : 0 < f / k) by (apply Rdiv_lt_0_compat; assumption).
  apply (rate_ext (fun x => (fun y => ln (f * (fun z => / z) y)) x * / v + - (1 / 2 * v))); [intros y; unfold Rdiv; ring|]. eapply rate_value.
  - apply derivable_pt_lim_plus; [|apply derivable_pt_lim_const]. apply derivable_pt_lim_mult; [|apply derivable_pt_lim_const].
    apply (derivable_pt_lim_comp (fun y => f * / y) ln); [apply derivable_pt_lim_mult; [apply derivable_pt_lim_const|apply inv_rate; lra]|]. apply derivable_pt_lim_ln. exact Hq.
  - cbv beta. field. lra.
Qed.
Lemma call_strike f v k : 0 < f -> 0 < k -> v <> 0 -> derivable_pt_lim (fun x => call_of N f v x) k (- N (d_minus f v k)).
Proof.
  intros Hf Hk Hv. pose proof (dm_strike f v k Hf Hk Hv) as D. pose proof (density N n HN f v k ltac:(nra) Hv) as E. unfold call_of.
  assert (derivable_pt_lim (fun x => d_plus f v x) k (- / (k * v))) as D'.
  { unfold d_plus. eapply rate_value; [apply derivable_pt_lim_plus; [exact D|apply derivable_pt_lim_const]|ring]. }
  eapply rate_value.
  - apply derivable_pt_lim_minus; [apply derivable_pt_lim_mult; [apply derivable_pt_lim_const|]|apply derivable_pt_lim_mult; [apply derivable_pt_lim_id|]].
    + apply (derivable_pt_lim_comp (fun x => d_plus f v x) N); [exact D'|apply (nl_rate _ _ HN)].
    + apply (derivable_pt_lim_comp (fun x => d_minus f v x) N); [exact D|apply (nl_rate _ _ HN)].
  - unfold id, comp. cbv beta. set (dp := d_plus f v k) in *. set (dm := d_minus f v k) in *. clearbody dp dm.
    transitivity (- N dm + / (k * v) * (k * n dm - f * n dp)); [ring|]. rewrite E. ring.
Qed.
Lemma call_strike2 f v k : 0 < f -> 0 < k -> v <> 0 -> derivable_pt_lim (fun x => - N (d_minus f v x)) k (n (d_minus f v k) / (k * v)).
Proof.
  intros Hf Hk Hv. pose proof (dm_strike f v k Hf Hk Hv) as D. eapply rate_value.
  - apply (derivable_pt_lim_opp (fun x => N (d_minus f v x))). apply (derivable_pt_lim_comp (fun x => d_minus f v x) N); [exact D|apply (nl_rate _ _ HN)].
  - field. lra.
Qed.
Lemma gamma_dm f s k t : gamma n f s k t = n (d_minus f (s * sqrt t) k) / (k * (s * sqrt t)).
Proof. unfold gamma, d_minus. replace (s * sqrt t / 2) with (1 / 2 * (s * sqrt t)) by lra. reflexivity. Qed.
Lemma call_time f s k t : 0 < f -> 0 < k -> 0 < s -> 0 < t -> derivable_pt_lim (fun x => call_of N f (s * sqrt x) k) t (1 / 2 * s * s * k * k * gamma n f s k t).
Proof.
  intros Hf Hk Hs Ht. pose proof (sqrt_lt_R0 t Ht) as Hr. assert (Hv : s * sqrt t <> 0) by nra. eapply rate_value.
  - apply (derivable_pt_lim_comp (fun x => s * sqrt x) (fun v => call_of N f v k)); [apply derivable_pt_lim_mult; [apply derivable_pt_lim_const|apply derivable_pt_lim_sqrt; exact Ht]|]. apply (call_vol N n HN); [nra|exact Hv].
  - rewrite (density N n HN f (s * sqrt t) k ltac:(nra) Hv), gamma_dm. set (x := n _). clearbody x. field. lra.
Qed.
(** the undiscounted Black call is the formula, away from the tests of the code *)
Lemma black_call f v k : epsilon <= v -> epsilon <= f * k -> black_opt N f v k Call = Ok (call_of N f v k).
Proof. intros Hv Hk. rewrite black_formula; [reflexivity| |exact Hk]. rewrite Rabs_right; [exact Hv|]. pose proof eps_pos. lra. Qed.
(** ratio of two gammas *)
Lemma gamma_pos f s k t : 0 < k -> 0 < s -> 0 < t -> 0 < gamma n f s k t.
Proof. intros Hk Hs Ht. pose proof (sqrt_lt_R0 t Ht). unfold gamma. apply Rdiv_lt_0_compat; [apply (n_pos N n HN)|]. apply Rmult_lt_0_compat; [exact Hk|nra]. Qed.
Lemma gamma_exp : exists c, 0 < c /\ forall f s k t, 0 < f -> 0 < k -> 0 < s -> 0 < t ->
  gamma n f s k t = c * exp (- ((ln f - ln k) * (ln f - ln k) / (2 * (s * s * t))) + (ln f - ln k) / 2 - s * s * t / 8 - ln k - ln s - ln t / 2).
Proof.
  destruct (nl_gauss _ _ HN) as (c & Hc & Hn). exists c. split; [exact Hc|]. intros f s k t Hf Hk Hs Ht. unfold gamma. rewrite Hn. assert (Ed : ln (f / k) = ln f - ln k) by (unfold Rdiv; rewrite ln_mult, ln_Rinv by (try apply Rinv_0_lt_compat; assumption); ring). rewrite Ed. pose proof (sqrt_lt_R0 t Ht) as Hr. pose proof (sqrt_sqrt t ltac:(lra)) as Hq.
  assert (El : ln (sqrt t) = ln t / 2) by (rewrite <- Hq at 2; rewrite ln_mult by exact Hr; lra).
  replace (exp (- ((ln f - ln k) * (ln f - ln k) / (2 * (s * s * t))) + (ln f - ln k) / 2 - s * s * t / 8 - ln k - ln s - ln t / 2))
    with (exp (- (((ln f - ln k) / (s * sqrt t) - s * sqrt t / 2) * ((ln f - ln k) / (s * sqrt t) - s * sqrt t / 2) / 2)) * exp (- (ln k + (ln s + ln (sqrt t))))).
  - rewrite (exp_Ropp (ln k + _)), !exp_plus, !exp_ln by assumption. field. repeat split; lra.
  - rewrite <- exp_plus. f_equal. rewrite El. replace (s * s * t) with ((s * sqrt t) * (s * sqrt t)) by (rewrite <- Hq at 3; ring). set (L := ln f - ln k). set (w := s * sqrt t). assert (w <> 0) by (unfold w; nra). field. assumption.
Qed.
End Law.
Lemma ln_upper x : 0 < x -> ln x <= x - 1.
Proof. intros Hx. pose proof (exp_ineq1_le (ln x)) as H. rewrite exp_ln in H by exact Hx. lra. Qed.
Lemma ln_lower x : 0 < x -> 1 - / x <= ln x.
Proof. intros Hx. pose proof (ln_upper (/ x) (Rinv_0_lt_compat x Hx)) as H. rewrite ln_Rinv in H by exact Hx. lra. Qed.
Lemma near_one x : 1 - 1 / 10000 < x < 1 + 1 / 10000 -> Rabs (ln x) <= 10002 / 10 ^ 8.
Proof.
  intros [A B]. pose proof (ln_upper x ltac:(lra)). pose proof (ln_lower x ltac:(lra)) as H2. assert (/ x <= / (1 - 1 / 10000)) by (apply Rinv_le_contravar; lra).
  replace (/ (1 - 1 / 10000)) with (1 + 1 / 9999) in H0 by field. apply Rabs_le. lra.
Qed.
Lemma abs_between x y : Rabs x <= y -> - y <= x <= y.
Proof. intros H. unfold Rabs in H. destruct (Rcase_abs x); lra. Qed.
Lemma gamma_close N n f s k t k' t' : normal_law N n -> 0 < f -> 0 < s -> 0 < k -> 0 < t -> k * (1 - 1 / 10000) < k' < k * (1 + 1 / 10000) -> t * (1 - 1 / 10000) < t' < t * (1 + 1 / 10000) ->
  1 / 400 <= s * s * t <= 4 -> (ln f - ln k) * (ln f - ln k) <= 9 * (s * s * t) -> exists e, Rabs e <= 7 / 1000 /\ gamma n f s k t' / gamma n f s k' t = exp e.
Proof.
  intros HN Hf Hs Hk Ht Hk' Ht' HV HL. destruct (gamma_exp N n HN) as (c & Hc & HE). assert (0 < k') by nra. assert (0 < t') by nra. rewrite !HE by assumption.
  set (L := ln f - ln k) in *. set (V := s * s * t) in *. set (a := ln k' - ln k). set (b := ln t' - ln t). replace (ln f - ln k') with (L - a) by (unfold L, a; ring).
  set (th := t' / t). assert (Hth : 1 - 1 / 10000 < th < 1 + 1 / 10000). { assert (Eth : th * t = t') by (unfold th; field; lra). split; nra. }
  set (ka := k' / k). assert (Hka : 1 - 1 / 10000 < ka < 1 + 1 / 10000). { assert (Eth : ka * k = k') by (unfold ka; field; lra). split; nra. }
  assert (Ha : Rabs a <= 10002 / 10 ^ 8). { replace a with (ln ka); [apply near_one; exact Hka|]. unfold ka, Rdiv, a. rewrite ln_mult, ln_Rinv by (try apply Rinv_0_lt_compat; assumption). ring. }
  assert (Hb : Rabs b <= 10002 / 10 ^ 8). { replace b with (ln th); [apply near_one; exact Hth|]. unfold th, Rdiv, b. rewrite ln_mult, ln_Rinv by (try apply Rinv_0_lt_compat; assumption). ring. }
  assert (EV : s * s * t' = V * th) by (unfold V, th; field; lra). rewrite EV. assert (0 < V) by lra.
  set (x := L * L / V). set (y := a * a / V). set (z := L * a / V). set (g := / th - 1).
  exists (- x / 2 * g - z + y / 2 + 3 / 2 * a + V * (1 - th) / 8 - b / 2). split.
  - assert (Hx : 0 <= x <= 9). { assert (Ex : x * V = L * L) by (unfold x; field; lra). pose proof (Rle_0_sqr L) as Hq. unfold Rsqr in Hq. split; nra. }
    assert (Ha2 : a * a <= 10002 / 10 ^ 8 * (10002 / 10 ^ 8)). { apply abs_between in Ha. nra. }
    assert (Hy : 0 <= y <= 400 * (10002 / 10 ^ 8 * (10002 / 10 ^ 8))). { assert (Ey : y * V = a * a) by (unfold y; field; lra). pose proof (Rle_0_sqr a) as Hq. unfold Rsqr in Hq. split; nra. }
    set (l := 20 / 3 * (10002 / 10 ^ 8)).
    assert (Hz : forall w, w = 1 \/ w = -1 -> 0 <= l * l * x + y + w * (2 * l * z)).
    { intros w Hw. replace (l * l * x + y + w * (2 * l * z)) with ((l * L + w * a) * (l * L + w * a) * / V); [|destruct Hw as [-> | ->]; unfold x, y, z; field; lra].
      apply Rmult_le_pos; [apply Rle_0_sqr|]. left. apply Rinv_0_lt_compat. assumption. }
    pose proof (Hz 1 (or_introl eq_refl)) as Z1. pose proof (Hz (-1) (or_intror eq_refl)) as Z2. assert (Hg : Rabs g <= 1 / 9999).
    { unfold g. assert (/ th <= / (1 - 1 / 10000)) by (apply Rinv_le_contravar; lra). assert (/ (1 + 1 / 10000) <= / th) by (apply Rinv_le_contravar; lra). replace (/ (1 - 1 / 10000)) with (1 + 1 / 9999) in * by field. replace (/ (1 + 1 / 10000)) with (1 - 1 / 10001) in * by field. apply Rabs_le. lra. }
    apply abs_between in Ha. apply abs_between in Hb. apply abs_between in Hg. assert (Hxg : - (9 / 9999) <= x * g <= 9 / 9999) by (split; nra). assert (Hm : - (4 / 10000) <= V * (1 - th) <= 4 / 10000) by (split; nra).
    replace (- x / 2 * g) with (- (x * g) / 2) by field. unfold l in *. apply Rabs_le. lra.
  - rewrite <- (Rmult_1_l (exp (_ - b / 2))). unfold Rdiv at 1. rewrite Rinv_mult_distr; [|lra|apply Rgt_not_eq, exp_pos]. rewrite <- exp_Ropp.
    match goal with |- c * exp ?p * (/ c * exp ?q) = _ => replace (c * exp p * (/ c * exp q)) with (1 * exp (p + q)); [|rewrite exp_plus; field; lra] end. f_equal. f_equal.
    unfold x, y, z, g, a, b. field. split; lra.
Qed.
Lemma exp_half e : sqrt (exp e) = exp (e / 2).
Proof. replace (exp e) with (exp (e / 2) * exp (e / 2)); [apply sqrt_square; left; apply exp_pos|]. rewrite <- exp_plus. f_equal. field. Qed.
Lemma exp_near e : Rabs e <= 7 / 2000 -> Rabs (exp e - 1) <= 1 / 200.
Proof.
  intros H. apply abs_between in H. pose proof (exp_ineq1_le e). pose proof (exp_ineq1_le (- e)) as H2. rewrite exp_Ropp in H2. assert (Hp : 0 < exp e) by apply exp_pos.
  assert (exp e <= / (1 - 7 / 2000)). { rewrite <- (Rinv_inv (exp e)). apply Rinv_le_contravar; lra. } replace (/ (1 - 7 / 2000)) with (2000 / 1993) in * by field. apply Rabs_le. lra.
Qed.
