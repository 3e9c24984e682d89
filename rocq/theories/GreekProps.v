(** Property C48: how large the reported sensitivities are, and how they fit together. *)
From Coq Require Import Reals Lra.
From Verif Require Import Base BrentModel BrentSpec BrentProofs BlackModel BlackSpec BlackProofs BlackNormal BlackProps.
Local Open Scope R_scope.

(** the deltas and vegas of a call, a put and a straddle *)
Definition fit_together (greeks : option_type -> outcome (option (R * R))) (f : R) : Prop :=
  exists dc dp ds vc vp vs, greeks Call = Ok (Some (dc, vc)) /\ greeks Put = Ok (Some (dp, vp)) /\ greeks Straddle = Ok (Some (ds, vs)) /\
    0 < dc < 1 /\ -1 < dp < 0 /\ -1 < ds < 1 /\ dc - dp = 1 /\ ds = dc + dp /\ vc = vp /\ vs = vc + vp /\ (0 < f -> 0 < vc).
Theorem C48_greek_bounds N n f v k : normal_law N n -> v <> 0 -> (0 < f * k -> fit_together (fun t => black_greeks N n f v k t) f) /\ fit_together (fun t => bachelier_greeks N n f v k t) f.
Proof.
  intros HN Hv. split.
  - intros Hfk. unfold fit_together, black_greeks. destruct (reqb_spec v 0); [contradiction|]. destruct (rleb_spec (f * k) 0); [lra|]. cbn [orb]. do 6 eexists. do 3 (split; [reflexivity|]).
    rewrite !(nl_sym _ _ HN). pose proof (N_pos N n HN (d_plus f v k)). pose proof (N_one N n HN (d_plus f v k)). pose proof (n_pos N n HN (d_plus f v k)). repeat split; try lra. intros Hf. now apply Rmult_lt_0_compat.
  - unfold fit_together, bachelier_greeks. destruct (reqb_spec v 0); [contradiction|]. do 6 eexists. do 3 (split; [reflexivity|]).
    rewrite !(nl_sym _ _ HN). set (d := (f - k) / v). pose proof (N_pos N n HN d). pose proof (N_one N n HN d). pose proof (n_pos N n HN d). repeat split; lra.
Qed.
Print Assumptions C48_greek_bounds.
(** Finding: with a negative forward and strike, which the code accepts as their product is positive, the vega of an option is negative. *)
Theorem C48_negative_vega_refuted N n v : normal_law N n -> 0 < v -> exists d w, black_greeks N n (-1) v (-1) Call = Ok (Some (d, w)) /\ w < 0.
Proof.
  intros HN Hv. unfold black_greeks. destruct (reqb_spec v 0); [lra|]. destruct (rleb_spec (-1 * -1) 0); [lra|]. cbn [orb]. do 2 eexists. split; [reflexivity|]. pose proof (n_pos N n HN (d_plus (-1) v (-1))). lra.
Qed.
Print Assumptions C48_negative_vega_refuted.
Example C48_greek_bounds_case : (exists N n, normal_law N n) /\ 1 / 5 <> 0 /\ 0 < 100 * 110.
Proof. split; [apply normal_law_exists|]. lra. Qed.
Lemma quotient_pos f k : 0 < f * k -> 0 < f / k.
Proof. intros H. assert (k <> 0) by (intros ->; lra). replace (f / k) with (f * k * / (k * k)) by (field; assumption). apply Rmult_lt_0_compat; [exact H|]. apply Rinv_0_lt_compat. nra. Qed.
(** A call is a put with forward and strike exchanged, and a straddle is its own exchange, for every forward, strike and volatility. *)
Theorem C48_exchange N f v k : symmetric N -> black_opt N f v k Call = black_opt N k v f Put /\ black_opt N f v k Straddle = black_opt N k v f Straddle.
Proof.
  intros Hs. unfold black_opt. rewrite (Rmult_comm k f). destruct (is_zero_spec v) as [_|Ez]; cbn [orb]; [split; cbn [payout]; [reflexivity|now rewrite Rabs_minus_sym]|].
  destruct (is_positive_spec (f * k)) as [H|H]; cbn [negb]; [|split; cbn [payout]; [reflexivity|now rewrite Rabs_minus_sym]].
  pose proof eps_pos as He. assert (Hf : 0 < f * k) by lra. assert (f <> 0 /\ k <> 0) as (F0 & K0) by (split; intros ->; lra).
  assert (Hv : v <> 0) by (intros ->; apply Ez; rewrite Rabs_R0; lra).
  assert (El : ln (k / f) = - ln (f / k)) by (replace (k / f) with (/ (f / k)) by (field; split; assumption); apply ln_Rinv; now apply quotient_pos).
  assert (Em : d_minus k v f = - d_plus f v k) by (unfold d_plus, d_minus; rewrite El; field; exact Hv).
  assert (Ep : d_plus k v f = - d_minus f v k) by (unfold d_plus at 1; rewrite Em; unfold d_plus; ring).
  rewrite Em, Ep, !Ropp_involutive. split; [reflexivity|]. f_equal. rewrite !Hs. ring.
Qed.
Print Assumptions C48_exchange.
(** Prices are in the unit of forward and strike: in another unit the price is the same amount, as long as the tolerance does not decide. *)
Theorem C48_unit N f v k t a x : 0 < a -> epsilon <= f * k -> epsilon <= (a * f) * (a * k) -> black_opt N f v k t = Ok x -> black_opt N (a * f) v (a * k) t = Ok (a * x).
Proof.
  intros Ha H1 H2. pose proof eps_pos as He. unfold black_opt. assert (f <> 0 /\ k <> 0) as (F0 & K0) by (split; intros ->; lra).
  assert (Ed : d_minus (a * f) v (a * k) = d_minus f v k) by (unfold d_minus; do 3 f_equal; field; lra). assert (Ep : d_plus (a * f) v (a * k) = d_plus f v k) by (unfold d_plus; now rewrite Ed).
  destruct (is_positive_spec (f * k)) as [_|H]; [|lra]. destruct (is_positive_spec (a * f * (a * k))) as [_|H]; [|lra]. cbn [negb]. rewrite Ed, Ep.
  destruct (is_zero v); cbn [orb]; destruct t; cbn [payout]; intros E; try discriminate; injection E as <-; f_equal; try ring.
  - rewrite <- RmaxRmult by lra. f_equal; ring.
  - rewrite <- RmaxRmult by lra. f_equal; ring.
  - replace (a * f - a * k) with (a * (f - k)) by ring. rewrite Rabs_mult, (Rabs_pos_eq a) by lra. reflexivity.
Qed.
Print Assumptions C48_unit.
(** Finding: the tolerance is not in that unit: amounts quoted in a large enough unit lose their time value. *)
Theorem C48_unit_refuted N n : normal_law N n -> exists f k v a x, 0 < a /\ black_opt N f v k Call = Ok x /\ 0 < x /\ black_opt N (a * f) v (a * k) Call = Ok 0.
Proof.
  intros HN. destruct (black_parity N 1 1 1 (nl_sym _ _ HN)) as (x & _ & _ & E & _). exists 1, 1, 1, (epsilon / 2), x. pose proof eps_pos as He. assert (L : epsilon < 1) by (unfold epsilon; lra). split; [lra|]. split; [exact E|].
  destruct (C48_bounds N n 1 1 1 Call x (Rmax 0 (1 - 1)) HN ltac:(lra) eq_refl) as (B & _). destruct (B ltac:(lra) ltac:(lra) E) as (_ & B2 & _). specialize (B2 ltac:(lra) ltac:(lra)). pose proof (Rmax_l 0 (1 - 1)). split; [lra|].
  unfold black_opt. destruct (is_positive_spec (epsilon / 2 * 1 * (epsilon / 2 * 1))) as [H1|H1]; [exfalso; nra|]. cbn [negb]. rewrite Bool.orb_true_r. cbn [payout]. f_equal. unfold Rmax. destruct (Rle_dec _ _); lra.
Qed.
Print Assumptions C48_unit_refuted.
Example C48_unit_case : 0 < 100 /\ epsilon <= 1 * (11 / 10) /\ epsilon <= (100 * 1) * (100 * (11 / 10)).
Proof. unfold epsilon. lra. Qed.
(** The same exchange in the model with a normally distributed forward. *)
Theorem C48_bachelier_exchange N n f v k : normal_law N n -> bachelier_opt N n f v k Call = bachelier_opt N n k v f Put /\ bachelier_opt N n f v k Straddle = bachelier_opt N n k v f Straddle.
Proof.
  intros HN. destruct (nl_gauss _ _ HN) as (c & _ & Hg). pose proof (nl_sym _ _ HN) as Hs. unfold bachelier_opt. rewrite (Rmult_comm k f).
  destruct (is_zero_spec v) as [_|Ez]; cbn [orb]; [split; cbn [payout]; [reflexivity|now rewrite Rabs_minus_sym]|].
  destruct (is_positive_spec (f * k)) as [H|H]; cbn [negb]; [|split; cbn [payout]; [reflexivity|now rewrite Rabs_minus_sym]].
  replace ((k - f) / v) with (- ((f - k) / v)) by (unfold Rdiv; ring). assert (E : n (- ((f - k) / v)) = n ((f - k) / v)) by (rewrite !Hg; do 3 f_equal; field; intros ->; apply Ez; rewrite Rabs_R0; exact eps_pos).
  rewrite E, Ropp_involutive, Hs. split; f_equal; ring.
Qed.
Print Assumptions C48_bachelier_exchange.
(** There only the distance between forward and strike matters, as long as the tolerance does not decide. *)
Theorem C48_bachelier_shift N n f v k t a : epsilon <= f * k -> epsilon <= (f + a) * (k + a) -> bachelier_opt N n (f + a) v (k + a) t = bachelier_opt N n f v k t.
Proof.
  intros H1 H2. unfold bachelier_opt. destruct (is_positive_spec (f * k)) as [_|H]; [|lra]. destruct (is_positive_spec ((f + a) * (k + a))) as [_|H]; [|lra]. cbn [negb].
  replace (f + a - (k + a)) with (f - k) by ring. destruct (is_zero v); cbn [orb]; [|reflexivity]. destruct t; cbn [payout]; try reflexivity; do 2 f_equal; ring.
Qed.
Print Assumptions C48_bachelier_shift.
(** Finding: the tolerance does decide around zero, where this model is used most: the time value of a shifted option is lost. *)
Theorem C48_bachelier_shift_refuted N n : normal_law N n -> exists f k v a x, bachelier_opt N n f v k Call = Ok x /\ 0 < x /\ bachelier_opt N n (f + a) v (k + a) Call = Ok 0.
Proof.
  intros HN. destruct (nl_gauss _ _ HN) as (c & Hc & Hg). exists 1, 1, 1, (- (1)), (n 0). pose proof eps_pos as He. assert (L : epsilon < 1) by (unfold epsilon; lra). unfold bachelier_opt.
  destruct (is_zero_spec 1) as [E|_]; [rewrite Rabs_R1 in E; lra|]. destruct (is_positive_spec (1 * 1)) as [_|H]; [|lra]. destruct (is_positive_spec ((1 + - (1)) * (1 + - (1)))) as [H|_]; [lra|]. cbn [negb orb payout]. repeat split.
  - f_equal. replace ((1 - 1) / 1) with 0 by field. ring.
  - rewrite Hg. apply Rmult_lt_0_compat; [exact Hc|apply exp_pos].
  - f_equal. unfold Rmax. destruct (Rle_dec _ _); lra.
Qed.
Print Assumptions C48_bachelier_shift_refuted.
Example C48_bachelier_shift_case : epsilon <= 1 * (11 / 10) /\ epsilon <= (1 + 1) * (11 / 10 + 1).
Proof. unfold epsilon. lra. Qed.
