(** Proofs about option prices. *)
From Coq Require Import Reals List Bool Lra Lia Ranalysis.
From Verif Require Import Base BrentModel BrentSpec BrentProofs BlackModel BlackSpec.
Import ListNotations.
Local Open Scope R_scope.

Lemma eps_pos : 0 < epsilon.
Proof. unfold epsilon. lra. Qed.
Lemma is_zero_spec x : reflect (Rabs x < epsilon) (is_zero x).
Proof.
  unfold is_zero. destruct (rltb_spec x epsilon), (rltb_spec (- x) epsilon); cbn [andb]; constructor; unfold Rabs; destruct (Rcase_abs x); lra.
Qed.
Lemma is_positive_spec x : reflect (epsilon <= x) (is_positive x).
Proof. unfold is_positive. apply rleb_spec. Qed.
Lemma payout_parity s k : parity (fun t => payout t s k) s k.
Proof. exists (Rmax 0 (s - k)), (Rmax 0 (k - s)), (Rabs (s - k)). cbn [payout]. repeat (split; [reflexivity|]). unfold Rmax, Rabs. repeat destruct (Rle_dec _ _); destruct (Rcase_abs _); lra. Qed.

Lemma rate_value f x d d' : derivable_pt_lim f x d -> d = d' -> derivable_pt_lim f x d'. Proof. now intros H <-. Qed.
Lemma rate_ext f g x d : (forall y, f y = g y) -> derivable_pt_lim f x d -> derivable_pt_lim g x d.
Proof. intros E H e He. destruct (H e He) as [de Hd]. exists de. intros h. rewrite <- !E. apply Hd. Qed.
Lemma inv_rate v : v <> 0 -> derivable_pt_lim (fun y => / y) v (- / (v * v)).
Proof.
  intros Hv. apply (rate_ext (div_fct (fct_cte 1) id)); [intros y; unfold div_fct, fct_cte, id, Rdiv; ring|].
  eapply rate_value; [apply derivable_pt_lim_div; [apply derivable_pt_lim_const|apply derivable_pt_lim_id|exact Hv]|]. unfold Rsqr, id, fct_cte. field. assumption.
Qed.
(** a function with non-negative rate on an interval increases *)
Lemma mono_le f f' a b : a <= b -> (forall x, a <= x <= b -> derivable_pt_lim f x (f' x)) -> (forall x, a <= x <= b -> 0 <= f' x) -> f a <= f b.
Proof.
  intros Hab Hd Hp. destruct (Req_dec a b) as [->|Hne]; [lra|]. assert (a < b) as Hlt by lra. destruct (MVT_cor2 f f' a b Hlt Hd) as (c & E & Hc). specialize (Hp c ltac:(lra)). nra.
Qed.
Lemma mono_lt f f' a b : a < b -> (forall x, a <= x <= b -> derivable_pt_lim f x (f' x)) -> (forall x, a <= x <= b -> 0 < f' x) -> f a < f b.
Proof. intros Hab Hd Hp. destruct (MVT_cor2 f f' a b Hab Hd) as (c & E & Hc). specialize (Hp c ltac:(lra)). nra. Qed.

Section N.
Variables N n : R -> R.

Lemma black_cases f v k t : (black_opt N f v k t = payout t f k) \/ (epsilon <= Rabs v /\ epsilon <= f * k).
Proof.
  unfold black_opt. destruct (is_zero_spec v); [now left|]. destruct (is_positive_spec (f * k)); [right; lra|now left].
Qed.
Lemma black_formula f v k t : epsilon <= Rabs v -> epsilon <= f * k -> black_opt N f v k t =
  (let dm := d_minus f v k in let dp := d_plus f v k in
   match t with
   | Call => Ok (f * N dp - k * N dm)
   | Put => Ok (k * N (- dm) - f * N (- dp))
   | Straddle => Ok (f * (1 - 2 * N (- dp)) + k * (1 - 2 * N dm))
   | NotSet => Throw
   end).
Proof. intros H1 H2. unfold black_opt. destruct (is_zero_spec v); [lra|]. destruct (is_positive_spec (f * k)); [reflexivity|lra]. Qed.
Lemma bach_cases f v k t : (bachelier_opt N n f v k t = payout t f k) \/ (epsilon <= Rabs v /\ epsilon <= f * k).
Proof. unfold bachelier_opt. destruct (is_zero_spec v); [now left|]. destruct (is_positive_spec (f * k)); [right; lra|now left]. Qed.
Lemma bach_formula f v k t : epsilon <= Rabs v -> epsilon <= f * k -> bachelier_opt N n f v k t =
  (let diff := f - k in let d := diff / v in
   match t with
   | Call => Ok (diff * N d + v * n d)
   | Put => Ok (- diff * N (- d) + v * n d)
   | Straddle => Ok (diff * (2 * N d - 1) + 2 * v * n d)
   | NotSet => Throw
   end).
Proof. intros H1 H2. unfold bachelier_opt. destruct (is_zero_spec v); [lra|]. destruct (is_positive_spec (f * k)); [reflexivity|lra]. Qed.
Lemma black_parity f v k : symmetric N -> parity (fun t => black_opt N f v k t) f k.
Proof.
  intros Hs. unfold parity. destruct (is_zero_spec v) as [Hz|Hz]; [|destruct (is_positive_spec (f * k)) as [Hp|Hp]].
  - destruct (payout_parity f k) as (c & p & w & E1 & E2 & E3 & H). exists c, p, w. unfold black_opt. destruct (is_zero_spec v); [cbn [orb]; auto|lra].
  - rewrite !black_formula by lra. cbv zeta. do 3 eexists. repeat (split; [reflexivity|]). rewrite !Hs. split; ring.
  - destruct (payout_parity f k) as (c & p & w & E1 & E2 & E3 & H). exists c, p, w. unfold black_opt. destruct (is_positive_spec (f * k)); [lra|]. cbn [negb]. rewrite orb_true_r. auto.
Qed.
Lemma bach_parity f v k : symmetric N -> parity (fun t => bachelier_opt N n f v k t) f k.
Proof.
  intros Hs. unfold parity. destruct (is_zero_spec v) as [Hz|Hz]; [|destruct (is_positive_spec (f * k)) as [Hp|Hp]].
  - destruct (payout_parity f k) as (c & p & w & E1 & E2 & E3 & H). exists c, p, w. unfold bachelier_opt. destruct (is_zero_spec v); [cbn [orb]; auto|lra].
  - rewrite !bach_formula by lra. cbv zeta. do 3 eexists. repeat (split; [reflexivity|]). rewrite !Hs. split; ring.
  - destruct (payout_parity f k) as (c & p & w & E1 & E2 & E3 & H). exists c, p, w. unfold bachelier_opt. destruct (is_positive_spec (f * k)); [lra|]. cbn [negb]. rewrite orb_true_r. auto.
Qed.

Hypothesis HN : normal_law N n.
Lemma quot_pos f k : 0 < f * k -> 0 < f / k /\ f <> 0 /\ k <> 0.
Proof.
  intros H. assert (f <> 0) by (intros ->; lra). assert (k <> 0) by (intros ->; lra). split; [|tauto].
  replace (f / k) with (f * k * (/ k * / k)) by (field; assumption). apply Rmult_lt_0_compat; [assumption|]. assert (/ k <> 0) by now apply Rinv_neq_0_compat. nra.
Qed.
(** the identity behind the rates: forward times density at d+ is strike times density at d- *)
Lemma density f v k : 0 < f * k -> v <> 0 -> f * n (d_plus f v k) = k * n (d_minus f v k).
Proof.
  intros H Hv. destruct (quot_pos f k H) as (Hq & Hf & Hk). destruct (nl_gauss _ _ HN) as (c & _ & Hn). rewrite !Hn. unfold d_plus. set (m := d_minus f v k).
  assert (v * m = ln (f / k) - v * v / 2) as Em by (unfold m, d_minus; field; assumption).
  replace (- ((m + v) * (m + v) / 2)) with (- (m * m / 2) + - ln (f / k)) by (replace (ln (f / k)) with (v * m + v * v / 2) by lra; field).
  rewrite exp_plus, (exp_Ropp (ln (f / k))), exp_ln by assumption. field. tauto.
Qed.
Lemma dm_fwd f v k : 0 < f * k -> v <> 0 -> derivable_pt_lim (fun x => d_minus x v k) f (/ (f * v)).
Proof.
  intros H Hv. destruct (quot_pos f k H) as (Hq & Hf & Hk). unfold d_minus.
  apply (rate_ext (fun x => (fun y => ln (y * / k)) x * / v + - (1 / 2 * v))); [intros y; unfold Rdiv; ring|].
  eapply rate_value.
  - apply derivable_pt_lim_plus; [|apply derivable_pt_lim_const]. apply derivable_pt_lim_mult; [|apply derivable_pt_lim_const].
    apply (derivable_pt_lim_comp (fun y => y * / k) ln); [apply derivable_pt_lim_mult; [apply derivable_pt_lim_id|apply derivable_pt_lim_const]|]. apply derivable_pt_lim_ln. exact Hq.
  - unfold id. cbv beta. field. tauto.
Qed.
Lemma dm_vol f v k : v <> 0 -> derivable_pt_lim (fun x => d_minus f x k) v (- ln (f / k) / (v * v) - 1 / 2).
Proof.
  intros Hv. unfold d_minus. apply (rate_ext (fun x => ln (f / k) * (fun y => / y) x + - (1 / 2) * id x)); [intros y; unfold id, Rdiv; ring|]. eapply rate_value.
  - apply derivable_pt_lim_plus; (apply derivable_pt_lim_mult; [apply derivable_pt_lim_const|]); [|apply derivable_pt_lim_id].
    apply inv_rate; exact Hv.
  - unfold id, Rsqr, fct_cte. field. assumption.
Qed.
Definition call_of (f v k : R) : R := f * N (d_plus f v k) - k * N (d_minus f v k).
Lemma call_fwd f v k : 0 < f * k -> v <> 0 -> derivable_pt_lim (fun x => call_of x v k) f (N (d_plus f v k)).
Proof.
  intros H Hv. destruct (quot_pos f k H) as (Hq & Hf & Hk). pose proof (dm_fwd f v k H Hv) as D. pose proof (density f v k H Hv) as E. unfold call_of. 
  assert (derivable_pt_lim (fun x => d_plus x v k) f (/ (f * v))) as D'.
  { unfold d_plus. eapply rate_value; [apply derivable_pt_lim_plus; [exact D|apply derivable_pt_lim_const]|ring]. }
  eapply rate_value.
  - apply derivable_pt_lim_minus; [apply derivable_pt_lim_mult; [apply derivable_pt_lim_id|]|apply derivable_pt_lim_mult; [apply derivable_pt_lim_const|]].
    + apply (derivable_pt_lim_comp (fun x => d_plus x v k) N); [exact D'|apply (nl_rate _ _ HN)].
    + apply (derivable_pt_lim_comp (fun x => d_minus x v k) N); [exact D|apply (nl_rate _ _ HN)].
  - unfold id, comp. cbv beta. set (dp := d_plus f v k) in *. set (dm := d_minus f v k) in *. clearbody dp dm.
    transitivity (N dp + / (f * v) * (f * n dp - k * n dm)); [ring|]. rewrite E. ring.
Qed.
Lemma call_vol f v k : 0 < f * k -> v <> 0 -> derivable_pt_lim (fun x => call_of f x k) v (f * n (d_plus f v k)).
Proof.
  intros H Hv. pose proof (dm_vol f v k Hv) as D. pose proof (density f v k H Hv) as E. unfold call_of. set (q := - ln (f / k) / (v * v) - 1 / 2) in *.
  assert (derivable_pt_lim (fun x => d_plus f x k) v (q + 1)) as D'.
  { unfold d_plus. apply derivable_pt_lim_plus; [exact D|apply derivable_pt_lim_id]. }
  eapply rate_value.
  - apply derivable_pt_lim_minus; (apply derivable_pt_lim_mult; [apply derivable_pt_lim_const|]).
    + apply (derivable_pt_lim_comp (fun x => d_plus f x k) N); [exact D'|apply (nl_rate _ _ HN)].
    + apply (derivable_pt_lim_comp (fun x => d_minus f x k) N); [exact D|apply (nl_rate _ _ HN)].
  - unfold comp. cbv beta. set (dp := d_plus f v k) in *. set (dm := d_minus f v k) in *. clearbody dp dm q.
    transitivity (f * n dp + q * (f * n dp - k * n dm)); [ring|]. rewrite E. ring.
Qed.
Definition bcall_of (f v k : R) : R := (f - k) * N ((f - k) / v) + v * n ((f - k) / v).
Lemma n_rate x : derivable_pt_lim n x (- x * n x).
Proof.
  destruct (nl_gauss _ _ HN) as (c & _ & Hn). rewrite Hn. apply (rate_ext (fun y => c * exp (- (id y * id y) * / 2))); [intros y; rewrite Hn; unfold id; do 2 f_equal; field|].
  eapply rate_value.
  - apply derivable_pt_lim_mult; [apply derivable_pt_lim_const|]. apply (derivable_pt_lim_comp (fun y => - (id y * id y) * / 2) exp); [|apply derivable_pt_lim_exp].
    apply derivable_pt_lim_mult; [|apply derivable_pt_lim_const]. apply derivable_pt_lim_opp. apply derivable_pt_lim_mult; apply derivable_pt_lim_id.
  - unfold id, fct_cte. cbv beta. replace (- (x * x) * / 2) with (- (x * x / 2)) by field. field.
Qed.
Lemma bcall_fwd f v k : v <> 0 -> derivable_pt_lim (fun x => bcall_of x v k) f (N ((f - k) / v)).
Proof.
  intros Hv. unfold bcall_of.
  assert (derivable_pt_lim (fun x => x - k) f 1) as D0 by (eapply rate_value; [apply derivable_pt_lim_minus; [apply derivable_pt_lim_id|apply derivable_pt_lim_const]|ring]).
  assert (derivable_pt_lim (fun x => (x - k) / v) f (/ v)) as D.
  { unfold Rdiv. eapply rate_value; [apply derivable_pt_lim_mult; [exact D0|apply derivable_pt_lim_const]|cbv beta; unfold fct_cte; ring]. }
  eapply rate_value.
  - apply derivable_pt_lim_plus; apply derivable_pt_lim_mult; [exact D0| |apply derivable_pt_lim_const|].
    + apply (derivable_pt_lim_comp (fun x => (x - k) / v) N); [exact D|apply (nl_rate _ _ HN)].
    + apply (derivable_pt_lim_comp (fun x => (x - k) / v) n); [exact D|apply n_rate].
  - unfold comp, fct_cte. cbv beta. field. assumption.
Qed.
Lemma bcall_vol f v k : v <> 0 -> derivable_pt_lim (fun x => bcall_of f x k) v (n ((f - k) / v)).
Proof.
  intros Hv. unfold bcall_of.
  assert (derivable_pt_lim (fun x => (f - k) / x) v (- (f - k) / (v * v))) as D.
  { unfold Rdiv. eapply rate_value; [apply derivable_pt_lim_mult; [apply derivable_pt_lim_const|apply inv_rate; exact Hv]|unfold id, Rsqr, fct_cte; field; assumption]. }
  eapply rate_value.
  - apply derivable_pt_lim_plus; apply derivable_pt_lim_mult; [apply derivable_pt_lim_const| |apply derivable_pt_lim_id|].
    + apply (derivable_pt_lim_comp (fun x => (f - k) / x) N); [exact D|apply (nl_rate _ _ HN)].
    + apply (derivable_pt_lim_comp (fun x => (f - k) / x) n); [exact D|apply n_rate].
  - unfold comp, fct_cte, id. cbv beta. field. assumption.
Qed.
(** the prices in a neighbourhood *)
Lemma near_product f k : epsilon < f * k -> exists e, 0 < e /\ forall y, Rabs (y - f) < e -> epsilon <= y * k.
Proof.
  intros H. pose proof eps_pos. destruct (quot_pos f k ltac:(lra)) as (_ & _ & Hk). pose proof (Rabs_pos_lt k Hk) as Hk'. exists ((f * k - epsilon) / Rabs k). split; [apply Rdiv_lt_0_compat; lra|].
  intros y Hy. assert (Rabs (y - f) * Rabs k < f * k - epsilon) as Hm.
  { apply (Rmult_lt_compat_r (Rabs k)) in Hy; [|assumption]. unfold Rdiv in Hy. rewrite Rmult_assoc, Rinv_l, Rmult_1_r in Hy by lra. exact Hy. }
  rewrite <- Rabs_mult in Hm. apply Rabs_def2 in Hm. lra.
Qed.
Lemma near_vol v : counts v -> exists e, 0 < e /\ forall y, Rabs (y - v) < e -> epsilon <= Rabs y.
Proof.
  unfold counts. intros H. exists (Rabs v - epsilon). split; [lra|]. intros y Hy. revert H Hy. pose proof eps_pos. unfold Rabs. repeat destruct Rcase_abs; lra.
Qed.
Lemma counts_ne v : counts v -> v <> 0. Proof. unfold counts. intros H ->. rewrite Rabs_R0 in H. pose proof eps_pos. lra. Qed.
Lemma n_pos x : 0 < n x.
Proof. destruct (nl_gauss _ _ HN) as (c & Hc & Hn). rewrite Hn. apply Rmult_lt_0_compat; [assumption|apply exp_pos]. Qed.
Lemma N_lt x y : x < y -> N x < N y.
Proof. intros H. apply (mono_lt N n x y H); intros; [apply (nl_rate _ _ HN)|apply n_pos]. Qed.
Lemma N_nonneg x : 0 <= N x.
Proof.
  destruct (Rle_lt_dec 0 (N x)) as [|H]; [assumption|exfalso]. destruct (nl_zero _ _ HN (- N x) ltac:(lra)) as (m & Hm). set (y := Rmin m x - 1). assert (y < m /\ y < x) as [A B] by (unfold y; mm; lra).
  specialize (Hm y A). pose proof (N_lt y x B). apply Rabs_def2 in Hm. lra.
Qed.
Lemma N_pos x : 0 < N x. Proof. pose proof (N_nonneg (x - 1)). pose proof (N_lt (x - 1) x ltac:(lra)). lra. Qed.
Lemma N_one x : N x < 1. Proof. pose proof (N_pos (- x)) as H. rewrite (nl_sym _ _ HN) in H. lra. Qed.
(** a strictly increasing function that is nearly non-negative far to the left is positive *)
Lemma positive_from_left (h : R -> R) s : (forall x y, x < y -> y <= s -> h x < h y) -> (forall e, 0 < e -> exists m, forall y, y < m -> - e < h y) -> 0 < h s.
Proof.
  intros Hm Hl. assert (forall z, z <= s -> 0 <= h z) as Hn.
  { intros z Hz. destruct (Rle_lt_dec 0 (h z)) as [|H]; [assumption|exfalso]. destruct (Hl (- h z) ltac:(lra)) as (m & Hb). set (y := Rmin m z - 1). assert (y < m /\ y < z) as [A B] by (unfold y; mm; lra).
    specialize (Hb y A). pose proof (Hm y z B Hz). lra. }
  pose proof (Hn (s - 1) ltac:(lra)). pose proof (Hm (s - 1) s ltac:(lra) ltac:(lra)). lra.
Qed.
(** the tail is below density over distance *)
Lemma tail s : s < 0 -> N s < n s / - s.
Proof.
  intros Hs. enough (0 < n s / - s - N s) by lra. apply (positive_from_left (fun y => n y / - y - N y)).
  - intros x y Hxy Hy. apply (mono_lt (fun y => n y / - y - N y) (fun y => n y / (y * y))); [assumption| |].
    + intros z Hz. assert (z <> 0) as Hz0 by lra. eapply rate_value.
      * apply derivable_pt_lim_minus; [|apply (nl_rate _ _ HN)]. apply derivable_pt_lim_mult; [apply n_rate|]. apply (derivable_pt_lim_comp (fun y => - y) (fun y => / y)); [apply derivable_pt_lim_opp, derivable_pt_lim_id|apply inv_rate; lra].
      * cbv beta. field. lra.
    + intros z Hz. apply Rdiv_lt_0_compat; [apply n_pos|nra].
  - intros e He. destruct (nl_zero _ _ HN e He) as (m & Hm). exists (Rmin m 0). intros y Hy. assert (y < m /\ y < 0) as [A B] by (mm; lra). specialize (Hm y A). apply Rabs_def2 in Hm.
    pose proof (Rdiv_lt_0_compat (n y) (- y) (n_pos y) ltac:(lra)). lra.
Qed.
Lemma n_bound : exists c, 0 < c /\ forall x, n x <= c.
Proof.
  destruct (nl_gauss _ _ HN) as (c & Hc & Hn). exists c. split; [assumption|]. intros x. rewrite Hn. assert (exp (- (x * x / 2)) <= 1) as H; [|nra].
  rewrite <- exp_0. destruct (Req_dec x 0) as [->|H]; [right; f_equal; field|left; apply exp_increasing; nra].
Qed.
(** price of a call on one unit, as a function of d- *)
Definition unit_call (v s : R) : R := N (s + v) - exp (- (v * s) - v * v / 2) * N s.
Lemma unit_density v s : exp (- (v * s) - v * v / 2) * n s = n (s + v).
Proof.
  destruct (nl_gauss _ _ HN) as (c & _ & Hn). rewrite !Hn. transitivity (c * (exp (- (v * s) - v * v / 2) * exp (- (s * s / 2)))); [ring|]. rewrite <- exp_plus. do 2 f_equal. field.
Qed.
Lemma unit_pos v s : 0 < v -> 0 < unit_call v s.
Proof.
  intros Hv. apply (positive_from_left (unit_call v)).
  - intros x y Hxy _. apply (mono_lt (unit_call v) (fun z => v * (exp (- (v * z) - v * v / 2) * N z))); [assumption| |].
    + intros z _. unfold unit_call. pose proof (unit_density v z) as E. eapply rate_value.
      * apply derivable_pt_lim_minus.
        -- apply (derivable_pt_lim_comp (fun z => z + v) N); [apply derivable_pt_lim_plus; [apply derivable_pt_lim_id|apply derivable_pt_lim_const]|apply (nl_rate _ _ HN)].
        -- apply derivable_pt_lim_mult; [|apply (nl_rate _ _ HN)]. apply (derivable_pt_lim_comp (fun z => - (v * z) - v * v / 2) exp); [|apply derivable_pt_lim_exp].
           apply derivable_pt_lim_minus; [apply derivable_pt_lim_opp; apply derivable_pt_lim_mult; [apply derivable_pt_lim_const|apply derivable_pt_lim_id]|apply derivable_pt_lim_const].
      * cbv beta. rewrite <- E. unfold fct_cte, id. ring.
    + intros z _. pose proof (N_pos z). pose proof (exp_pos (- (v * z) - v * v / 2)). apply Rmult_lt_0_compat; [assumption|]. now apply Rmult_lt_0_compat.
  - intros e He. destruct n_bound as (c & Hc & Hb). exists (Rmin (- (c / e)) (-1)). intros y Hy. assert (y < - (c / e) /\ y < 0) as [A B] by (mm; lra). unfold unit_call.
    pose proof (N_nonneg (y + v)). pose proof (tail y B) as Ht. pose proof (exp_pos (- (v * y) - v * v / 2)) as Hx. pose proof (unit_density v y) as E. set (x := exp _) in *. clearbody x.
    assert (x * N y < e) as Hlt; [|lra]. apply (Rmult_lt_compat_l x) in Ht; [|assumption]. eapply Rlt_trans; [exact Ht|].
    replace (x * (n y / - y)) with (n (y + v) * / - y) by (rewrite <- E; unfold Rdiv; ring). specialize (Hb (y + v)). apply (Rmult_lt_reg_r (- y)); [lra|]. rewrite Rmult_assoc, Rinv_l by lra.
    assert (c < e * - y); [|lra]. assert (c / e < - y) as Hce by lra. apply (Rmult_lt_compat_l e) in Hce; [|assumption]. replace (e * (c / e)) with c in Hce by (field; lra). exact Hce.
Qed.
Lemma call_unit f v k : 0 < f -> 0 < k -> v <> 0 -> call_of f v k = f * unit_call v (d_minus f v k).
Proof.
  intros Hf Hk Hv. unfold call_of, unit_call, d_plus. set (m := d_minus f v k). assert (v * m = ln (f / k) - v * v / 2) as Em by (unfold m, d_minus; field; assumption).
  replace (- (v * m) - v * v / 2) with (- ln (f / k)) by lra. rewrite exp_Ropp, exp_ln by (now apply Rdiv_lt_0_compat). field. lra.
Qed.
Lemma call_pos f v k : 0 < f -> 0 < k -> 0 < v -> 0 < call_of f v k.
Proof. intros Hf Hk Hv. rewrite call_unit by lra. apply Rmult_lt_0_compat; [assumption|now apply unit_pos]. Qed.
Lemma put_swap f v k : 0 < f -> 0 < k -> v <> 0 -> k * N (- d_minus f v k) - f * N (- d_plus f v k) = call_of k v f.
Proof.
  intros Hf Hk Hv. unfold call_of. assert (ln (k / f) = - ln (f / k)) as E.
  { rewrite <- (ln_Rinv (f / k)) by (now apply Rdiv_lt_0_compat). f_equal. field. lra. }
  replace (d_plus k v f) with (- d_minus f v k) by (unfold d_plus, d_minus; rewrite E; field; assumption). now replace (d_minus k v f) with (- d_plus f v k) by (unfold d_plus, d_minus; rewrite E; field; assumption).
Qed.
Lemma bcall_pos f v k : 0 < v -> 0 < bcall_of f v k.
Proof.
  intros Hv. unfold bcall_of. set (s := (f - k) / v). assert (f - k = v * s) as E by (unfold s; field; lra). rewrite E. clearbody s. replace (v * s * N s + v * n s) with (v * (s * N s + n s)) by ring. apply Rmult_lt_0_compat; [assumption|].
  pose proof (n_pos s). pose proof (N_pos s). destruct (Rle_lt_dec 0 s) as [Hs|Hs]; [nra|]. pose proof (tail s Hs) as Ht. apply (Rmult_lt_compat_l (- s)) in Ht; [|lra]. replace (- s * (n s / - s)) with (n s) in Ht by (field; lra). lra.
Qed.
Lemma bput_swap f v k : v <> 0 -> - (f - k) * N (- ((f - k) / v)) + v * n ((f - k) / v) = bcall_of k v f.
Proof.
  intros Hv. unfold bcall_of. replace ((k - f) / v) with (- ((f - k) / v)) by (field; assumption). assert (forall x, n (- x) = n x) as E; [|rewrite E; ring].
  intros x. destruct (nl_gauss _ _ HN) as (c & _ & Hn). rewrite !Hn. do 2 f_equal. field.
Qed.
End N.
