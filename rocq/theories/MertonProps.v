(** Property C66: the jump-diffusion price. *)
From Coq Require Import Reals List Arith Lia Lra.
From Verif Require Import Base BrentModel BlackModel BlackSpec BlackProofs BlackProps CalibModel MertonSpec MertonProofs.
Local Open Scope R_scope.
Lemma after_pos spot mat intens m d n : 0 < spot -> 0 < forward_after spot mat intens m d n.
Proof. intros H. unfold forward_after. apply Rmult_lt_0_compat; [apply Rmult_lt_0_compat; [exact H|apply pow_lt, growth_pos]|apply exp_pos]. Qed.
Lemma call_some N f v k : exists x, black_opt N f v k Call = Ok x.
Proof. unfold black_opt, payout. destruct (_ || _)%bool; eexists; reflexivity. Qed.
(** the price given n jumps *)
Definition price_after N spot strike vol mat intens m d n : R := match black_scholes N (forward_after spot mat intens m d n) strike (vol_after vol mat d n) mat with Ok x => x | _ => 0 end.
Lemma price_ok N spot strike vol mat intens m d n : black_scholes N (forward_after spot mat intens m d n) strike (vol_after vol mat d n) mat = Ok (price_after N spot strike vol mat intens m d n).
Proof. unfold price_after, black_scholes. destruct (call_some N (forward_after spot mat intens m d n) (vol_after vol mat d n * sqrt mat) strike) as (x & ->). reflexivity. Qed.
Lemma after_bounds N n spot strike vol mat intens m d i : normal_law N n -> 0 < spot -> 0 < strike -> 0 <= price_after N spot strike vol mat intens m d i <= forward_after spot mat intens m d i.
Proof.
  intros HN Hs Hk. pose proof (price_ok N spot strike vol mat intens m d i) as E. unfold black_scholes in E. set (f := forward_after spot mat intens m d i) in *. set (v := vol_after vol mat d i * sqrt mat) in *.
  assert (Hv : 0 <= v) by (apply Rmult_le_pos; apply sqrt_pos). destruct (C48_bounds N n f v strike Call (price_after N spot strike vol mat intens m d i) (Rmax 0 (f - strike)) HN Hv eq_refl) as [B _]. destruct (B (after_pos _ _ _ _ _ _ Hs) Hk E) as (B1 & _ & B2 & _).
  specialize (B2 eq_refl). pose proof (Rmax_l 0 (f - strike)). lra.
Qed.
(** The price is the sum over up to nine jumps of the Poisson probability times the Black call with the forward and volatility after
    these jumps. *)
Theorem C66_series N spot strike vol mat intens m d : exists b, (forall i, black_scholes N (forward_after spot mat intens m d i) strike (vol_after vol mat d i) mat = Ok (b i)) /\
  merton N spot strike vol mat intens m d = Ok (sum_f_R0 (fun i => poisson (intens * mat) i * b i) 9).
Proof. exists (price_after N spot strike vol mat intens m d). split; [intros i; apply price_ok|]. apply merton_price. intros i _. apply price_ok. Qed.
Print Assumptions C66_series.
(** Without jumps it is the Black-Scholes price. *)
Theorem C66_no_jumps N spot strike vol mat m d : 0 <= vol -> merton N spot strike vol mat 0 m d = black_scholes N spot strike vol mat.
Proof.
  intros Hv. rewrite (merton_price N spot strike vol mat 0 m d (price_after N spot strike vol mat 0 m d)) by (intros; apply price_ok). rewrite Rmult_0_l.
  rewrite (decomp_sum (fun i => poisson 0 i * price_after N spot strike vol mat 0 m d i)) by lia. rewrite (sum_eq (fun i => poisson 0 (S i) * _) (fun _ => 0)).
  2:{ intros i _. unfold poisson. cbn [pow]. unfold Rdiv. ring. }
  assert (Z : sum_f_R0 (fun _ => 0) (Init.Nat.pred 9) = 0) by (cbn; ring). rewrite Z. assert (P : poisson 0 0 = 1) by (unfold poisson; rewrite Ropp_0, exp_0; cbn; field). rewrite P, Rmult_1_l, Rplus_0_r, <- price_ok.
  unfold vol_after, forward_after. cbn [INR pow]. rewrite !Rmult_0_l, Ropp_0, exp_0, !Rmult_1_r. unfold Rdiv. rewrite Rmult_0_l, Rplus_0_r, sqrt_square by exact Hv. reflexivity.
Qed.
Print Assumptions C66_no_jumps.
(** It is never negative and never above the spot. *)
Theorem C66_bounds N n spot strike vol mat intens m d : normal_law N n -> 0 < spot -> 0 < strike -> 0 <= intens -> 0 <= mat ->
  exists p, merton N spot strike vol mat intens m d = Ok p /\ 0 <= p <= spot.
Proof.
  intros HN Hs Hk Hi Ht. eexists. split; [apply merton_price; intros; apply price_ok|]. assert (Hl : 0 <= intens * mat) by (apply Rmult_le_pos; assumption). split.
  - apply cond_pos_sum. intros i. apply Rmult_le_pos; [now apply poisson_nonneg|]. exact (proj1 (after_bounds N n spot strike vol mat intens m d i HN Hs Hk)).
  - apply Rle_trans with (sum_f_R0 (fun i => poisson (intens * mat) i * forward_after spot mat intens m d i) 9).
    + apply sum_Rle. intros i _. apply Rmult_le_compat_l; [now apply poisson_nonneg|]. exact (proj2 (after_bounds N n spot strike vol mat intens m d i HN Hs Hk)).
    + rewrite forward_sum. pose proof (growth_pos m d). pose proof (poisson_sum_le (intens * mat * growth m d) 9 ltac:(apply Rmult_le_pos; lra)). nra.
Qed.
Print Assumptions C66_bounds.
(** It does not fall when the volatility rises. *)
Theorem C66_vol_increasing N n spot strike v1 v2 mat intens m d p1 p2 : normal_law N n -> 0 < spot -> 0 < strike -> 0 <= intens -> 0 < mat -> 0 <= v1 <= v2 ->
  merton N spot strike v1 mat intens m d = Ok p1 -> merton N spot strike v2 mat intens m d = Ok p2 -> p1 <= p2.
Proof.
  intros HN Hs Hk Hi Ht Hv E1 E2. rewrite (merton_price N spot strike v1 mat intens m d _ (fun i _ => price_ok _ _ _ _ _ _ _ _ i)) in E1. rewrite (merton_price N spot strike v2 mat intens m d _ (fun i _ => price_ok _ _ _ _ _ _ _ _ i)) in E2.
  apply (f_equal (fun o => match o with Ok x => x | _ => 0 end)) in E1. apply (f_equal (fun o => match o with Ok x => x | _ => 0 end)) in E2. cbv beta match in E1, E2. rewrite <- E1, <- E2. apply sum_Rle. intros i _. apply Rmult_le_compat_l; [apply poisson_nonneg; apply Rmult_le_pos; lra|].
  pose proof (price_ok N spot strike v1 mat intens m d i) as A1. pose proof (price_ok N spot strike v2 mat intens m d i) as A2. unfold black_scholes in *. set (f := forward_after spot mat intens m d i) in *.
  assert (Hle : vol_after v1 mat d i * sqrt mat <= vol_after v2 mat d i * sqrt mat).
  { apply Rmult_le_compat_r; [apply sqrt_pos|]. unfold vol_after. assert (0 <= INR i * (d * d) / mat) by (apply Rmult_le_pos; [apply Rmult_le_pos; [apply pos_INR|apply Rle_0_sqr]|left; now apply Rinv_0_lt_compat]). apply sqrt_le_1; nra. }
  destruct Hle as [Hlt|He]; [|rewrite He in A1; rewrite A1 in A2; injection A2 as ->; lra].
  destruct (C48_vol_increasing N n f strike Call (vol_after v1 mat d i * sqrt mat) (vol_after v2 mat d i * sqrt mat) (price_after N spot strike v1 mat intens m d i) (price_after N spot strike v2 mat intens m d i) HN ltac:(apply Rmult_le_pos; apply sqrt_pos) Hlt) as [B _]. exact (proj1 (B (after_pos _ _ _ _ _ _ Hs) Hk A1 A2)).
Qed.
Print Assumptions C66_vol_increasing.
(** Refuted: jumps of size zero change nothing.  Ten or more jumps are left out, so any intensity lowers the price. *)
Theorem C66_zero_size_refuted N spot strike vol mat intens b : 0 < intens -> 0 < mat -> 0 <= vol -> black_scholes N spot strike vol mat = Ok b -> 0 < b ->
  exists p, merton N spot strike vol mat intens 0 0 = Ok p /\ p < b.
Proof.
  intros Hi Ht Hv E Hb. eexists. split; [apply (merton_price _ _ _ _ _ _ _ _ (fun _ => b))|].
  - intros n _. rewrite <- E. f_equal.
    + unfold forward_after, growth. replace (0 + 0 * 0 / 2) with 0 by field. rewrite exp_0, pow1. replace (- (intens * mat * (1 - 1))) with 0 by ring. rewrite exp_0. ring.
    + unfold vol_after. replace (vol * vol + INR n * (0 * 0) / mat) with (vol * vol) by (field; lra). now apply sqrt_square.
  - cbv beta. replace (sum_f_R0 (fun i => poisson (intens * mat) i * b) 9) with (b * sum_f_R0 (poisson (intens * mat)) 9) by apply scal_sum. pose proof (poisson_sum_lt (intens * mat) 9 ltac:(nra)). nra.
Qed.
Print Assumptions C66_zero_size_refuted.
(** Refuted: every price has an implied volatility.  The missing weight takes the price of a call with a low strike under its payoff, and
    the implied volatility throws. *)
Theorem C66_implied_refuted N n spot vol mat intens m d : normal_law N n -> 0 < spot -> 0 < mat -> 0 < intens ->
  exists k0, 0 < k0 /\ forall strike, 0 < strike < k0 -> merton_ivol N spot vol intens m d strike mat = Throw.
Proof.
  intros HN Hs Ht Hi. set (lam := intens * mat * growth m d). assert (Hlam : 0 < lam) by (unfold lam; apply Rmult_lt_0_compat; [nra|apply growth_pos]). pose proof (poisson_sum_lt lam 9 Hlam) as Hp.
  exists (spot * (1 - sum_f_R0 (poisson lam) 9)). split; [nra|]. intros strike Hk. unfold merton_ivol. rewrite (merton_price N spot strike vol mat intens m d _ (fun i _ => price_ok _ _ _ _ _ _ _ _ i)). cbn [obind].
  set (p := sum_f_R0 _ 9). assert (Hpp : p <= spot * sum_f_R0 (poisson lam) 9).
  { unfold lam. rewrite <- forward_sum. apply sum_Rle. intros i _. apply Rmult_le_compat_l; [apply poisson_nonneg; nra|]. exact (proj2 (after_bounds N n spot strike vol mat intens m d i HN Hs (proj1 Hk))). }
  unfold black_scholes_ivol, black_iv, implied. cbn [payout obind]. replace (rltb p (Rmax 0 (spot - strike))) with true; [reflexivity|]. symmetry. unfold rltb. destruct (Rlt_dec p (Rmax 0 (spot - strike))) as [|C]; [reflexivity|]. pose proof (Rmax_r 0 (spot - strike)). lra.
Qed.
Print Assumptions C66_implied_refuted.
Example C66_case : 0 < 100 /\ 0 < 3 /\ 0 < 1 / 20 /\ 0 <= 1 / 5 <= 1 / 4 /\ black_scholes (fun x => 1 / 2 + x) 4 4 1 1 = Ok 4.
Proof.
  split; [lra|]. split; [lra|]. split; [lra|]. split; [lra|]. unfold black_scholes. rewrite sqrt_1, Rmult_1_r. apply C48_parity_ex.
Qed.
