(** Lemmas about the Merton price. *)
From Coq Require Import Reals List Arith Lia Lra.
From Verif Require Import Base BlackModel BlackSpec BlackProofs CalibModel MertonSpec.
Local Open Scope R_scope.
Section Loop.
Variable NCDF : R -> R.
Variables spot strike vol mat intens mean_jmp std_jmp : R.
Notation loop := (merton_loop NCDF spot strike vol mat intens mean_jmp std_jmp).
(** the weight of n jumps *)
Definition weight (n : nat) : R := poisson (intens * mat) n.
Lemma loop_ok (b : nat -> R) : (forall n, (n < 10)%nat -> black_scholes NCDF (spot * exp (INR n * (mean_jmp + 1 / 2 * (std_jmp * std_jmp)) - intens * (exp (mean_jmp + 1 / 2 * (std_jmp * std_jmp)) - 1) * mat)) strike (sqrt (vol * vol + INR n * (std_jmp * std_jmp) / mat)) mat = Ok (b n)) ->
  forall c n acc, (n + c <= 10)%nat -> loop n c (INR (fact n)) ((intens * mat) ^ n) acc = Ok (acc + match c with O => 0 | S k => sum_f_R0 (fun i => weight (n + i) * b (n + i)%nat) k end).
Proof.
  intros Hb. induction c as [|c IH]; intros n acc Hn; cbn [merton_loop]; [f_equal; ring|]. unfold merton_term. rewrite Hb by lia. cbn [obind].
  replace (INR (fact n) * INR (S n)) with (INR (fact (S n))) by (rewrite fact_simpl, mult_INR; ring). replace ((intens * mat) ^ n * (intens * mat)) with ((intens * mat) ^ S n) by (cbn [pow]; ring).
  rewrite IH by lia. f_equal. destruct c as [|c].
  - cbn [sum_f_R0]. unfold weight, poisson. rewrite Nat.add_0_r. ring.
  - rewrite (decomp_sum (fun i => weight (n + i) * b (n + i)%nat) (S c)) by lia. cbn [Nat.pred]. rewrite Nat.add_0_r. change (exp (- (intens * mat)) * (intens * mat) ^ n / INR (fact n)) with (weight n).
    rewrite (sum_eq (fun i => weight (S n + i) * b (S n + i)%nat) (fun i => weight (n + S i) * b (n + S i)%nat)); [ring|]. intros i _. now rewrite Nat.add_succ_r.
Qed.
End Loop.
Lemma merton_sum N spot strike vol mat intens mean_jmp std_jmp (b : nat -> R) :
  (forall n, (n < 10)%nat -> black_scholes N (spot * exp (INR n * (mean_jmp + 1 / 2 * (std_jmp * std_jmp)) - intens * (exp (mean_jmp + 1 / 2 * (std_jmp * std_jmp)) - 1) * mat)) strike (sqrt (vol * vol + INR n * (std_jmp * std_jmp) / mat)) mat = Ok (b n)) ->
  merton N spot strike vol mat intens mean_jmp std_jmp = Ok (sum_f_R0 (fun i => weight mat intens i * b i) 9).
Proof. intros Hb. unfold merton. pose proof (loop_ok N spot strike vol mat intens mean_jmp std_jmp b Hb 10 0 0 (le_n _)) as H. cbn [fact] in H. change (INR 1) with 1 in H. rewrite pow_O, Rplus_0_l in H. exact H. Qed.
(** the first terms of the exponential series *)
Lemma exp_terms x n : 0 < x -> sum_f_R0 (fun i => x ^ i / INR (fact i)) n < exp x.
Proof.
  intros Hx. assert (Hp : forall i, 0 < x ^ i / INR (fact i)) by (intros i; apply Rdiv_lt_0_compat; [apply pow_lt; exact Hx|apply INR_fact_lt_0]).
  apply Rlt_le_trans with (sum_f_R0 (fun i => x ^ i / INR (fact i)) (S n)); [cbn [sum_f_R0]; specialize (Hp (S n)); lra|].
  unfold exp. destruct (exist_exp x) as [l Hl]. cbn [proj1_sig]. unfold exp_in, infinite_sum in Hl.
  apply (growing_ineq (fun k => sum_f_R0 (fun i => x ^ i / INR (fact i)) k)).
  - intros k. cbn [sum_f_R0]. specialize (Hp (S k)). lra.
  - intros e He. destruct (Hl e He) as (k & Hk). exists k. intros m Hm. specialize (Hk m Hm). rewrite (sum_eq _ (fun i => / INR (fact i) * x ^ i)); [exact Hk|]. intros i _. unfold Rdiv. ring.
Qed.
Lemma exp_terms_le x n : 0 <= x -> sum_f_R0 (fun i => x ^ i / INR (fact i)) n <= exp x.
Proof.
  intros [Hx| <-]; [left; now apply exp_terms|]. rewrite exp_0. induction n as [|n IH]; cbn [sum_f_R0]; [cbn; lra|]. rewrite pow_i by lia. unfold Rdiv. lra.
Qed.
Lemma growth_pos m d : 0 < growth m d. Proof. apply exp_pos. Qed.
Lemma forward_eq spot mat intens m d n : spot * exp (INR n * (m + 1 / 2 * (d * d)) - intens * (exp (m + 1 / 2 * (d * d)) - 1) * mat) = forward_after spot mat intens m d n.
Proof.
  unfold forward_after, growth. replace (m + d * d / 2) with (m + 1 / 2 * (d * d)) by field. set (g := m + 1 / 2 * (d * d)). unfold Rminus at 1. rewrite exp_plus, <- Rmult_assoc. f_equal; [|f_equal; ring]. f_equal.
  induction n as [|n IH]; [cbn [INR pow]; rewrite Rmult_0_l; apply exp_0|]. rewrite S_INR, Rmult_plus_distr_r, exp_plus, IH, Rmult_1_l. cbn [pow]. ring.
Qed.
Lemma merton_price N spot strike vol mat intens m d (b : nat -> R) : (forall n, (n < 10)%nat -> black_scholes N (forward_after spot mat intens m d n) strike (vol_after vol mat d n) mat = Ok (b n)) ->
  merton N spot strike vol mat intens m d = Ok (sum_f_R0 (fun i => poisson (intens * mat) i * b i) 9).
Proof. intros Hb. apply merton_sum. intros n Hn. rewrite forward_eq. apply Hb. exact Hn. Qed.
Lemma poisson_pos m n : 0 < m -> 0 < poisson m n.
Proof. intros Hm. unfold poisson. apply Rdiv_lt_0_compat; [|apply INR_fact_lt_0]. apply Rmult_lt_0_compat; [apply exp_pos|apply pow_lt; exact Hm]. Qed.
Lemma poisson_nonneg m n : 0 <= m -> 0 <= poisson m n.
Proof. intros Hm. unfold poisson. apply Rmult_le_pos; [|left; apply Rinv_0_lt_compat, INR_fact_lt_0]. apply Rmult_le_pos; [left; apply exp_pos|apply pow_le; exact Hm]. Qed.
Lemma poisson_sum m k : sum_f_R0 (poisson m) k = exp (- m) * sum_f_R0 (fun i => m ^ i / INR (fact i)) k.
Proof. rewrite scal_sum. apply sum_eq. intros i _. unfold poisson, Rdiv. ring. Qed.
Lemma poisson_sum_lt m k : 0 < m -> sum_f_R0 (poisson m) k < 1.
Proof. intros Hm. rewrite poisson_sum. pose proof (exp_terms m k Hm) as H. pose proof (exp_pos (- m)). replace 1 with (exp (- m) * exp m); [|rewrite <- exp_plus, Rplus_opp_l; apply exp_0]. now apply Rmult_lt_compat_l. Qed.
Lemma poisson_sum_le m k : 0 <= m -> sum_f_R0 (poisson m) k <= 1.
Proof. intros Hm. rewrite poisson_sum. pose proof (exp_terms_le m k Hm) as H. pose proof (exp_pos (- m)). replace 1 with (exp (- m) * exp m); [|rewrite <- exp_plus, Rplus_opp_l; apply exp_0]. apply Rmult_le_compat_l; lra. Qed.
(** forwards weighted with the jump probabilities: the spot times probabilities of another intensity *)
Lemma forward_sum spot mat intens m d k : sum_f_R0 (fun i => poisson (intens * mat) i * forward_after spot mat intens m d i) k = spot * sum_f_R0 (poisson (intens * mat * growth m d)) k.
Proof.
  rewrite scal_sum. apply sum_eq. intros i _. unfold forward_after, poisson. rewrite (Rpow_mult_distr (intens * mat) (growth m d)). replace (- (intens * mat * growth m d)) with (- (intens * mat) + - (intens * mat * (growth m d - 1))) by ring. rewrite exp_plus. unfold Rdiv. ring.
Qed.
