(** Property C66: the price against the whole series, and as an expectation. *)
From Coq Require Import Reals List Arith Lia Lra.
From Verif Require Import Base BrentModel BlackModel BlackSpec BlackProofs BlackNormal BlackProps CalibModel MertonSpec MertonProofs MertonProps ExpectSpec ExpectProps.
Local Open Scope R_scope.

Lemma poisson_all x : Un_cv (fun k => sum_f_R0 (poisson x) k) 1.
Proof.
  assert (H : Un_cv (fun k => exp (- x) * sum_f_R0 (fun i => x ^ i / INR (fact i)) k) (exp (- x) * exp x)).
  { apply (CV_mult (fun _ => exp (- x))).
    - intros e He. exists 0%nat. intros k _. unfold R_dist. rewrite Rminus_diag_eq, Rabs_R0 by reflexivity. exact He.
    - unfold exp at 1. destruct (exist_exp x) as [l Hl]. cbn [proj1_sig]. intros e He. destruct (Hl e He) as (k & Hk). exists k. intros j Hj. specialize (Hk j Hj).
      rewrite (sum_eq _ (fun i => / INR (fact i) * x ^ i)); [exact Hk|]. intros i _. unfold Rdiv. ring. }
  rewrite <- exp_plus, Rplus_opp_l, exp_0 in H. intros e He. destruct (H e He) as (k & Hk). exists k. intros j Hj. rewrite poisson_sum. now apply Hk.
Qed.
Lemma cv_eq (u w : nat -> R) l : (forall k, u k = w k) -> Un_cv u l -> Un_cv w l.
Proof. intros E H e He. destruct (H e He) as (k & Hk). exists k. intros j Hj. rewrite <- E. now apply Hk. Qed.
(** Nothing but the jumps beyond the ninth is missing: the series over all numbers of jumps has a sum, which is an arbitrage-free price of a call, and the
    price given is below it by no more than the spot times the probability of ten or more jumps at the intensity seen with the spot as unit. *)
Theorem C66_all_jumps N n spot strike vol mat intens m d : normal_law N n -> 0 < spot -> 0 < strike -> 0 <= intens -> 0 <= mat ->
  exists b p all, (forall i, black_scholes N (forward_after spot mat intens m d i) strike (vol_after vol mat d i) mat = Ok (b i)) /\
    merton N spot strike vol mat intens m d = Ok p /\ Un_cv (fun k => sum_f_R0 (fun i => poisson (intens * mat) i * b i) k) all /\
    Rmax 0 (spot - strike) <= all <= spot /\ p <= all <= p + spot * (1 - sum_f_R0 (poisson (intens * mat * growth m d)) 9).
Proof.
  intros HN Hs Hk Hi Ht. set (b := price_after N spot strike vol mat intens m d). set (A := fun i => poisson (intens * mat) i * b i). set (B := fun i => poisson (intens * mat) i * forward_after spot mat intens m d i).
  assert (Hl : 0 <= intens * mat) by (apply Rmult_le_pos; assumption).
  assert (AB : forall i, 0 <= A i <= B i).
  { intros i. pose proof (poisson_nonneg (intens * mat) i Hl). pose proof (after_bounds N n spot strike vol mat intens m d i HN Hs Hk) as (L & U). unfold A, B. split; [now apply Rmult_le_pos|now apply Rmult_le_compat_l]. }
  assert (CB : Un_cv (fun k => sum_f_R0 B k) spot).
  { replace spot with (spot * 1) by ring. apply (cv_eq (fun k => spot * sum_f_R0 (poisson (intens * mat * growth m d)) k)); [intros k; symmetry; apply forward_sum|].
    apply (CV_mult (fun _ => spot)); [|apply poisson_all]. intros e He. exists 0%nat. intros k _. unfold R_dist. rewrite Rminus_diag_eq, Rabs_R0 by reflexivity. exact He. }
  destruct (Rseries_CV_comp A B AB (exist _ spot CB)) as (all & CA).
  exists b, (sum_f_R0 A 9), all. split; [intros i; apply price_ok|]. split; [apply merton_price; intros i _; apply price_ok|]. split; [exact CA|].
  assert (CD : Un_cv (fun k => sum_f_R0 (fun i => B i - A i) k) (spot - all)) by (apply (cv_eq (fun k => sum_f_R0 B k - sum_f_R0 A k)); [intros k; symmetry; apply minus_sum|now apply CV_minus]).
  assert (D9 : sum_f_R0 (fun i => B i - A i) 9 <= spot - all) by (apply sum_incr; [exact CD|intros i; specialize (AB i); lra]). rewrite minus_sum in D9.
  assert (E9 : sum_f_R0 B 9 = spot * sum_f_R0 (poisson (intens * mat * growth m d)) 9) by apply forward_sum.
  assert (A9 : sum_f_R0 A 9 <= all) by (apply sum_incr; [exact CA|intros i; apply AB]).
  assert (A0 : 0 <= sum_f_R0 A 9) by (apply cond_pos_sum; intros i; apply AB).
  assert (B0 : 0 <= sum_f_R0 (fun i => B i - A i) 9) by (apply cond_pos_sum; intros i; specialize (AB i); lra). rewrite minus_sum in B0.
  assert (Low : spot - strike <= all).
  { assert (CK : Un_cv (fun k => sum_f_R0 (fun i => A i - B i + poisson (intens * mat) i * strike) k) (all - spot + strike * 1)).
    { apply (cv_eq (fun k => sum_f_R0 A k - sum_f_R0 B k + strike * sum_f_R0 (poisson (intens * mat)) k)).
      - intros k. rewrite plus_sum, minus_sum. f_equal. apply scal_sum.
      - apply CV_plus; [now apply CV_minus|]. apply (CV_mult (fun _ => strike)); [|apply poisson_all]. intros e He. exists 0%nat. intros k _. unfold R_dist. rewrite Rminus_diag_eq, Rabs_R0 by reflexivity. exact He. }
    assert (P : forall i, 0 <= A i - B i + poisson (intens * mat) i * strike).
    { intros i. pose proof (poisson_nonneg (intens * mat) i Hl) as Hq. pose proof (price_ok N spot strike vol mat intens m d i) as E. unfold black_scholes in E. fold b in E. unfold A, B. set (f := forward_after spot mat intens m d i) in *. set (v := vol_after vol mat d i * sqrt mat) in *.
      assert (Hv : 0 <= v) by (apply Rmult_le_pos; apply sqrt_pos). destruct (C48_bounds N n f v strike Call (b i) (Rmax 0 (f - strike)) HN Hv eq_refl) as [C _]. destruct (C (after_pos _ _ _ _ _ _ Hs) Hk E) as (C1 & _). pose proof (Rmax_r 0 (f - strike)).
      replace (poisson (intens * mat) i * b i - poisson (intens * mat) i * f + poisson (intens * mat) i * strike) with (poisson (intens * mat) i * (b i - (f - strike))) by ring. apply Rmult_le_pos; lra. }
    pose proof (sum_incr _ 0 _ CK P) as L0. cbn [sum_f_R0] in L0. specialize (P 0%nat). lra. }
  assert (Up : all <= spot) by (pose proof (sum_incr _ 0 _ CD (fun i => ltac:(specialize (AB i); lra))) as L0; cbn [sum_f_R0] in L0; specialize (AB 0%nat); lra).
  split; [split; [apply Rmax_lub; lra|exact Up]|]. split; [exact A9|]. lra.
Qed.
Print Assumptions C66_all_jumps.
(** The price after some jumps is the expectation of the payout on the lognormal number with the forward and deviation after these jumps. *)
Theorem C66_expectation N n spot strike vol mat intens m d : normal_law N n -> 0 < spot -> 0 < strike ->
  (forall i, (i < 10)%nat -> epsilon <= vol_after vol mat d i * sqrt mat /\ epsilon <= forward_after spot mat intens m d i * strike) ->
  exists b, (forall i, (i < 10)%nat -> mean n (fun z => Rmax 0 (lognormal (forward_after spot mat intens m d i) (vol_after vol mat d i * sqrt mat) z - strike)) (b i)) /\
    merton N spot strike vol mat intens m d = Ok (sum_f_R0 (fun i => poisson (intens * mat) i * b i) 9).
Proof.
  intros HN Hs Hk He. exists (price_after N spot strike vol mat intens m d). split; [|apply merton_price; intros i _; apply price_ok].
  intros i Hi. destruct (He i Hi) as (H1 & H2). destruct (C88_black N n (forward_after spot mat intens m d i) (vol_after vol mat d i * sqrt mat) strike Call HN (after_pos _ _ _ _ _ _ Hs) Hk H1 H2) as (x & g & E & G & M); [discriminate|].
  pose proof (price_ok N spot strike vol mat intens m d i) as P. unfold black_scholes in P. rewrite E in P. injection P as <-.
  intros e Hp. destruct (M e Hp) as (q & Hq). exists q. intros a c Ha Hc. destruct (Hq a c Ha Hc) as (y & Hy & Hd). exists y. split; [|exact Hd].
  eapply Coquelicot.RInt.is_RInt_ext; [|exact Hy]. intros z _. cbv beta. specialize (G z). cbn [payout] in G. injection G as <-. reflexivity.
Qed.
Print Assumptions C66_expectation.
(** a year, 20 per cent, jumps of size zero once in twenty years *)
Example C66_expectation_case : (exists N n, normal_law N n) /\
  forall i, (i < 10)%nat -> epsilon <= vol_after (1 / 5) 1 0 i * sqrt 1 /\ epsilon <= forward_after 100 1 (1 / 20) 0 0 i * 110.
Proof.
  split; [apply normal_law_exists|]. intros i _. unfold vol_after, forward_after, growth, epsilon. replace (1 / 5 * (1 / 5) + INR i * (0 * 0) / 1) with (1 / 5 * (1 / 5)) by field.
  rewrite sqrt_1, sqrt_square by lra. replace (0 + 0 * 0 / 2) with 0 by field. rewrite exp_0, pow1. replace (- (1 / 20 * 1 * (1 - 1))) with 0 by ring. rewrite exp_0. split; lra.
Qed.
