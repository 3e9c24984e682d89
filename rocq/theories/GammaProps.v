(** Property C48: the Black price solves the equation of the lognormal model. *)
From Coq Require Import Reals List Lra Lia.
From Coquelicot Require Import Coquelicot.
From Verif Require Import Base BrentModel BlackModel BlackSpec BlackProofs BlackNormal BlackProps ExpectSpec ExpectProofs SlopeSpec SlopeProofs.
Local Open Scope R_scope.

(** the first number BlackGreeks gives *)
Definition delta_of (N n : R -> R) (f v k : R) (t : option_type) : outcome R := do g <- black_greeks N n f v k t; match g with Some (delta, _) => Ok delta | None => Throw end.
Lemma greeks_made N n f v k t : normal_law N n -> 0 < f -> 0 < k -> 0 < v -> t <> NotSet ->
  black_greeks N n f v k t = Ok (Some (calls t * N (d_plus f v k) + forwards t * 1, calls t * (f * n (d_plus f v k)))).
Proof.
  intros HN Hf Hk Hv Ht. unfold black_greeks. cbv zeta. assert (E : BrentModel.reqb v 0 = false) by (unfold BrentModel.reqb; destruct (Req_EM_T v 0); [lra|reflexivity]).
  assert (E' : BrentModel.rleb (f * k) 0 = false) by (unfold BrentModel.rleb; destruct (Rle_dec (f * k) 0); [nra|reflexivity]). rewrite E, E'. cbn [orb].
  destruct t; [| | |contradiction]; cbn [calls forwards]; do 2 apply f_equal; rewrite ?(nl_sym _ _ HN); f_equal; ring.
Qed.
(** The forward delta has a positive rate of change in the forward, the gamma, and as the time to maturity grows the price grows at half the squared
    volatility times the squared forward times the gamma. *)
Theorem C48_equation N n f sigma T k t : normal_law N n -> 0 < f -> 0 < k -> 0 < sigma -> 0 < T -> epsilon < sigma * sqrt T -> epsilon < f * k -> t <> NotSet ->
  exists gamma, 0 < gamma /\ rate (fun x => delta_of N n x (sigma * sqrt T) k t) f gamma /\ rate (fun y => black_opt N f (sigma * sqrt y) k t) T (sigma * sigma / 2 * (f * f) * gamma).
Proof.
  intros HN Hf Hk Hs HT Hv Hfk Ht. set (v := sigma * sqrt T) in *. pose proof eps_pos as He. assert (Hv0 : 0 < v) by lra. assert (HsT : 0 < sqrt T) by now apply sqrt_lt_R0.
  exists (calls t * (n (d_plus f v k) / (f * v))). assert (Hc : 0 < calls t) by (destruct t; cbn; [lra|lra|lra|contradiction]).
  split; [apply Rmult_lt_0_compat; [exact Hc|]; apply Rdiv_lt_0_compat; [apply (n_pos N n HN)|nra]|]. split.
  - exists (fun x => calls t * N (d_plus x v k) + forwards t * 1), f. split; [exact Hf|]. split.
    + intros y Hy. assert (0 < y) by (unfold Rabs in Hy; destruct (Rcase_abs _); lra). unfold delta_of. now rewrite (greeks_made N n y v k t HN).
    + eapply rate_value.
      * apply (derivable_pt_lim_plus (fun x => calls t * N (d_plus x v k)) (fun _ => forwards t * 1)); [|apply derivable_pt_lim_const].
        apply (derivable_pt_lim_scal (fun x => N (d_plus x v k))). apply (derivable_pt_lim_comp (fun x => d_plus x v k) N); [|apply (nl_rate _ _ HN)].
        instantiate (1 := / (f * v)). apply is_derive_Reals. unfold d_plus, d_minus. auto_derive; [repeat split; try apply Rdiv_lt_0_compat; lra|field; lra].
      * unfold Rdiv. ring.
  - destruct (C48_black_greeks N n f v k t HN) as (delta & vega & E & _ & (g & e & Hep & Hg & Dg)); [unfold counts; rewrite Rabs_pos_eq by lra; exact Hv|exact Hfk|exact Ht|].
    rewrite (greeks_made N n f v k t HN Hf Hk Hv0 Ht) in E. injection E as _ <-.
    assert (Ds : derivable_pt_lim (fun y => sigma * sqrt y) T (sigma * / (2 * sqrt T))) by (apply (derivable_pt_lim_scal sqrt); now apply derivable_pt_lim_sqrt).
    assert (C : continuity_pt (fun y => sigma * sqrt y) T) by (apply derivable_continuous_pt; eexists; exact Ds).
    destruct (C e Hep) as (a & Ha & Hc2). exists (fun y => g (sigma * sqrt y)), a. split; [exact Ha|]. split.
    + intros y Hy. apply Hg. destruct (Req_dec y T) as [->|Ny]; [fold v; rewrite Rminus_diag_eq, Rabs_R0 by reflexivity; exact Hep|].
      apply (Hc2 y). split; [split; [exact Logic.I|now apply not_eq_sym]|exact Hy].
    + eapply rate_value; [apply (derivable_pt_lim_comp (fun y => sigma * sqrt y) g); [exact Ds|exact Dg]|].
      unfold v. assert (Q : sqrt T * sqrt T = T) by (apply sqrt_sqrt; lra). field. repeat split; lra.
Qed.
Print Assumptions C48_equation.
Example C48_equation_case : (exists N n, normal_law N n) /\ epsilon < 1 / 5 * sqrt 1 /\ epsilon < 100 * 110.
Proof. split; [apply normal_law_exists|]. rewrite sqrt_1. unfold epsilon. split; lra. Qed.
