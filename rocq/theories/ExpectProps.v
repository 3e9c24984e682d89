(** C88: the option formulas are expectations, and they are the expectations of what a simulation averages. *)
From Coq Require Import String Reals List ZArith Lra Lia.
From Coquelicot Require Import Coquelicot.
From Verif Require Import Base StringModel BlackModel BlackSpec BlackProofs BlackNormal ExpectSpec ExpectProofs.
From Verif Require Import StringSpec StringProofs ScriptModel ScriptSpec FuzzySpec DomainSpec ValueModel ValueSpec BsSpec PriceSpec PriceProps.
From Verif Require BsModel.
Import ListNotations.
Local Open Scope R_scope.

(** There is at most one expectation. *)
Theorem C88_unique n g x y : mean n g x -> mean n g y -> x = y.
Proof.
  intros Hx Hy. apply Rminus_diag_uniq. destruct (Req_dec (x - y) 0) as [|Hne]; [assumption|exfalso]. pose proof (Rabs_pos_lt _ Hne) as Hp.
  destruct (Hx (Rabs (x - y) / 2) ltac:(lra)) as (m1 & H1). destruct (Hy (Rabs (x - y) / 2) ltac:(lra)) as (m2 & H2). pose proof (Rmax_l m1 m2). pose proof (Rmax_r m1 m2).
  destruct (H1 (- Rmax m1 m2 - 1) (Rmax m1 m2 + 1) ltac:(lra) ltac:(lra)) as (u & Iu & Du). destruct (H2 (- Rmax m1 m2 - 1) (Rmax m1 m2 + 1) ltac:(lra) ltac:(lra)) as (w & Iw & Dw).
  pose proof (is_RInt_unique (V := R_CompleteNormedModule) _ _ _ _ Iu) as Eu. pose proof (is_RInt_unique (V := R_CompleteNormedModule) _ _ _ _ Iw) as Ew. rewrite Eu in Ew. change (@eq R u w) in Ew. rewrite <- Ew in Dw. revert Du Dw Hp. unfold Rabs. repeat destruct (Rcase_abs _); lra.
Qed.
Print Assumptions C88_unique.
(** Black's price is the expectation of the payout on a lognormal number with the forward as its mean, *)
Theorem C88_black N n f v k t : normal_law N n -> 0 < f -> 0 < k -> epsilon <= v -> epsilon <= f * k -> t <> NotSet ->
  exists x g, black_opt N f v k t = Ok x /\ (forall z, payout t (lognormal f v z) k = Ok (g z)) /\ mean n g x.
Proof.
  intros HN Hf Hk Hv Hfk Ht. pose proof eps_pos as He. pose proof (black_parity N f v k (nl_sym _ _ HN)) as P. assert (Ha : epsilon <= Rabs v) by (rewrite Rabs_pos_eq; lra).
  assert (exists x, black_opt N f v k t = Ok x) as (x & Ex) by (destruct P as (c & p & w & E1 & E2 & E3 & _); destruct t; try contradiction; eauto).
  destruct (from_call n (lognormal f v) f k _ t x (fun t => black_opt N f v k t) (log_call N n HN f v k Hf Hk ltac:(lra)) (log_mean N n HN f v k)) as (g & Hg & Hm); [rewrite black_formula by assumption; reflexivity|exact P|exact Ex|exact Ht|].
  exists x, g. split; [exact Ex|]. split; [exact Hg|exact Hm].
Qed.
Print Assumptions C88_black.
(** and Bachelier's that on a normal number. *)
Theorem C88_bachelier N n f v k t : normal_law N n -> epsilon <= v -> epsilon <= f * k -> t <> NotSet ->
  exists x g, bachelier_opt N n f v k t = Ok x /\ (forall z, payout t (shifted f v z) k = Ok (g z)) /\ mean n g x.
Proof.
  intros HN Hv Hfk Ht. pose proof eps_pos as He. pose proof (bach_parity N n f v k (nl_sym _ _ HN)) as P. assert (Ha : epsilon <= Rabs v) by (rewrite Rabs_pos_eq; lra).
  assert (exists x, bachelier_opt N n f v k t = Ok x) as (x & Ex) by (destruct P as (c & p & w & E1 & E2 & E3 & _); destruct t; try contradiction; eauto).
  destruct (from_call n (shifted f v) f k _ t x (fun t => bachelier_opt N n f v k t) (nor_call N n HN f v k ltac:(lra)) (nor_mean N n HN f v k)) as (g & Hg & Hm); [rewrite bach_formula by assumption; reflexivity|exact P|exact Ex|exact Ht|].
  exists x, g. split; [exact Ex|]. split; [exact Hg|exact Hm].
Qed.
Print Assumptions C88_bachelier.
(** Finding: at a forward of zero Bachelier's price is the payout, whatever the volatility; the expectation is positive. *)
Theorem C88_bachelier_zero_refuted N n v : normal_law N n -> 0 < v ->
  bachelier_opt N n 0 v 0 Call = Ok 0 /\ exists x, 0 < x /\ mean n (fun z => Rmax 0 (shifted 0 v z - 0)) x.
Proof.
  intros HN Hv. split.
  - unfold bachelier_opt. destruct (is_positive_spec (0 * 0)) as [H|H]; [pose proof eps_pos; lra|]. cbn [negb]. rewrite Bool.orb_true_r. cbn [payout]. f_equal. unfold Rmax. destruct (Rle_dec _ _); lra.
  - exists ((0 - 0) * N ((0 - 0) / v) + v * n ((0 - 0) / v)). split; [|exact (nor_call N n HN 0 v 0 Hv)]. pose proof (n_pos N n HN ((0 - 0) / v)). nra.
Qed.
Print Assumptions C88_bachelier_zero_refuted.
Example C88_case : (exists N n, normal_law N n) /\ epsilon <= 1 / 5 /\ epsilon <= 100 * 110 /\ Straddle <> NotSet.
Proof. split; [apply normal_law_exists|]. unfold epsilon. split; [lra|]. split; [lra|discriminate]. Qed.

(** ** What a simulation averages: pay PAYS MAX(SPOT() - K, 0), or MAX(K - SPOT(), 0), at one date *)
Section European.
Variables (f_log f_sqrt f_exp : R -> R) (f_pow : R -> R -> R).
Local Notation RN := (RNum f_log f_sqrt f_exp f_pow).
#[local] Hint Extern 0 Num => exact (RNum f_log f_sqrt f_exp f_pow) : typeclass_instances.
Definition european (t : option_type) (k : R) : list (list (@stmt RN)) :=
  let s := @ESpot RN None in let c := @EConst RN k in
  [[@SPays RN (@LVar RN None (lit "pay") (-1)%Z) (@EBin RN None Max (match t with Put => @EBin RN None Sub c s [] | _ => @EBin RN None Sub s c [] end) (@EConst RN 0) [])]].
Definition forward (m : BsModel.bs) (T : R) : R := BsModel.b_spot m * exp ((BsModel.b_rate m - BsModel.b_div m) * T).
Lemma one_draw m T z : 0 < T -> bs_path f_log f_sqrt f_exp f_pow m [T] [z] = [@Sample RN (lognormal (forward m T) (BsModel.b_vol m * sqrt T) z) (exp (BsModel.b_rate m * T))].
Proof.
  intros HT. unfold bs_path. cbn [List.length seq map nth]. apply (f_equal (fun s => [@Sample RN s (exp (BsModel.b_rate m * T))])). unfold lognormal, forward.
  match goal with |- ?a = ?b => change (@eq R a b) end.
  transitivity (BsModel.b_spot m * (exp ((BsModel.b_rate m - BsModel.b_div m) * T) * exp (BsModel.b_vol m * sqrt T * z - BsModel.b_vol m * sqrt T * (BsModel.b_vol m * sqrt T) / 2))); [|ring].
  rewrite <- exp_plus. apply f_equal. apply f_equal.
  unfold from_today, position. destruct (Req_EM_T T 0) as [H|_]; [lra|]. unfold brownian, weight. cbn [List.length Nat.sub BsSpec.sum nth]. destruct (Compare_dec.lt_dec 0 1) as [_|H]; [|exfalso; apply H; constructor].
  rewrite Rminus_0_r. replace (BsModel.b_vol m * sqrt T * (BsModel.b_vol m * sqrt T)) with (BsModel.b_vol m * BsModel.b_vol m * (sqrt T * sqrt T)) by ring. rewrite sqrt_sqrt by lra. field.
Qed.
Lemma european_pays m T k t z g : 0 < T -> t = Call \/ t = Put -> payout t (lognormal (forward m T) (BsModel.b_vol m * sqrt T) z) k = Ok g ->
  final [] (european t k) (lit "pay") (bs_path f_log f_sqrt f_exp f_pow m [T] [z]) = exp (- (BsModel.b_rate m * T)) * g.
Proof.
  intros HT Ht Hg. rewrite (one_draw m T z HT). set (S := lognormal _ _ z) in *. clearbody S.
  assert (E : @final RN [] (european t k) (lit "pay") [@Sample RN S (exp (BsModel.b_rate m * T))] = g / exp (BsModel.b_rate m * T)).
  { destruct Ht as [->| ->]; cbn [payout] in Hg; injection Hg as <-.
    - change (0 + (if rltb (S - k) 0 then 0 else S - k) / exp (BsModel.b_rate m * T) = Rmax 0 (S - k) / exp (BsModel.b_rate m * T)). rewrite Rplus_0_l. f_equal. unfold rltb, Rmax. destruct (Rlt_dec _ _), (Rle_dec _ _); lra.
    - change (0 + (if rltb (k - S) 0 then 0 else k - S) / exp (BsModel.b_rate m * T) = Rmax 0 (k - S) / exp (BsModel.b_rate m * T)). rewrite Rplus_0_l. f_equal. unfold rltb, Rmax. destruct (Rlt_dec _ _), (Rle_dec _ _); lra. }
  rewrite E, exp_Ropp. unfold Rdiv. match goal with |- ?a = ?b => change (@eq R a b) end. ring.
Qed.
(** The expectation, over a normal draw, of the payoff of the script on the path the Black-Scholes model makes of the draw is Black's price of
    the forward, discounted. *)
Theorem C88_european N n m T k t : normal_law N n -> 0 < BsModel.b_spot m -> 0 < T -> 0 < k -> t = Call \/ t = Put ->
  epsilon <= BsModel.b_vol m * sqrt T -> epsilon <= forward m T * k ->
  exists x, black_opt N (forward m T) (BsModel.b_vol m * sqrt T) k t = Ok x /\
    mean n (fun z => final [] (european t k) (lit "pay") (bs_path f_log f_sqrt f_exp f_pow m [T] [z])) (exp (- (BsModel.b_rate m * T)) * x).
Proof.
  intros HN Hs HT Hk Ht Hv Hfk. assert (Hf : 0 < forward m T) by (unfold forward; apply Rmult_lt_0_compat; [exact Hs|apply exp_pos]).
  destruct (C88_black N n (forward m T) (BsModel.b_vol m * sqrt T) k t HN Hf Hk Hv Hfk) as (x & g & Ex & Hg & Hm); [destruct Ht as [->| ->]; discriminate|].
  exists x. split; [exact Ex|]. replace (exp (- (BsModel.b_rate m * T)) * x) with (exp (- (BsModel.b_rate m * T)) * x + 0 * x) by ring. eapply mean_ext; [|exact (mean_lin n g g x x (exp (- (BsModel.b_rate m * T))) 0 Hm Hm)].
  intros z. cbv beta. rewrite (european_pays m T k t z (g z) HT Ht (Hg z)). ring.
Qed.
(** Such a script is one that can be valued with the model (C87). *)
Theorem C88_can_price m T day k t : 0 < BsModel.b_spot m -> 0 < T -> can_price f_log f_sqrt f_exp f_pow [T] m [] [day] (european t k) (lit "pay").
Proof.
  intros Hs HT. unfold can_price. split.
  { exists 3%Z. split; [repeat constructor|]. split; [intros ? ? ? ? ? ? H; destruct t; destruct H|]. split; [|cbn; lia]. destruct t; repeat constructor; cbn; lia. }
  split; [destruct t; cbn; lia|]. split.
  { right. split; [|exists []; destruct t; reflexivity]. intros x Hm C. apply ci_eqb_iff in C. destruct t; destruct Hm as [<-|[]]; discriminate. }
  split; [exact Logic.I|]. split; [cbn; lia|]. split; [cbn; lra|]. split; [exact Hs|]. intros gauss.
  unfold bs_path. cbn [List.length seq map]. set (sp := BsModel.b_spot m * _). clearbody sp. pose proof (exp_pos (BsModel.b_rate m * nth 0 [T] 0)) as He. set (nu := exp _) in *. clearbody nu.
  destruct t; cbn; repeat split; try discriminate; auto.
Qed.
End European.
Print Assumptions C88_can_price.
Print Assumptions C88_european.
(** a year, 20 per cent, 5 per cent, strike 110 *)
Example C88_european_case : let m := {| BsModel.b_spot := 100; BsModel.b_vol := 1/5; BsModel.b_rate := 1/20; BsModel.b_div := 0 |} in
  epsilon <= BsModel.b_vol m * sqrt 1 /\ epsilon <= forward m 1 * 110.
Proof.
  cbn zeta. unfold forward, epsilon. cbn [BsModel.b_spot BsModel.b_vol BsModel.b_rate BsModel.b_div]. rewrite sqrt_1. split; [lra|]. pose proof (exp_ineq1 ((1 / 20 - 0) * 1) ltac:(lra)). lra.
Qed.
