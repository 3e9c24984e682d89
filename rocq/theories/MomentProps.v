(** C89: a simulation is unbiased, its mean square error falls as one over the number of paths, and on the paths of the Black-Scholes model
    the discounted spot keeps its mean. *)
From Coq Require Import String Reals List ZArith Lra Lia.
From Coquelicot Require Import Coquelicot.
From Verif Require Import Base StringModel BlackModel BlackSpec BlackProofs BlackNormal ExpectSpec ExpectProofs ExpectProps MomentSpec MomentProofs.
From Verif Require Import ScriptModel ScriptSpec FuzzySpec DomainSpec ValueModel ValueSpec BsSpec BsProofs BsProps PriceSpec PriceProps.
From Verif Require BsModel.
Import ListNotations.
Local Open Scope R_scope.

(** There is at most one expectation over the draws of all paths. *)
Theorem C89_unique N n dim paths f x y : normal_law N n -> simulated n dim paths f x -> simulated n dim paths f y -> x = y.
Proof. intros HN. apply rep_unique. exact (draws_expects N n HN dim). Qed.
Print Assumptions C89_unique.
(** The expectation of the average over independent paths is the expectation over one path, *)
Theorem C89_unbiased N n dim paths f x : normal_law N n -> (0 < paths)%nat -> draws n dim f x -> simulated n dim paths (average f) x.
Proof. intros HN Hp. apply rep_average; [exact (draws_expects N n HN dim)|exact Hp]. Qed.
Print Assumptions C89_unbiased.
(** and the expectation of its squared distance from that is the variance over one path divided by the number of paths. *)
Theorem C89_error N n dim paths f x v : normal_law N n -> (0 < paths)%nat -> draws n dim f x -> draws n dim (fun zs => (f zs - x) * (f zs - x)) v ->
  simulated n dim paths (fun l => (average f l - x) * (average f l - x)) (v / INR paths).
Proof. intros HN Hp. apply rep_error; [exact (draws_expects N n HN dim)|exact Hp]. Qed.
Print Assumptions C89_error.

Section Paths.
Variables (f_log f_sqrt f_exp : R -> R) (f_pow : R -> R -> R).
Local Notation RN := (RNum f_log f_sqrt f_exp f_pow).
#[local] Hint Extern 0 Num => exact (RNum f_log f_sqrt f_exp f_pow) : typeclass_instances.
Local Notation bs_path := (bs_path f_log f_sqrt f_exp f_pow).
Definition dimension (times : list R) : nat := (List.length (from_today times) - 1)%nat.
Lemma nth_path m times zs i d : (i < List.length times)%nat -> nth i (bs_path m times zs) d =
  @Sample RN (BsModel.b_spot m * exp ((BsModel.b_rate m - BsModel.b_div m - 1/2 * BsModel.b_vol m * BsModel.b_vol m) * nth i times 0
                                 + BsModel.b_vol m * brownian (from_today times) zs (position times i))) (exp (BsModel.b_rate m * nth i times 0)).
Proof.
  intros Hi. unfold PriceSpec.bs_path.
  rewrite (nth_indep _ d (@Sample RN (BsModel.b_spot m * exp ((BsModel.b_rate m - BsModel.b_div m - 1/2 * BsModel.b_vol m * BsModel.b_vol m) * nth O times 0
                                 + BsModel.b_vol m * brownian (from_today times) zs (position times O))) (exp (BsModel.b_rate m * nth O times 0)))) by (now rewrite map_length, seq_length).
  rewrite (map_nth (fun i => @Sample RN (BsModel.b_spot m * exp ((BsModel.b_rate m - BsModel.b_div m - 1/2 * BsModel.b_vol m * BsModel.b_vol m) * nth i times 0
                                 + BsModel.b_vol m * brownian (from_today times) zs (position times i))) (exp (BsModel.b_rate m * nth i times 0)))).
  now rewrite seq_nth by exact Hi.
Qed.
(** The spot at a date, in units of the numeraire and with the dividends put back, has today's spot for its mean. *)
Theorem C89_martingale N n m times i d : normal_law N n -> timeline_ok times -> (i < List.length times)%nat ->
  draws n (dimension times) (fun zs => exp (BsModel.b_div m * nth i times 0) * spot (nth i (bs_path m times zs) d) / numeraire (nth i (bs_path m times zs) d)) (BsModel.b_spot m).
Proof.
  intros HN Ht Hi. set (w := fun j => BsModel.b_vol m * weight (from_today times) (position times i) j).
  pose proof (C52_covariance times i i Ht ltac:(lia)) as Hw. fold (dimension times) in Hw. cbv zeta in Hw.
  apply (ex_val _ _ (BsModel.b_spot m * 1 + 0 * 1)); [ring|].
  eapply rep_ext; [|apply (rep_lin _ (mean_expects N n HN) _ _ (fun _ => 1) _ _ (BsModel.b_spot m) 0 (product_mean N n HN (dimension times) w)); apply (rep_const _ (mean_expects N n HN))].
  intros zs _. cbn beta. rewrite (nth_path m times zs i d Hi). cbn [spot numeraire].
  match goal with |- ?a = ?b => change (@eq R a b) end.
  assert (E : BsSpec.sum (dimension times) (fun j => w j * nth j zs 0 - w j * w j / 2)
    = BsModel.b_vol m * brownian (from_today times) zs (position times i) - 1/2 * BsModel.b_vol m * BsModel.b_vol m * nth i times 0).
  { unfold brownian. fold (dimension times). unfold w. rewrite <- Hw. change (List.length (from_today times) - 1)%nat with (dimension times). clear. induction (dimension times) as [|k IH]; cbn [BsSpec.sum]; [ring|]. rewrite IH. field. }
  rewrite E. rewrite Rmult_0_l, Rplus_0_r. set (b := brownian _ _ _). set (T := nth i times 0).
  transitivity (BsModel.b_spot m * (exp (BsModel.b_div m * T) * exp ((BsModel.b_rate m - BsModel.b_div m - 1 / 2 * BsModel.b_vol m * BsModel.b_vol m) * T + BsModel.b_vol m * b) * / exp (BsModel.b_rate m * T))); [|unfold Rdiv; ring].
  rewrite <- exp_Ropp, <- !exp_plus. do 2 f_equal. ring.
Qed.
(** So a forward contract on one of the dates is worth the same for every volatility and every choice of the other dates. *)
Definition forward_script (i : nat) (k : R) : list (list (@stmt RN)) :=
  repeat [] i ++ [[@SPays RN (@LVar RN None (lit "pay") (-1)%Z) (@EBin RN None Sub (@ESpot RN None) (@EConst RN k) [])]].
Lemma forward_pays i k : forall scen d, (i < List.length scen)%nat -> forall env, 
  @perform_future RN (forward_script i k) scen env (lit "pay") = env (lit "pay") + (spot (nth i scen d) - k) / numeraire (nth i scen d).
Proof.
  induction i as [|i IH]; intros [|s scen] d Hl env; try (cbn in Hl; lia).
  - reflexivity.
  - change (@perform_future RN (forward_script i k) scen env (lit "pay") = env (lit "pay") + (spot (nth i scen d) - k) / numeraire (nth i scen d)). apply IH. cbn in Hl. lia.
Qed.
Theorem C89_forward N n m times i k : normal_law N n -> timeline_ok times -> (i < List.length times)%nat ->
  draws n (dimension times) (fun zs => final [] (forward_script i k) (lit "pay") (bs_path m times zs))
    (BsModel.b_spot m * exp (- (BsModel.b_div m * nth i times 0)) - k * exp (- (BsModel.b_rate m * nth i times 0))).
Proof.
  intros HN Ht Hi. pose (d := @Sample RN 0 0). apply (ex_val _ _ (exp (- (BsModel.b_div m * nth i times 0)) * BsModel.b_spot m + - k * exp (- (BsModel.b_rate m * nth i times 0)))); [ring|].
  eapply rep_ext; [|apply (rep_lin _ (mean_expects N n HN) _ _ (fun _ => exp (- (BsModel.b_rate m * nth i times 0))) _ _ (exp (- (BsModel.b_div m * nth i times 0))) (- k) (C89_martingale N n m times i d HN Ht Hi)); apply (rep_const _ (mean_expects N n HN))].
  intros zs _. cbn beta. unfold final.
  assert (Hl : (i < List.length (bs_path m times zs))%nat) by (unfold PriceSpec.bs_path; now rewrite map_length, seq_length).
  rewrite (forward_pays i k _ d Hl). rewrite (nth_path m times zs i d Hi). cbn [spot numeraire perform_past fold_left all_zero].
  match goal with |- ?a = _ + _ => change (@eq R a (0 + (BsModel.b_spot m * exp ((BsModel.b_rate m - BsModel.b_div m - 1/2 * BsModel.b_vol m * BsModel.b_vol m) * nth i times 0
                                 + BsModel.b_vol m * brownian (from_today times) zs (position times i)) - k) / exp (BsModel.b_rate m * nth i times 0))) end.
  set (e := exp (_ + _)). rewrite !exp_Ropp. pose proof (exp_pos (BsModel.b_div m * nth i times 0)). pose proof (exp_pos (BsModel.b_rate m * nth i times 0)). field. split; lra.
Qed.
(** The simulated price of a European option is an unbiased estimate of Black's discounted price, and there is a number v such that its mean
    square error with any number of paths is v divided by that number. *)
Theorem C89_european N n m T k t : normal_law N n -> 0 < BsModel.b_spot m -> 0 < T -> 0 < k -> t = Call \/ t = Put ->
  epsilon <= BsModel.b_vol m * sqrt T -> epsilon <= forward m T * k ->
  let paid := fun zs => final [] (european f_log f_sqrt f_exp f_pow t k) (lit "pay") (bs_path m [T] zs) in
  exists x v, black_opt N (forward m T) (BsModel.b_vol m * sqrt T) k t = Ok x /\ forall paths, (0 < paths)%nat ->
    let price := exp (- (BsModel.b_rate m * T)) * x in
    simulated n 1 paths (average paid) price /\ simulated n 1 paths (fun l => (average paid l - price) * (average paid l - price)) (v / INR paths).
Proof.
  intros HN Hs HT Hk Ht Hv Hfk paid. destruct (C88_european f_log f_sqrt f_exp f_pow N n m T k t HN Hs HT Hk Ht Hv Hfk) as (x & Ex & Hm).
  set (g := fun z => final [] (european f_log f_sqrt f_exp f_pow t k) (lit "pay") (bs_path m [T] [z])) in *. set (price := exp (- (BsModel.b_rate m * T)) * x) in *.
  assert (exists y, mean n (fun z => g z * g z) y) as (y & Hy).
  { assert (Hf : 0 < forward m T) by (unfold forward; apply Rmult_lt_0_compat; [exact Hs|apply exp_pos]). pose proof eps_pos.
    destruct (pay_square N n HN (forward m T) (BsModel.b_vol m * sqrt T) k t Hf Hk ltac:(lra)) as (h & y & Hh & My); [destruct Ht as [->| ->]; discriminate|].
    set (r := exp (- (BsModel.b_rate m * T))). exists (r * r * y + 0 * y). eapply mean_ext; [|exact (mean_lin n _ _ _ _ (r * r) 0 My My)].
    intros z. cbv beta. assert (E : g z = r * h z); [|rewrite E; ring]. unfold g. rewrite (european_pays f_log f_sqrt f_exp f_pow m T k t z (h z) HT Ht (Hh z)). reflexivity. }
  destruct (spread N n HN g price y Hm Hy) as (v & Hvar). exists x, v. split; [exact Ex|]. intros paths Hp. cbv zeta.
  assert (D1 : draws n 1 paid price). { exists g. split; [reflexivity|exact Hm]. }
  assert (D2 : draws n 1 (fun zs => (paid zs - price) * (paid zs - price)) v). { exists (fun z => (g z - price) * (g z - price)). split; [reflexivity|exact Hvar]. }
  split; [apply (C89_unbiased N); assumption|apply (C89_error N); assumption].
Qed.
End Paths.
Print Assumptions C89_martingale.
Print Assumptions C89_forward.
Print Assumptions C89_european.
(** two dates, one of them today, and the call of C88's example *)
Example C89_case : (exists N n, normal_law N n) /\ timeline_ok [0; 1; 2] /\ dimension [0; 1; 2] = 2%nat /\ dimension [1; 2] = 2%nat /\
  let m := {| BsModel.b_spot := 100; BsModel.b_vol := 1/5; BsModel.b_rate := 1/20; BsModel.b_div := 0 |} in 0 < BsModel.b_spot m /\ epsilon <= BsModel.b_vol m * sqrt 1 /\ epsilon <= forward m 1 * 110.
Proof.
  split; [apply normal_law_exists|]. split; [cbn; lra|]. split; [unfold dimension, from_today; destruct (Req_EM_T 0 0); [reflexivity|contradiction]|].
  split; [unfold dimension, from_today; destruct (Req_EM_T 1 0); [lra|reflexivity]|]. cbv zeta. split; [cbn; lra|]. apply C88_european_case.
Qed.
