(** Proofs about C94. *)
From Coq Require Import Reals List ZArith Lra Lia.
From Coquelicot Require Import Coquelicot.
From Verif Require Import Base BlackModel BlackSpec BlackProofs ExpectSpec ExpectProofs MomentSpec MomentProofs StrikeSpec.
Import ListNotations.
Local Open Scope R_scope.

(** payouts *)
Definition pay (t : option_type) (s k : R) : R := match t with Call => Rmax 0 (s - k) | Put => Rmax 0 (k - s) | _ => Rabs (s - k) end.
Lemma pay_ok t s k : t <> NotSet -> payout t s k = Ok (pay t s k).
Proof. destruct t; intros H; [reflexivity ..|contradiction]. Qed.
Lemma pay_convex t s k1 k2 w : 0 <= w <= 1 -> pay t s (w * k1 + (1 - w) * k2) <= w * pay t s k1 + (1 - w) * pay t s k2.
Proof.
  intros Hw. assert (M : forall a b, Rmax 0 (w * a + (1 - w) * b) <= w * Rmax 0 a + (1 - w) * Rmax 0 b).
  { intros a b. pose proof (Rmax_l 0 a). pose proof (Rmax_r 0 a). pose proof (Rmax_l 0 b). pose proof (Rmax_r 0 b). apply Rmax_lub; nra. }
  assert (A : forall a b, Rabs (w * a + (1 - w) * b) <= w * Rabs a + (1 - w) * Rabs b).
  { intros a b. eapply Rle_trans; [apply Rabs_triang|]. rewrite !Rabs_mult, (Rabs_pos_eq w), (Rabs_pos_eq (1 - w)) by lra. lra. }
  destruct t; cbn [pay].
  - replace (s - (w * k1 + (1 - w) * k2)) with (w * (s - k1) + (1 - w) * (s - k2)) by ring. apply M.
  - replace (w * k1 + (1 - w) * k2 - s) with (w * (k1 - s) + (1 - w) * (k2 - s)) by ring. apply M.
  - replace (s - (w * k1 + (1 - w) * k2)) with (w * (s - k1) + (1 - w) * (s - k2)) by ring. apply A.
  - replace (s - (w * k1 + (1 - w) * k2)) with (w * (s - k1) + (1 - w) * (s - k2)) by ring. apply A.
Qed.
Lemma pay_up t s k1 k2 : k1 <= k2 -> pay t s k2 <= pay t s k1 + (k2 - k1) /\ (t = Call -> pay t s k2 <= pay t s k1).
Proof.
  intros H. destruct t; cbn [pay]; (split; [|try discriminate]).
  2: intros _. 1,2,3: unfold Rmax; repeat destruct (Rle_dec _ _); lra.
  all: unfold Rabs; repeat destruct (Rcase_abs _); lra.
Qed.
Lemma pay_down t s k1 k2 : k1 <= k2 -> pay t s k1 - (k2 - k1) <= pay t s k2 /\ (t = Put -> pay t s k1 <= pay t s k2).
Proof.
  intros H. destruct t; cbn [pay]; (split; [|try discriminate]).
  3: intros _. 1,2,3: unfold Rmax; repeat destruct (Rle_dec _ _); lra.
  all: unfold Rabs; repeat destruct (Rcase_abs _); lra.
Qed.
Section Prices.
Context {A : Type}.
Variable E : (A -> R) -> R -> Prop.
Hypothesis lin : forall f g x y c d, E f x -> E g y -> E (fun a => c * f a + d * g a) (c * x + d * y).
Hypothesis mono : forall f g x y, (forall a, f a <= g a) -> E f x -> E g y -> x <= y.
Variable one : R.
Hypothesis E_one : E (fun _ => 1) one.
Hypothesis one_le : one <= 1.
Variable S : A -> R.
Variable unit : R.
Hypothesis Hu : 0 <= unit.
Lemma prices_fine price (kinds : option_type -> Prop) (strikes : R -> Prop) :
  (forall k1 k2 w, strikes k1 -> strikes k2 -> 0 <= w <= 1 -> strikes (w * k1 + (1 - w) * k2)) ->
  (forall t k, kinds t -> strikes k -> exists x, price t k = Ok x /\ E (fun a => unit * pay t (S a) k) x) -> no_arbitrage price unit kinds strikes.
Proof.
  intros Hc H t k1 k2 w Ht H1 H2 Hk Hw. destruct (H t k1 Ht H1) as (x1 & P1 & E1). destruct (H t k2 Ht H2) as (x2 & P2 & E2). destruct (H t _ Ht (Hc k1 k2 w H1 H2 Hw)) as (x & P & Ex).
  exists x1, x2, x. do 3 (split; [assumption|]). split.
  - assert (Ud : unit * (k2 - k1) * one <= unit * (k2 - k1)) by (assert (0 <= unit * (k2 - k1)) by (apply Rmult_le_pos; lra); nra).
    assert (L : x1 - unit * (k2 - k1) <= x2).
    { assert (1 * x1 + - (unit * (k2 - k1)) * one <= x2); [|lra]. refine (mono _ _ _ _ _ (lin _ _ _ _ 1 (- (unit * (k2 - k1))) E1 E_one) E2). intros a. cbv beta. pose proof (proj1 (pay_down t (S a) k1 k2 Hk)). nra. }
    assert (U : x2 <= x1 + unit * (k2 - k1)).
    { assert (x2 <= 1 * x1 + (unit * (k2 - k1)) * one); [|lra]. refine (mono _ _ _ _ _ E2 (lin _ _ _ _ 1 (unit * (k2 - k1)) E1 E_one)). intros a. cbv beta. pose proof (proj1 (pay_up t (S a) k1 k2 Hk)). nra. }
    unfold slope_fine. destruct t; [split; [exact L|]|split; [|exact U]|apply Rabs_le; lra|apply Rabs_le; lra].
    + refine (mono _ _ _ _ _ E2 E1). intros a. cbv beta. apply Rmult_le_compat_l; [exact Hu|]. now apply (pay_up Call).
    + refine (mono _ _ _ _ _ E1 E2). intros a. cbv beta. apply Rmult_le_compat_l; [exact Hu|]. now apply (pay_down Put).
  - refine (mono _ _ _ _ _ Ex (lin _ _ _ _ w (1 - w) E1 E2)). intros a. cbv beta. pose proof (pay_convex t (S a) k1 k2 w Hw). nra.
Qed.
End Prices.
(** expectations of a density are monotone *)
Lemma mean_le n f g x y : (forall z, 0 <= n z) -> (forall z, f z <= g z) -> mean n f x -> mean n g y -> x <= y.
Proof.
  intros Hn H Hf Hg. apply Rnot_lt_le. intros L. destruct (Hf ((x - y) / 2)) as (m1 & H1); [lra|]. destruct (Hg ((x - y) / 2)) as (m2 & H2); [lra|].
  set (m := Rmax (Rmax m1 m2) 0 + 1). assert (m1 < m /\ m2 < m /\ 0 < m) as (B1 & B2 & B3) by (unfold m; pose proof (Rmax_l (Rmax m1 m2) 0); pose proof (Rmax_r (Rmax m1 m2) 0); pose proof (Rmax_l m1 m2); pose proof (Rmax_r m1 m2); lra).
  destruct (H1 (- m) m) as (u & Iu & Du); [lra|lra|]. destruct (H2 (- m) m) as (w & Iw & Dw); [lra|lra|].
  assert (u <= w). { eapply (is_RInt_le _ _ (- m) m); [lra|exact Iu|exact Iw|]. intros z _. apply Rmult_le_compat_r; [apply Hn|apply H]. }
  apply Rabs_def2 in Du. apply Rabs_def2 in Dw. lra.
Qed.
Lemma total_le {A} (f g : A -> R) l : (forall a, f a <= g a) -> total f l <= total g l.
Proof. intros H. induction l as [|a l IH]; [unfold total; cbn; lra|]. rewrite !total_cons. specialize (H a). lra. Qed.
Lemma total_lin {A} (f g : A -> R) c d l : total (fun a => c * f a + d * g a) l = c * total f l + d * total g l.
Proof. induction l as [|a l IH]; [unfold total; cbn; lra|]. rewrite !total_cons, IH. lra. Qed.
Lemma total_one {A} (l : list A) : total (fun _ => 1) l = INR (length l).
Proof. induction l as [|a l IH]; [reflexivity|]. rewrite total_cons, IH. change (length (a :: l)) with (Datatypes.S (length l)). rewrite S_INR. lra. Qed.
Lemma average_prices {A} (L : list A) (spot : A -> R) unit price (kinds : option_type -> Prop) (strikes : R -> Prop) : (0 < length L)%nat -> 0 <= unit ->
  (forall k1 k2 w, strikes k1 -> strikes k2 -> 0 <= w <= 1 -> strikes (w * k1 + (1 - w) * k2)) ->
  (forall t k, kinds t -> strikes k -> price t k = Ok (average (fun a => unit * pay t (spot a) k) L)) -> no_arbitrage price unit kinds strikes.
Proof.
  intros HL Hu Hc H. assert (Hp : 0 < INR (length L)) by now apply lt_0_INR. eapply (prices_fine (fun f x => average f L = x)) with (one := 1) (S := spot); [| | | |exact Hu|exact Hc|intros t k Ht Hk; eexists; split; [now apply H|reflexivity]].
  - intros f g x y c d <- <-. unfold average. rewrite total_lin. field. lra.
  - intros f g x y G <- <-. unfold average, Rdiv. apply Rmult_le_compat_r; [left; now apply Rinv_0_lt_compat|]. now apply total_le.
  - unfold average. rewrite total_one. field. lra.
  - lra.
Qed.
