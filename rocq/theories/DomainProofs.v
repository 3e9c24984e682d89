(** Soundness of the domain analysis with exact comparisons. *)
From Coq Require Import ZArith List Bool Reals Lra Lia ZifyBool Sorted.
From Verif Require Import Base StringModel ScriptModel ScriptSpec ScriptEval FuzzySpec FuzzyProofs DomainModel DomainSpec.
Import ListNotations.
Local Open Scope R_scope.

Lemma rltb_iff x y : rltb x y = true <-> x < y.
Proof. unfold rltb. destruct (Rlt_dec x y); split; auto; discriminate. Qed.
Lemma rltb_niff x y : rltb x y = false <-> y <= x.
Proof. unfold rltb. destruct (Rlt_dec x y); split; auto; try discriminate; intros; lra. Qed.
Lemma reqb_iff x y : reqb x y = true <-> x = y.
Proof. unfold reqb. destruct (Req_EM_T x y); split; auto; discriminate. Qed.
Ltac rb := repeat match goal with
  | H : rltb _ _ = true |- _ => apply rltb_iff in H
  | H : rltb _ _ = false |- _ => apply rltb_niff in H
  | |- rltb _ _ = true => apply rltb_iff
  | |- rltb _ _ = false => apply rltb_niff
  end.

Section Real.
Variables (f_log f_sqrt f_exp : R -> R) (f_pow : R -> R -> R).
Local Notation RN := (RNum f_log f_sqrt f_exp f_pow).
Local Notation ET := (exact_tests f_log f_sqrt f_exp f_pow).
#[local] Hint Extern 0 Num => exact (RNum f_log f_sqrt f_exp f_pow) : typeclass_instances.
#[local] Hint Extern 0 (DomNum _) => exact (exact_tests f_log f_sqrt f_exp f_pow) : typeclass_instances.
Local Notation blt := (blt f_log f_sqrt f_exp f_pow).
Local Notation fin x := (@Fin RN (x : R)).
Local Notation inI := (inI f_log f_sqrt f_exp f_pow).
Local Notation valid := (valid f_log f_sqrt f_exp f_pow).
Local Notation before := (before f_log f_sqrt f_exp f_pow).
Local Notation good := (good f_log f_sqrt f_exp f_pow).
Local Notation dom_ok := (dom_ok f_log f_sqrt f_exp f_pow).
Local Notation mem := (mem f_log f_sqrt f_exp f_pow).

Lemma blt_irr a : blt a a = false.
Proof. destruct a; cbn [DomainSpec.blt]; auto. rb. lra. Qed.
Lemma blt_tr a b c : blt a b = true -> blt b c = true -> blt a c = true.
Proof. destruct a, b, c; cbn [DomainSpec.blt]; intros; try discriminate; auto; rb; lra. Qed.
Lemma ble_tr a b c : blt b a = false -> blt c b = false -> blt c a = false.
Proof. destruct a, b, c; cbn [DomainSpec.blt]; intros; try discriminate; auto; rb; lra. Qed.
Lemma blt_le_tr a b c : blt a b = true -> blt c b = false -> blt a c = true.
Proof. destruct a, b, c; cbn [DomainSpec.blt]; intros; try discriminate; auto; rb; lra. Qed.
Lemma ble_lt_tr a b c : blt b a = false -> blt b c = true -> blt a c = true.
Proof. destruct a, b, c; cbn [DomainSpec.blt]; intros; try discriminate; auto; rb; lra. Qed.
Lemma blt_asym a b : blt a b = true -> blt b a = false.
Proof. destruct a, b; cbn [DomainSpec.blt]; intros; try discriminate; auto; rb; lra. Qed.
Lemma b_total a b : blt a b = false -> blt b a = false -> a = b.
Proof. destruct a, b; cbn [DomainSpec.blt]; intros; try discriminate; auto; rb. f_equal. lra. Qed.
Lemma beq_iff a b : beq f_log f_sqrt f_exp f_pow a b = true <-> a = b.
Proof.
  unfold beq. rewrite andb_true_iff, !negb_true_iff. split; [intros []; now apply b_total|]. intros ->. split; apply blt_irr.
Qed.

(** * Intervals *)
Lemma mk_ok l r k : mk l r = Ok k -> k = Interval l r /\ valid k.
Proof.
  unfold mk. cbn [t_eq t_gt exact_tests]. destruct (_ && _ && _) eqn:E; [|discriminate]. intros H. injection H as <-. split; [reflexivity|].
  rewrite !andb_true_iff, !negb_true_iff in E. destruct E as [[E1 E2] E3]. repeat split; cbn [ileft iright]; [exact E3| |].
  - intros ->. assert (beq f_log f_sqrt f_exp f_pow PInf PInf = true) by now apply beq_iff. congruence.
  - intros ->. assert (beq f_log f_sqrt f_exp f_pow MInf MInf = true) by now apply beq_iff. congruence.
Qed.
Lemma single_valid x : valid (single (x : @num RN)).
Proof. repeat split; cbn [single ileft iright]; [apply blt_irr|discriminate|discriminate]. Qed.
Lemma single_in (x : R) : inI x (single (x : @num RN)).
Proof. split; apply blt_irr. Qed.
Lemma line_valid : valid line.
Proof. repeat split; cbn; try discriminate; reflexivity. Qed.
Lemma line_in x : inI x line.
Proof. split; reflexivity. Qed.
Lemma zero_case i x : is_zero i = true -> inI x i -> x = 0.
Proof.
  unfold is_zero, is_single, inI. cbn [t_eq t_zero exact_tests]. rewrite !andb_true_iff. intros [[_ H1] H2] [H3 H4].
  apply beq_iff in H1. apply beq_iff in H2. rewrite <- H1, H2 in H4. rewrite H2 in H3. cbn [DomainSpec.blt] in *. rb. lra.
Qed.
Lemma single_case i x : is_single i = true -> inI x i -> val (ileft i) = x.
Proof.
  unfold is_single, inI. cbn [t_eq exact_tests]. rewrite !andb_true_iff, negb_true_iff. intros [H0 H1] [H3 H4].
  apply beq_iff in H1. rewrite <- H1 in H4. destruct (ileft i) as [|v|] eqn:E; [discriminate| |].
  - cbn [DomainSpec.blt val] in *. rb. lra.
  - unfold is_infinite in H0. rewrite E in H0. discriminate.
Qed.

Ltac unI := unfold inI, valid in *; cbn [ileft iright] in *.
Lemma i_add_ok i j k x y : i_add i j = Ok k -> inI x i -> inI y j -> inI (x + y) k.
Proof.
  intros H Hx Hy. apply mk_ok in H as [-> _]. destruct i as [a b], j as [c d]. unI. destruct Hx as [H1 H2], Hy as [H3 H4]. split.
  - destruct a, c; cbn [is_minus orb val DomainSpec.blt] in *; try reflexivity; try discriminate. rb. change (v + v0 <= x + y). lra.
  - destruct b, d; cbn [is_plus orb val DomainSpec.blt] in *; try reflexivity; try discriminate. rb. change (x + y <= v + v0). lra.
Qed.
Lemma i_neg_ok i k x : i_neg i = Ok k -> inI x i -> inI (- x) k.
Proof.
  intros H [H1 H2]. apply mk_ok in H as [-> _]. destruct i as [a b]. unI. split.
  - destruct b; cbn [b_neg DomainSpec.blt] in *; try reflexivity; try discriminate. rb. change (- v <= - x). lra.
  - destruct a; cbn [b_neg DomainSpec.blt] in *; try reflexivity; try discriminate. rb. change (- x <= - v). lra.
Qed.
Lemma i_sub_ok i j k x y : i_sub i j = Ok k -> inI x i -> inI y j -> inI (x - y) k.
Proof.
  unfold i_sub. destruct (i_neg j) as [m| | |] eqn:E; cbn [obind]; try discriminate. intros H Hx Hy.
  exact (i_add_ok _ _ _ _ _ H Hx (i_neg_ok _ _ _ E Hy)).
Qed.
Lemma i_min_ok i j k x y : i_min i j = Ok k -> inI x i -> inI y j -> inI (Rmin x y) k.
Proof.
  intros H [H1 H2] [H3 H4]. apply mk_ok in H as [-> _]. destruct i as [a b], j as [c d]. unI. cbn [t_lt t_gt exact_tests].
  unfold Rmin. destruct (Rle_dec x y) as [L|L]; split.
  - destruct (blt c a) eqn:E; [|assumption]. apply (ble_tr c a); [now apply blt_asym|assumption].
  - destruct (blt d b) eqn:E; [|assumption]. apply (ble_tr (fin x) (fin y)); [|assumption]. cbn [DomainSpec.blt]. rb. lra.
  - destruct (blt c a) eqn:E; [assumption|]. apply (ble_tr a c); assumption.
  - destruct (blt d b) eqn:E; [assumption|]. apply (ble_tr (fin y) (fin x)); [|assumption]. cbn [DomainSpec.blt]. rb. lra.
Qed.
Lemma i_max_ok i j k x y : i_max i j = Ok k -> inI x i -> inI y j -> inI (Rmax x y) k.
Proof.
  intros H [H1 H2] [H3 H4]. apply mk_ok in H as [-> _]. destruct i as [a b], j as [c d]. unI. cbn [t_lt t_gt exact_tests].
  unfold Rmax. destruct (Rle_dec x y) as [L|L]; split.
  - destruct (blt a c) eqn:E; [assumption|]. apply (ble_tr a (fin x)); [assumption|]. cbn [DomainSpec.blt]. rb. lra.
  - destruct (blt b d) eqn:E; [assumption|]. apply (ble_tr (fin y) d); assumption.
  - destruct (blt a c) eqn:E; [|assumption]. apply (ble_tr c (fin y)); [assumption|]. cbn [DomainSpec.blt]. rb. lra.
  - destruct (blt b d) eqn:E; [|assumption]. apply (ble_tr (fin x) b); [assumption|]. now apply blt_asym.
Qed.

(** ** Products *)
Lemma min_of_le l : forall m, blt m (min_of m l) = false /\ Forall (fun x => blt x (min_of m l) = false) l.
Proof.
  induction l as [|x l IH]; intros m; cbn [min_of]; [split; [apply blt_irr|constructor]|]. cbn [t_lt exact_tests].
  destruct (blt x m) eqn:E.
  - destruct (IH x) as [H1 H2]. split; [|constructor; assumption]. apply (ble_tr _ x); [assumption|]. now apply blt_asym.
  - destruct (IH m) as [H1 H2]. split; [assumption|]. constructor; [|assumption]. now apply (ble_tr _ m).
Qed.
Lemma max_of_ge l : forall m, blt (max_of m l) m = false /\ Forall (fun x => blt (max_of m l) x = false) l.
Proof.
  induction l as [|x l IH]; intros m; cbn [max_of]; [split; [apply blt_irr|constructor]|]. cbn [t_lt exact_tests].
  destruct (blt m x) eqn:E.
  - destruct (IH x) as [H1 H2]. split; [|constructor; assumption]. apply (ble_tr _ x); [|assumption]. now apply blt_asym.
  - destruct (IH m) as [H1 H2]. split; [assumption|]. constructor; [|assumption]. now apply (ble_tr _ m).
Qed.
Lemma beq0 v : beq f_log f_sqrt f_exp f_pow (fin v) (fin 0) = reqb v 0.
Proof.
  unfold beq, reqb. cbn [DomainSpec.blt]. unfold rltb. destruct (Rlt_dec v 0), (Rlt_dec 0 v), (Req_EM_T v 0); cbn; try reflexivity; lra.
Qed.
(** the product of a finite and an infinite bound *)
Lemma mul_fp v : b_mul (fin v) PInf = if reqb v 0 then PInf else if rltb 0 v then PInf else MInf.
Proof.
  unfold b_mul. cbn [infinite is_plus is_minus orb t_pos t_neg t_zero exact_tests DomainSpec.blt]. rewrite beq0. unfold rltb, reqb.
  destruct (Rlt_dec 0 v), (Rlt_dec v 0), (Req_EM_T v 0); cbn; try reflexivity; lra.
Qed.
Lemma mul_pf v : b_mul PInf (fin v) = if reqb v 0 then PInf else if rltb 0 v then PInf else MInf.
Proof.
  unfold b_mul. cbn [infinite is_plus is_minus orb t_pos t_neg t_zero exact_tests DomainSpec.blt]. rewrite beq0. unfold rltb, reqb.
  destruct (Rlt_dec 0 v), (Rlt_dec v 0), (Req_EM_T v 0); cbn; try reflexivity; lra.
Qed.
Lemma mul_fm v : b_mul (fin v) MInf = if rltb v 0 then PInf else MInf.
Proof.
  unfold b_mul. cbn [infinite is_plus is_minus orb t_pos t_neg t_zero exact_tests DomainSpec.blt]. rewrite beq0. unfold rltb, reqb.
  destruct (Rlt_dec 0 v), (Rlt_dec v 0), (Req_EM_T v 0); cbn; try reflexivity; lra.
Qed.
Lemma mul_mf v : b_mul MInf (fin v) = if rltb v 0 then PInf else MInf.
Proof.
  unfold b_mul. cbn [infinite is_plus is_minus orb t_pos t_neg t_zero exact_tests DomainSpec.blt]. rewrite beq0. unfold rltb, reqb.
  destruct (Rlt_dec 0 v), (Rlt_dec v 0), (Req_EM_T v 0); cbn; try reflexivity; lra.
Qed.
Lemma mul_ff u v : b_mul (fin u) (fin v) = fin (u * v). Proof. reflexivity. Qed.
Lemma mul_pp : b_mul PInf PInf = PInf. Proof. reflexivity. Qed.
Lemma mul_mm : b_mul MInf MInf = PInf. Proof. reflexivity. Qed.
Lemma mul_pm : b_mul PInf MInf = MInf. Proof. reflexivity. Qed.
Lemma mul_mp : b_mul MInf PInf = MInf. Proof. reflexivity. Qed.
Ltac mulb := rewrite ?mul_fp, ?mul_pf, ?mul_fm, ?mul_mf, ?mul_ff, ?mul_pp, ?mul_mm, ?mul_pm, ?mul_mp; cbn [DomainSpec.blt] in *.
Ltac cases := unfold rltb, reqb in *; repeat match goal with |- context[if ?b then _ else _] => match type of b with sumbool _ _ => destruct b end end.

(** the product lies above one of the four products of the bounds, and below one *)
Lemma mul_low a b c d x y : blt (fin x) a = false -> blt b (fin x) = false -> blt (fin y) c = false -> blt d (fin y) = false ->
  blt (fin (x * y)) (b_mul b d) = false \/ blt (fin (x * y)) (b_mul b c) = false \/ blt (fin (x * y)) (b_mul a d) = false \/ blt (fin (x * y)) (b_mul a c) = false.
Proof.
  intros H1 H2 H3 H4. destruct (Rle_dec 0 y) as [Y|Y].
  - destruct a as [|a|]; [| |discriminate H1].
    + right; right; left. destruct d as [|d|]; [discriminate H4| |]; mulb; [|reflexivity]. rb. cases; solve [lra|reflexivity].
    + cbn [DomainSpec.blt] in H1. rb. destruct (Rle_dec 0 a) as [A|A].
      * right; right; right. destruct c as [|c|]; [| |discriminate H3]; mulb.
        { cases; solve [lra|reflexivity]. } { rb. nra. }
      * right; right; left. destruct d as [|d|]; [discriminate H4| |]; mulb.
        { rb. nra. } { cases; solve [lra|reflexivity]. }
  - destruct b as [|b|]; [discriminate H2| |].
    + cbn [DomainSpec.blt] in H2. rb. destruct (Rle_dec 0 b) as [A|A].
      * right; left. destruct c as [|c|]; [| |discriminate H3]; mulb.
        { cases; solve [lra|reflexivity]. } { rb. nra. }
      * left. destruct d as [|d|]; [discriminate H4| |]; mulb.
        { rb. nra. } { cases; solve [lra|reflexivity]. }
    + right; left. destruct c as [|c|]; [| |discriminate H3]; mulb; [reflexivity|]. rb. cases; solve [lra|reflexivity].
Qed.
Lemma mul_high a b c d x y : blt (fin x) a = false -> blt b (fin x) = false -> blt (fin y) c = false -> blt d (fin y) = false ->
  blt (b_mul b d) (fin (x * y)) = false \/ blt (b_mul b c) (fin (x * y)) = false \/ blt (b_mul a d) (fin (x * y)) = false \/ blt (b_mul a c) (fin (x * y)) = false.
Proof.
  intros H1 H2 H3 H4. destruct (Rle_dec 0 y) as [Y|Y].
  - destruct b as [|b|]; [discriminate H2| |].
    + cbn [DomainSpec.blt] in H2. rb. destruct (Rle_dec 0 b) as [A|A].
      * left. destruct d as [|d|]; [discriminate H4| |]; mulb.
        { rb. nra. } { cases; solve [lra|reflexivity]. }
      * right; left. destruct c as [|c|]; [| |discriminate H3]; mulb.
        { cases; solve [lra|reflexivity]. } { rb. nra. }
    + left. destruct d as [|d|]; [discriminate H4| |]; mulb; [|reflexivity]. rb. cases; solve [lra|reflexivity].
  - destruct a as [|a|]; [| |discriminate H1].
    + right; right; right. destruct c as [|c|]; [| |discriminate H3]; mulb; [reflexivity|]. rb. cases; solve [lra|reflexivity].
    + cbn [DomainSpec.blt] in H1. rb. destruct (Rle_dec 0 a) as [A|A].
      * right; right; left. destruct d as [|d|]; [discriminate H4| |]; mulb.
        { rb. nra. } { cases; solve [lra|reflexivity]. }
      * right; right; right. destruct c as [|c|]; [| |discriminate H3]; mulb.
        { cases; solve [lra|reflexivity]. } { rb. nra. }
Qed.
Lemma i_mul_ok i j k x y : i_mul i j = Ok k -> inI x i -> inI y j -> inI (x * y) k /\ valid k.
Proof.
  unfold i_mul. intros H Hx Hy. destruct (is_zero i || is_zero j) eqn:Z.
  - injection H as <-. split; [|apply single_valid]. replace (x * y) with 0; [apply single_in|].
    apply orb_true_iff in Z as [Z|Z]; [rewrite (zero_case _ _ Z Hx)|rewrite (zero_case _ _ Z Hy)]; ring.
  - apply mk_ok in H as [-> V]. split; [|exact V]. destruct Hx as [H1 H2], Hy as [H3 H4]. split; cbn [ileft iright].
    + destruct (min_of_le [b_mul (iright i) (ileft j); b_mul (ileft i) (iright j); b_mul (ileft i) (ileft j)] (b_mul (iright i) (iright j))) as [M1 M2].
      rewrite !Forall_cons_iff in M2. destruct M2 as (M2 & M3 & M4 & _).
      destruct (mul_low _ _ _ _ _ _ H1 H2 H3 H4) as [L|[L|[L|L]]]; (eapply ble_tr; [|exact L]); assumption.
    + destruct (max_of_ge [b_mul (iright i) (ileft j); b_mul (ileft i) (iright j); b_mul (ileft i) (ileft j)] (b_mul (iright i) (iright j))) as [M1 M2].
      rewrite !Forall_cons_iff in M2. destruct M2 as (M2 & M3 & M4 & _).
      destruct (mul_high _ _ _ _ _ _ H1 H2 H3 H4) as [L|[L|[L|L]]]; (eapply ble_tr; [exact L|]); assumption.
Qed.
(** ** Inverses *)
Lemma inv_fin v : inv (fin v) = fin (1 / v). Proof. reflexivity. Qed.
Lemma i_inv_ok i k x : valid i -> i_inv i = Ok k -> inI x i -> x <> 0 -> inI (1 / x) k.
Proof.
  intros V H Hx H0. unfold i_inv in H. destruct (is_zero i) eqn:Z; [discriminate|]. destruct (is_single i) eqn:S1.
  { injection H as <-. rewrite (single_case _ _ S1 Hx). apply single_in. }
  assert (P1 : 0 < x -> 0 < 1 / x) by (intros; apply Rdiv_lt_0_compat; lra).
  assert (P2 : x < 0 -> 1 / x < 0) by (intros; unfold Rdiv; rewrite Rmult_1_l; now apply Rinv_lt_0_compat).
  assert (M1 : forall v, 0 < v -> v <= x -> 1 / x <= 1 / v) by (intros v Hv Hvx; unfold Rdiv; rewrite !Rmult_1_l; apply Rinv_le_contravar; lra).
  assert (M2 : forall v, 0 < x -> x <= v -> 1 / v <= 1 / x) by (intros v Hv Hvx; unfold Rdiv; rewrite !Rmult_1_l; apply Rinv_le_contravar; lra).
  assert (M3 : forall v, x < 0 -> v <= x -> 1 / x <= 1 / v).
  { intros v Hv Hvx. unfold Rdiv. rewrite !Rmult_1_l. apply Ropp_le_cancel. rewrite <- !Rinv_opp. apply Rinv_le_contravar; lra. }
  assert (M4 : forall v, v < 0 -> x <= v -> 1 / v <= 1 / x).
  { intros v Hv Hvx. unfold Rdiv. rewrite !Rmult_1_l. apply Ropp_le_cancel. rewrite <- !Rinv_opp. apply Rinv_le_contravar; lra. }
  destruct i as [a b]. destruct V as (V1 & V2 & V3). destruct Hx as [Hl Hr]. cbn [ileft iright] in *. unfold is_infinite, infinite in H. cbn [ileft iright] in H.
  destruct a as [|a|]; [| |congruence]; destruct b as [|b|]; try congruence;
    cbn [t_pos t_neg t_zero exact_tests is_plus is_minus orb DomainSpec.blt negb] in H, Hl, Hr, V1.
  - (* up to b *)
    destruct (rltb b 0) eqn:B.
    + apply mk_ok in H as [-> _]. rewrite inv_fin. split; cbn [ileft iright DomainSpec.blt]; rb; [now apply M4|]. left. apply P2. lra.
    + cbn [orb] in H. unfold beq at 1 in H. cbn [DomainSpec.blt negb andb orb] in H. rewrite beq0 in H. destruct (reqb b 0) eqn:B0.
      * apply mk_ok in H as [-> _]. apply reqb_iff in B0. split; cbn [ileft iright DomainSpec.blt]; [reflexivity|]. rb. change (1 / x <= 0). left. apply P2. lra.
      * apply mk_ok in H as [-> _]. split; reflexivity.
  - apply mk_ok in H as [-> _]. split; reflexivity.
  - (* bounded *)
    destruct (rltb 0 a) eqn:A; [|destruct (rltb b 0) eqn:B]; cbn [orb] in H.
    + apply mk_ok in H as [-> _]. rewrite !inv_fin. split; cbn [ileft iright DomainSpec.blt]; rb; [apply M2; lra|apply M1; lra].
    + apply mk_ok in H as [-> _]. rewrite !inv_fin. split; cbn [ileft iright DomainSpec.blt]; rb; [apply M4; lra|apply M3; lra].
    + rewrite !beq0 in H. destruct (reqb a 0) eqn:A0; [|destruct (reqb b 0) eqn:B0]; cbn [orb] in H.
      * apply reqb_iff in A0. subst a. replace (rltb 0 0) with false in H by (symmetry; rb; lra). cbn [negb] in H. apply mk_ok in H as [-> _].
        rewrite inv_fin. split; cbn [ileft iright DomainSpec.blt]; [|reflexivity]. rb. apply M2; lra.
      * apply reqb_iff in B0. subst b. assert (a < 0).
        { apply rltb_niff in A. destruct A as [A|A]; [exact A|]. assert (reqb a 0 = true) by now apply reqb_iff. congruence. }
        replace (rltb a 0) with true in H by (symmetry; rb; lra). cbn [negb] in H. apply mk_ok in H as [-> _].
        rewrite inv_fin. split; cbn [ileft iright DomainSpec.blt]; [reflexivity|]. rb. apply M3; lra.
      * apply mk_ok in H as [-> _]. split; reflexivity.
  - (* from a *)
    destruct (rltb 0 a) eqn:A; cbn [orb] in H.
    + replace (rltb a 0) with false in H by (symmetry; rb; lra). cbn [negb] in H. apply mk_ok in H as [-> _].
      rewrite inv_fin. split; cbn [ileft iright DomainSpec.blt]; rb; [|apply M1; lra]. change (0 <= 1 / x). left. apply P1. lra.
    + rewrite beq0 in H. unfold beq in H. cbn [DomainSpec.blt negb andb orb] in H. rewrite orb_false_r in H. destruct (reqb a 0) eqn:A0.
      * apply reqb_iff in A0. subst a. replace (rltb 0 0) with false in H by (symmetry; rb; lra). cbn [negb] in H. apply mk_ok in H as [-> _].
        split; cbn [ileft iright DomainSpec.blt]; [|reflexivity]. rb. change (0 <= 1 / x). left. apply P1. lra.
      * apply mk_ok in H as [-> _]. split; reflexivity.
Qed.
Lemma i_inv_valid i k : i_inv i = Ok k -> valid k.
Proof.
  unfold i_inv. intros H. repeat match type of H with (if ?b then _ else _) = _ => destruct b end; try discriminate; try (now apply mk_ok in H as [_ H]).
  injection H as <-. apply single_valid.
Qed.
Lemma i_mul_valid i j k : i_mul i j = Ok k -> valid k.
Proof. unfold i_mul. destruct (is_zero i || is_zero j); intros H; [injection H as <-; apply single_valid|now apply mk_ok in H as [_ H]]. Qed.
Lemma i_div_ok i j k x y : valid j -> i_div i j = Ok k -> inI x i -> inI y j -> y <> 0 -> inI (x / y) k.
Proof.
  unfold i_div. intros V. destruct (i_inv j) as [m| | |] eqn:E; cbn [obind]; try discriminate. intros H Hx Hy H0.
  replace (x / y) with (x * (1 / y)) by (field; exact H0). apply (i_mul_ok _ _ _ _ _ H Hx). now apply (i_inv_ok j).
Qed.
Lemma i_div_valid i j k : i_div i j = Ok k -> valid k.
Proof. unfold i_div. destruct (i_inv j); cbn [obind]; try discriminate. apply i_mul_valid. Qed.
Lemma i_sub_valid i j k : i_sub i j = Ok k -> valid k.
Proof. unfold i_sub. destruct (i_neg j); cbn [obind]; try discriminate. intros H. now apply mk_ok in H as [_ H]. Qed.

(** * Domains *)
Definition disjoint (i j : @interval RN) : Prop := before i j \/ before j i.
Lemma before_ilt i j : valid i -> before i j -> ilt i j = true.
Proof.
  intros (V & _) B. unfold ilt. cbn [t_lt t_eq exact_tests]. replace (blt (ileft i) (ileft j)) with true; [reflexivity|]. symmetry. now apply (ble_lt_tr _ (iright i)).
Qed.
Lemma before_nilt i j : valid i -> before i j -> ilt j i = false.
Proof.
  intros (V & _) B. assert (L : blt (ileft i) (ileft j) = true) by now apply (ble_lt_tr _ (iright i)). unfold ilt. cbn [t_lt t_eq exact_tests].
  rewrite (blt_asym _ _ L). unfold beq. rewrite L. cbn [negb]. now rewrite andb_false_r.
Qed.
Lemma before_tr i j k : valid j -> before i j -> before j k -> before i k.
Proof. intros (V & _) H1 H2. unfold before. apply (blt_tr _ (ileft j)); [exact H1|]. now apply (ble_lt_tr _ (iright j)). Qed.
Lemma good_cons i d : good (i :: d) <-> valid i /\ good d /\ Forall (before i) d.
Proof.
  unfold good. split.
  - intros [H1 H2]. inversion H1; inversion H2; subst. auto.
  - intros (H1 & [H2 H3] & H4). split; constructor; auto.
Qed.
Lemma good_app a b : good (a ++ b) <-> good a /\ good b /\ Forall (fun i => Forall (before i) b) a.
Proof.
  induction a as [|i a IH]; cbn [app].
  - split; [intros H; split; [split; constructor|split; [exact H|constructor]]|intros (_ & H & _); exact H].
  - rewrite !good_cons, IH, Forall_app, Forall_cons_iff. tauto.
Qed.
Lemma set_ins_ok i d : valid i -> good d -> Forall (disjoint i) d -> good (set_ins i d) /\ forall x, inI x i \/ mem x d -> mem x (set_ins i d).
Proof.
  intros V. induction d as [|j d IH]; intros G Hd; cbn [set_ins].
  - split; [apply good_cons; split; [exact V|split; [exact G|constructor]]|]. intros x [H|H]; [now constructor|inversion H].
  - apply good_cons in G as (Vj & G & B). inversion Hd as [|? ? H1 H2]; subst. destruct H1 as [H1|H1].
    + rewrite (before_nilt _ _ V H1), (before_ilt _ _ V H1). split.
      * apply good_cons. split; [exact V|]. split; [now apply good_cons|]. constructor; [exact H1|]. eapply Forall_impl; [|exact B]. intros k Hk. now apply (before_tr _ j).
      * intros x [H|H]; [now constructor|now apply Exists_cons_tl].
    + rewrite (before_ilt _ _ Vj H1). destruct (IH G H2) as [G' M]. split.
      * apply good_cons. split; [exact Vj|]. split; [exact G'|]. clear - B H1. induction d as [|k d IH]; cbn [set_ins]; [now constructor|].
        inversion B; subst. destruct (ilt k i); [constructor; auto|]. destruct (ilt i k); [constructor; auto|auto].
      * intros x [H|H]; [apply Exists_cons_tl, M; auto|]. inversion H; subst; [now constructor|apply Exists_cons_tl, M; auto].
Qed.
Lemma span_lt_ok i d : forall a b, span_lt i d = (a, b) -> d = a ++ b /\ Forall (fun j => ilt j i = true) a /\ match b with [] => True | j :: _ => ilt j i = false end.
Proof.
  induction d as [|j d IH]; cbn [span_lt]; intros a b H; [injection H as <- <-; auto|]. destruct (ilt j i) eqn:E.
  - destruct (span_lt i d) as [a' b']. injection H as <- <-. destruct (IH a' b' eq_refl) as (H1 & H2 & H3). subst d. auto.
  - injection H as <- <-. auto.
Qed.
Lemma last_in {A} (l : list A) x : l <> [] -> In (last l x) l.
Proof. induction l as [|y l IH]; intros H; [congruence|]. destruct l as [|z l]; [now left|]. right. apply IH. discriminate. Qed.
Lemma good_last d x j : good d -> In j d -> j = last d x \/ before j (last d x).
Proof.
  induction d as [|i d IH]; intros G Hin; [destruct Hin|]. apply good_cons in G as (V & G & B). destruct d as [|k d].
  - destruct Hin as [<-|[]]. now left.
  - change (last (i :: k :: d) x) with (last (k :: d) x). destruct Hin as [<-|Hin].
    + right. rewrite Forall_forall in B. apply B. apply last_in. discriminate.
    + now apply IH.
Qed.
Lemma hit_cons i d first d0 : d = first :: d0 -> hit i d =
  if t_gt (ileft first) (iright i) then Ok None
  else if t_lt (iright (last d first)) (ileft i) then Ok None
  else
    let '(a, b) := span_lt i d in
    let back := match rev a with [] => UB | j :: ra => Ok (j, rev ra ++ b) end in
    do p <- match b with [] => back | j :: b' => if t_gt (ileft j) (iright i) then back else Ok (j, a ++ b') end;
    if t_lt (iright (fst p)) (ileft i) then Ok None else Ok (Some p).
Proof. intros ->. reflexivity. Qed.
Lemma hit_ok i d : valid i -> good d ->
  (hit i d = Ok None /\ Forall (disjoint i) d) \/
  exists j d', hit i d = Ok (Some (j, d')) /\ valid j /\ good d' /\ length d = S (length d') /\ forall x, mem x d -> inI x j \/ mem x d'.
Proof.
  intros V G. destruct d as [|first d0] eqn:Ed; [left; split; [reflexivity|constructor]|]. rewrite <- Ed in *. rewrite (hit_cons i d first d0 Ed).
  assert (Hmid : forall a j b, d = a ++ j :: b -> valid j /\ good (a ++ b) /\ length d = S (length (a ++ b)) /\ forall x, mem x d -> inI x j \/ mem x (a ++ b)).
  { intros a j b ->. apply good_app in G as (Ga & Gb & B). apply good_cons in Gb as (Vj & Gb & Bj). split; [exact Vj|]. split.
    - apply good_app. split; [exact Ga|]. split; [exact Gb|]. eapply Forall_impl; [|exact B]. intros k Hk. now inversion Hk.
    - split; [rewrite !app_length; cbn [length]; lia|]. intros x H. apply Exists_app in H as [H|H]; [right; apply Exists_app; now left|].
      inversion H; subst; [now left|right; apply Exists_app; now right]. }
  cbn [t_gt t_lt exact_tests]. destruct (blt (iright i) (ileft first)) eqn:E1.
  { left. split; [reflexivity|]. rewrite Ed in G |- *. apply good_cons in G as (Vf & G & B). constructor; [now left|].
    eapply Forall_impl; [|exact B]. intros k Hk. left. now apply (before_tr i first). }
  destruct (blt (iright (last d first)) (ileft i)) eqn:E2.
  { left. split; [reflexivity|]. apply Forall_forall. intros k Hk. right. destruct (good_last d first k G Hk) as [->|H]; [exact E2|].
    apply (before_tr k (last d first) i); [|exact H|exact E2]. destruct G as [G _]. rewrite Forall_forall in G. apply G. apply last_in. rewrite Ed. discriminate. }
  destruct (span_lt i d) as [a b] eqn:Es. destruct (span_lt_ok _ _ _ _ Es) as (Hd & Ha & Hb).
  (* going back one step *)
  assert (Hback : Forall (fun j => blt (iright i) (ileft j) = true) b ->
    let o := (do p <- match rev a with [] => UB | j :: ra => Ok (j, rev ra ++ b) end; if blt (iright (fst p)) (ileft i) then Ok None else Ok (Some p)) in
    (o = Ok None /\ Forall (disjoint i) d) \/
    exists j d', o = Ok (Some (j, d')) /\ valid j /\ good d' /\ length d = S (length d') /\ forall x, mem x d -> inI x j \/ mem x d').
  { intros Hbb. cbn zeta. destruct (rev a) as [|j ra] eqn:Er.
    - apply (f_equal (@rev _)) in Er. rewrite rev_involutive in Er. cbn [rev] in Er. subst a. exfalso. rewrite Ed in Hd. cbn [app] in Hd. rewrite <- Hd in Hbb.
      inversion Hbb; subst. congruence.
    - apply (f_equal (@rev _)) in Er. rewrite rev_involutive in Er. cbn [rev] in Er. cbn [obind fst]. rewrite Er, <- app_assoc in Hd. cbn [app] in Hd.
      destruct (blt (iright j) (ileft i)) eqn:E3.
      + left. split; [reflexivity|]. rewrite Hd. rewrite Hd in G. apply good_app in G as (Ga & Gb & B). apply good_cons in Gb as (Vj & Gb & Bj).
        apply Forall_app. split; [|constructor].
        * eapply Forall_impl; [|exact B]. intros k Hk. right. inversion Hk; subst. now apply (before_tr k j i).
        * now right.
        * eapply Forall_impl; [|exact Hbb]. intros k Hk. now left.
      + right. exists j, (rev ra ++ b). split; [reflexivity|]. now apply Hmid. }
  destruct b as [|j b'].
  - apply Hback. constructor.
  - destruct (blt (iright i) (ileft j)) eqn:E3.
    + apply Hback. rewrite Hd in G. apply good_app in G as (_ & Gb & _). apply good_cons in Gb as (Vj & Gb & Bj). constructor; [exact E3|].
      eapply Forall_impl; [|exact Bj]. intros k Hk. now apply (before_tr i j k).
    + cbn [obind fst]. destruct (Hmid a j b' Hd) as (Vj & H2 & H3 & H4).
      replace (blt (iright j) (ileft i)) with false.
      * right. exists j, (a ++ b'). auto.
      * symmetry. apply (ble_tr (ileft i) (ileft j)); [|apply Vj]. unfold ilt in Hb. cbn [t_lt exact_tests] in Hb. now apply orb_false_iff in Hb as [Hb _].
Qed.
Lemma merge_ok i j : valid i -> valid j -> valid (i_merge i j) /\ forall x, inI x i \/ inI x j -> inI x (i_merge i j).
Proof.
  intros (V1 & V2 & V3) (W1 & W2 & W3). unfold i_merge. cbn [t_lt t_gt exact_tests].
  assert (L1 : blt (ileft i) (if blt (ileft j) (ileft i) then ileft j else ileft i) = false) by (destruct (blt (ileft j) (ileft i)) eqn:E; [now apply blt_asym|apply blt_irr]).
  assert (L2 : blt (ileft j) (if blt (ileft j) (ileft i) then ileft j else ileft i) = false) by (destruct (blt (ileft j) (ileft i)) eqn:E; [apply blt_irr|exact E]).
  assert (R1 : blt (if blt (iright i) (iright j) then iright j else iright i) (iright i) = false) by (destruct (blt (iright i) (iright j)) eqn:E; [now apply blt_asym|apply blt_irr]).
  assert (R2 : blt (if blt (iright i) (iright j) then iright j else iright i) (iright j) = false) by (destruct (blt (iright i) (iright j)) eqn:E; [apply blt_irr|exact E]).
  split.
  - unfold valid. cbn [ileft iright]. split; [|split; [destruct (blt (ileft j) (ileft i)); assumption|destruct (blt (iright i) (iright j)); assumption]].
    eapply ble_tr; [exact L1|]. eapply ble_tr; [exact V1|exact R1].
  - intros x [[H1 H2]|[H1 H2]]; split; cbn [ileft iright].
    + eapply ble_tr; [exact L1|exact H1]. + eapply ble_tr; [exact H2|exact R1].
    + eapply ble_tr; [exact L2|exact H1]. + eapply ble_tr; [exact H2|exact R2].
Qed.
Lemma add_rounds_ok fuel : forall i d, valid i -> good d -> (length d < fuel)%nat ->
  exists d', add_rounds fuel i d = Ok d' /\ dom_ok d' /\ forall x, inI x i \/ mem x d -> mem x d'.
Proof.
  induction fuel as [|fuel IH]; intros i d V G L; [lia|]. cbn [add_rounds]. destruct d as [|i0 d0] eqn:Ed.
  - exists [i]. split; [reflexivity|]. split; [split; [apply good_cons; split; [exact V|split; [exact G|constructor]]|discriminate]|]. intros x [H|H]; [now constructor|inversion H].
  - rewrite <- Ed in *. destruct (is_minus (ileft i) && is_plus (iright i)).
    + exists [line]. split; [reflexivity|]. split; [|intros x _; constructor; apply line_in]. split; [|discriminate]. apply good_cons. split; [apply line_valid|]. split; [split; constructor|constructor].
    + destruct (hit_ok i d V G) as [[-> Hd]|(j & d' & -> & Vj & G' & L' & M)]; cbn [obind].
      * destruct (set_ins_ok i d V G Hd) as [G' M]. eexists. split; [reflexivity|]. split; [|exact M]. split; [exact G'|]. rewrite Ed. cbn [set_ins]. destruct (ilt i0 i); [|destruct (ilt i i0)]; discriminate.
      * destruct (merge_ok i j V Vj) as [Vm Mm]. destruct (IH (i_merge i j) d' Vm G') as (r & E & D & Mr); [lia|]. exists r. split; [exact E|]. split; [exact D|].
        intros x [H|H]; [apply Mr; left; apply Mm; now left|]. destruct (M x H) as [H'|H']; apply Mr; [left; apply Mm; now right|now right].
Qed.
Lemma add_interval_ok i d : valid i -> good d -> exists d', add_interval i d = Ok d' /\ dom_ok d' /\ forall x, inI x i \/ mem x d -> mem x d'.
Proof. intros V G. apply add_rounds_ok; auto. Qed.
Lemma add_domain_ok e : forall d, good e -> good d -> exists d', add_domain d e = Ok d' /\ good d' /\ (d <> [] -> d' <> []) /\ forall x, mem x d \/ mem x e -> mem x d'.
Proof.
  induction e as [|i e IH]; intros d Ge Gd; cbn [add_domain].
  - exists d. repeat split; auto; try apply Gd. intros x [H|H]; [exact H|inversion H].
  - apply good_cons in Ge as (V & Ge & _). destruct (add_interval_ok i d V Gd) as (d1 & -> & [G1 N1] & M1). cbn [obind].
    destruct (IH d1 Ge G1) as (d2 & E & G2 & N2 & M2). exists d2. split; [exact E|]. split; [exact G2|]. split; [auto|].
    intros x [H|H]; [apply M2; left; apply M1; now right|]. inversion H; subst; apply M2; [left; apply M1; now left|now right].
Qed.
Lemma good_nil : good []. Proof. split; constructor. Qed.

Section Lift.
Variables (f : @interval RN -> @interval RN -> outcome (@interval RN)) (g : R -> R -> R) (P : R -> Prop).
Hypothesis f_valid : forall i j k, f i j = Ok k -> valid k.
Hypothesis f_ok : forall i j k x y, valid i -> valid j -> f i j = Ok k -> inI x i -> inI y j -> P y -> inI (g x y) k.
Lemma over_right_ok i e : forall acc r, good e -> good acc -> over_right f i e acc = Ok r ->
  good r /\ (acc <> [] \/ e <> [] -> r <> []) /\ (forall z, mem z acc -> mem z r) /\ (valid i -> forall x y, inI x i -> mem y e -> P y -> mem (g x y) r).
Proof.
  induction e as [|j e IH]; intros acc r Ge Ga H; cbn [over_right] in H.
  - injection H as <-. split; [exact Ga|]. split; [intros [H|H]; congruence|]. split; [auto|]. intros _ x y _ Hy. inversion Hy.
  - apply good_cons in Ge as (V & Ge & _). destruct (f i j) as [k| | |] eqn:Ef; cbn [obind] in H; try discriminate.
    destruct (add_interval_ok k acc (f_valid _ _ _ Ef) Ga) as (acc' & E & [G1 N1] & M1). rewrite E in H. cbn [obind] in H.
    destruct (IH acc' r Ge G1 H) as (G2 & N2 & M2 & M3). split; [exact G2|]. split; [auto|]. split; [intros z Hz; apply M2, M1; now right|].
    intros Vi x y Hx Hy Py. inversion Hy; subst; [apply M2, M1; left; now apply (f_ok i j)|now apply M3].
Qed.
Lemma over_pairs_ok d : forall e acc r, good d -> good e -> good acc -> over_pairs f d e acc = Ok r ->
  good r /\ (acc <> [] \/ d <> [] /\ e <> [] -> r <> []) /\ (forall z, mem z acc -> mem z r) /\ (forall x y, mem x d -> mem y e -> P y -> mem (g x y) r).
Proof.
  induction d as [|i d IH]; intros e acc r Gd Ge Ga H; cbn [over_pairs] in H.
  - injection H as <-. split; [exact Ga|]. split; [intros [H|[H _]]; congruence|]. split; [auto|]. intros x y Hx. inversion Hx.
  - apply good_cons in Gd as (V & Gd & _). destruct (over_right f i e acc) as [acc'| | |] eqn:E; cbn [obind] in H; try discriminate.
    destruct (over_right_ok i e acc acc' Ge Ga E) as (G1 & N1 & M1 & M2). destruct (IH e acc' r Gd Ge G1 H) as (G2 & N2 & M3 & M4).
    split; [exact G2|]. split; [|split].
    + intros [Ha|[_ He]]; apply N2; left; apply N1; auto.
    + auto.
    + intros x y Hx Hy Py. inversion Hx; subst; [apply M3; now apply M2|now apply M4].
Qed.
Lemma lift2_ok d e r : dom_ok d -> dom_ok e -> lift2 f d e = Ok r -> dom_ok r /\ forall x y, mem x d -> mem y e -> P y -> mem (g x y) r.
Proof.
  intros [Gd Nd] [Ge Ne] H. destruct (over_pairs_ok d e [] r Gd Ge good_nil H) as (G & Nn & _ & M). split; [|exact M]. split; [exact G|]. apply Nn. now right.
Qed.
End Lift.
Lemma over_all_ok (f : @interval RN -> outcome (@interval RN)) (g : R -> R) : (forall i k, f i = Ok k -> valid k) -> (forall i k x, f i = Ok k -> inI x i -> inI (g x) k) ->
  forall d acc r, good d -> good acc -> over_all f d acc = Ok r ->
  good r /\ (acc <> [] \/ d <> [] -> r <> []) /\ (forall z, mem z acc -> mem z r) /\ (forall x, mem x d -> mem (g x) r).
Proof.
  intros Hv Hf. induction d as [|i d IH]; intros acc r Gd Ga H; cbn [over_all] in H.
  - injection H as <-. split; [exact Ga|]. split; [intros [H|H]; congruence|]. split; [auto|]. intros x Hx. inversion Hx.
  - apply good_cons in Gd as (V & Gd & _). destruct (f i) as [k| | |] eqn:Ef; cbn [obind] in H; try discriminate.
    destruct (add_interval_ok k acc (Hv _ _ Ef) Ga) as (acc' & E & [G1 N1] & M1). rewrite E in H. cbn [obind] in H.
    destruct (IH acc' r Gd G1 H) as (G2 & N2 & M2 & M3). split; [exact G2|]. split; [auto|]. split; [intros z Hz; apply M2, M1; now right|].
    intros x Hx. inversion Hx; subst; [apply M2, M1; left; now apply (Hf i)|now apply M3].
Qed.
Lemma add_all_ok l : forall acc r, good acc -> add_all l acc = Ok r ->
  good r /\ (acc <> [] \/ l <> [] -> r <> []) /\ (forall z, mem z acc -> mem z r) /\ (forall x : R, In x l -> mem x r).
Proof.
  induction l as [|v l IH]; intros acc r Ga H; cbn [add_all] in H.
  - injection H as <-. split; [exact Ga|]. split; [intros [H|H]; congruence|]. split; [auto|]. intros x [].
  - destruct (add_interval_ok (single v) acc (single_valid v) Ga) as (acc' & E & [G1 N1] & M1). rewrite E in H. cbn [obind] in H.
    destruct (IH acc' r G1 H) as (G2 & N2 & M2 & M3). split; [exact G2|]. split; [auto|]. split; [intros z Hz; apply M2, M1; now right|].
    intros x [<-|Hx]; [apply M2, M1; left; apply single_in|now apply M3].
Qed.
Lemma singles_in d : forall l (x : R), singles d = Some l -> mem x d -> In x l.
Proof.
  induction d as [|i d IH]; intros l x H Hx; [inversion Hx|]. cbn [singles] in H. destruct (is_single i) eqn:E; [|discriminate].
  destruct (singles d) as [l'|]; [|discriminate]. injection H as <-. inversion Hx; subst; [left; now apply (single_case i)|right; now apply IH].
Qed.
Lemma get_singles_in d (x : R) : get_singles d <> [] -> mem x d -> In x (get_singles d).
Proof. unfold get_singles. destruct (singles d) eqn:E; [|congruence]. intros _. now apply singles_in. Qed.
Lemma apply1_ok f range d r : valid range -> apply1 f range d = Ok r -> dom_ok r /\ forall x : R, mem x d -> inI (f x) range -> mem (f x) r.
Proof.
  intros V H. unfold apply1 in H. destruct (get_singles d) as [|v l] eqn:E.
  - injection H as <-. split; [split; [|discriminate]|]; [apply good_cons; split; [exact V|split; [apply good_nil|constructor]]|]. intros x _ Hi. now constructor.
  - destruct (add_all_ok _ _ _ good_nil H) as (G & Nn & _ & M). split; [split; [exact G|apply Nn; right; discriminate]|].
    intros x Hx _. apply M. apply in_map. rewrite <- E. apply get_singles_in; [rewrite E; discriminate|exact Hx].
Qed.
Lemma apply2_ok f range d e r : valid range -> apply2 f range d e = Ok r -> dom_ok r /\ forall x y : R, mem x d -> mem y e -> inI (f x y) range -> mem (f x y) r.
Proof.
  intros V H. unfold apply2 in H.
  assert (Hr : forall r, Ok [range] = Ok r -> dom_ok r /\ forall x y : R, mem x d -> mem y e -> inI (f x y) range -> mem (f x y) r).
  { intros r0 H0. injection H0 as <-. split; [split; [|discriminate]|]; [apply good_cons; split; [exact V|split; [apply good_nil|constructor]]|]. intros x y _ _ Hi. now constructor. }
  destruct (get_singles d) as [|v l] eqn:E; [now apply Hr|]. destruct (get_singles e) as [|w m] eqn:E2; [now apply Hr|].
  destruct (add_all_ok _ _ _ good_nil H) as (G & Nn & _ & M). split; [split; [exact G|apply Nn; right; discriminate]|].
  intros x y Hx Hy _. apply M. apply in_flat_map. exists x. split; [rewrite <- E; apply get_singles_in; [rewrite E; discriminate|exact Hx]|].
  apply in_map. rewrite <- E2. apply get_singles_in; [rewrite E2; discriminate|exact Hy].
Qed.
End Real.
