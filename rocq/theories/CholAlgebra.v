(** Cholesky decomposition with regularisation: which matrix the factor stands for, how far it is from the original, and when all pivots are positive. *)
From Coq Require Import Reals List Arith Lia Lra Psatz Bool.
From Verif Require Import Base Vec LinNum BandSpec BandProofs CholModel CholSpec CholProofs.
Import ListNotations.
Local Open Scope R_scope.

Lemma sum_swap n m f : sum n (fun i => sum m (fun j => f i j)) = sum m (fun j => sum n (fun i => f i j)).
Proof.
  induction n as [|n IH]; cbn [sum]; [rewrite sum_zero; reflexivity|]. rewrite IH, <- sum_plus. reflexivity.
Qed.
Lemma sum_scal_r n c f : sum n (fun j => f j * c) = sum n f * c.
Proof. rewrite (sum_ext n _ (fun j => c * f j)) by (intros; ring). rewrite sum_scal. ring. Qed.
Lemma sum_cut n k f : (k <= n)%nat -> (forall j, (k <= j < n)%nat -> f j = 0) -> sum n f = sum k f.
Proof.
  intros Hk H. induction n as [|n IH]; [replace k with O by lia; reflexivity|]. destruct (Nat.eq_dec k (S n)) as [->|Ne]; [reflexivity|].
  cbn [sum]. rewrite H by lia. rewrite IH; [lra|lia|intros j Hj; apply H; lia].
Qed.
Lemma sum_le n f g : (forall j, (j < n)%nat -> f j <= g j) -> sum n f <= sum n g.
Proof. induction n as [|n IH]; cbn [sum]; intros H; [lra|]. pose proof (H n ltac:(lia)). specialize (IH ltac:(intros; apply H; lia)). lra. Qed.
Lemma sum_pick n k f : (k < n)%nat -> sum n f = f k + sum n (fun j => if (j =? k)%nat then 0 else f j).
Proof.
  intros Hk. rewrite <- (sum_ext n (fun j => (if (j =? k)%nat then f k else 0) + (if (j =? k)%nat then 0 else f j))).
  - rewrite sum_plus, sum_one. apply Nat.ltb_lt in Hk. rewrite Hk. reflexivity.
  - intros j _. destruct (j =? k)%nat eqn:E; [apply Nat.eqb_eq in E; subst j; lra|lra].
Qed.
Lemma sum_term n k f : (k < n)%nat -> (forall j, (j < n)%nat -> 0 <= f j) -> f k <= sum n f.
Proof.
  intros Hk H. rewrite (sum_pick n k f Hk). pose proof (sum_nonneg n (fun j => if (j =? k)%nat then 0 else f j)). cbv beta in H0.
  assert (0 <= sum n (fun j => if (j =? k)%nat then 0 else f j)) by (apply H0; intros j Hj; destruct (j =? k)%nat; [lra|apply H; exact Hj]). lra.
Qed.

Section Algebra.
Variables (n : nat) (a : nat -> nat -> R) (reg : R) (l : nat -> nat -> R).
Hypothesis fac : factor_rows a reg 0 n (average l) l.
Definition rho (p : nat) : R := (reg * average l p) * (reg * average l p).
Lemma rho_nonneg p : 0 <= rho p.
Proof. unfold rho. nra. Qed.
(** the factor in use: the inverses of the stored diagonal *)
Definition full (i j : nat) : R := if (j =? i)%nat then (rho n + l i i * l i i) / l i i else if (j <? i)%nat then l i j else 0.
Definition error (i j : nat) : R :=
  if (i =? j)%nat then 2 * rho n + rho n * rho n / (l i i * l i i)
  else if (j <? i)%nat then l i j * (rho n - rho i) / l j j else l j i * (rho n - rho j) / l i i.

Lemma diag_sq i : (i < n)%nat -> 0 < l i i -> l i i * l i i = a i i - sum i (fun k => l i k * l i k).
Proof.
  intros Hi Hp. destruct (fac i ltac:(lia)) as (_ & D). set (x := a i i - sum i (fun k => l i k * l i k)) in *.
  destruct (Rle_lt_dec x 0) as [H|H].
  - rewrite Rmax_left in D by exact H. rewrite sqrt_0 in D. lra.
  - rewrite Rmax_right in D by lra. rewrite D. apply sqrt_sqrt. lra.
Qed.
Lemma off_need i j : (j < i < n)%nat -> 0 < l j j -> a j i - sum j (fun k => l i k * l j k) = l i j * (l j j * l j j + rho i) / l j j.
Proof.
  intros Hij Hp. destruct (fac i ltac:(lia)) as (O & _). rewrite (O j) by lia. unfold shrunk. fold (rho i).
  pose proof (rho_nonneg i). set (x := a j i - sum j (fun k => l i k * l j k)). assert (0 < l j j * l j j + rho i) by nra. field. split; lra.
Qed.
Lemma gram_full_lower i j : (j <= i < n)%nat -> (forall k, (k < n)%nat -> 0 < l k k) -> gram n full i j = a j i + error i j.
Proof.
  intros Hij Hp. unfold gram, error.
  rewrite (sum_cut n (S j)); [|lia|].
  2:{ intros k Hk. unfold full at 2. replace (k =? j)%nat with false by (symmetry; apply Nat.eqb_neq; lia).
      replace (k <? j)%nat with false by (symmetry; apply Nat.ltb_ge; lia). ring. }
  cbn [sum]. rewrite (sum_ext j _ (fun k => l i k * l j k)).
  2:{ intros k Hk. unfold full. replace (k =? i)%nat with false by (symmetry; apply Nat.eqb_neq; lia). replace (k =? j)%nat with false by (symmetry; apply Nat.eqb_neq; lia).
      replace (k <? i)%nat with true by (symmetry; apply Nat.ltb_lt; lia). replace (k <? j)%nat with true by (symmetry; apply Nat.ltb_lt; lia). reflexivity. }
  unfold full. rewrite Nat.eqb_refl. rewrite (Nat.eqb_sym j i). pose proof (Hp j ltac:(lia)) as Pj. destruct (i =? j)%nat eqn:E.
  - apply Nat.eqb_eq in E. subst j. pose proof (diag_sq i ltac:(lia) Pj) as D.
    replace (a i i) with (l i i * l i i + sum i (fun k => l i k * l i k)) by lra. field. lra.
  - apply Nat.eqb_neq in E. replace (j <? i)%nat with true by (symmetry; apply Nat.ltb_lt; lia).
    pose proof (off_need i j ltac:(lia) Pj) as D. replace (a j i) with (l i j * (l j j * l j j + rho i) / l j j + sum j (fun k => l i k * l j k)) by lra. field. lra.
Qed.
Lemma gram_sym i j : gram n full i j = gram n full j i.
Proof. unfold gram. apply sum_ext. intros. ring. Qed.
Lemma error_sym i j : error i j = error j i.
Proof.
  unfold error. rewrite (Nat.eqb_sym j i). destruct (i =? j)%nat eqn:E; [apply Nat.eqb_eq in E; subst; reflexivity|]. apply Nat.eqb_neq in E.
  destruct (j <? i)%nat eqn:E1; destruct (i <? j)%nat eqn:E2; try reflexivity.
  - apply Nat.ltb_lt in E1, E2. lia.
  - apply Nat.ltb_ge in E1, E2. lia.
Qed.
Lemma gram_full i j : symmetric n a -> (i < n)%nat -> (j < n)%nat -> (forall k, (k < n)%nat -> 0 < l k k) -> gram n full i j = a i j + error i j.
Proof.
  intros Hs Hi Hj Hp. destruct (Nat.le_gt_cases j i) as [H|H].
  - rewrite gram_full_lower by (try assumption; lia). rewrite (Hs j i) by assumption. reflexivity.
  - rewrite gram_sym, gram_full_lower by (try assumption; lia). rewrite error_sym. reflexivity.
Qed.

(** distance from the original *)
Variables (D m : R).
Hypothesis m_pos : 0 < m.
Hypothesis pivots : forall i, (i < n)%nat -> 0 < l i i /\ m <= l i i * l i i.
Hypothesis diag_le : forall i, (i < n)%nat -> a i i <= D.
Lemma entry_le i j : (j <= i < n)%nat -> l i j * l i j <= D.
Proof.
  intros Hij. destruct (pivots i ltac:(lia)) as [Pi _]. pose proof (diag_sq i ltac:(lia) Pi) as Q.
  pose proof (diag_le i ltac:(lia)). assert (Nn : 0 <= sum i (fun k => l i k * l i k)) by (apply sum_nonneg; intros; nra).
  destruct (Nat.eq_dec j i) as [->|Ne]; [lra|]. pose proof (sum_term i j (fun k => l i k * l i k) ltac:(lia) ltac:(intros; nra)). cbv beta in *. nra.
Qed.
Lemma m_le_D i : (i < n)%nat -> m <= D.
Proof. intros Hi. destruct (pivots i Hi). pose proof (entry_le i i ltac:(lia)). lra. Qed.
Lemma average_bound p : (p <= n)%nat -> 0 <= average l p /\ average l p * average l p <= D \/ p = O.
Proof.
  intros Hp. destruct p as [|p]; [right; reflexivity|left]. unfold average.
  assert (Ip : 0 < INR (S p)) by (apply lt_0_INR; lia).
  assert (D0 : 0 <= D) by (pose proof (m_le_D p ltac:(lia)); lra).
  set (s := R_sqrt.sqrt D). assert (Ss : s * s = D) by (apply sqrt_sqrt; exact D0). assert (S0 : 0 <= s) by apply sqrt_pos.
  assert (B : forall k, (k < S p)%nat -> 0 <= l k k <= s).
  { intros k Hk. destruct (pivots k ltac:(lia)) as [Pk _]. pose proof (entry_le k k ltac:(lia)). split; [lra|]. apply Rsqr_incr_0_var; [unfold Rsqr; lra|exact S0]. }
  assert (N : 0 <= sum (S p) (fun k => l k k)) by (apply sum_nonneg; intros k Hk; apply B; exact Hk).
  assert (U : sum (S p) (fun k => l k k) <= s * INR (S p)).
  { clear - B. induction (S p) as [|q IH]; [cbn; lra|]. cbn [sum]. rewrite S_INR. specialize (IH ltac:(intros; apply B; lia)). pose proof (B q ltac:(lia)). lra. }
  assert (A0 : 0 <= sum (S p) (fun k => l k k) / INR (S p)) by (apply Rmult_le_pos; [exact N|left; apply Rinv_0_lt_compat; exact Ip]).
  assert (A1 : sum (S p) (fun k => l k k) / INR (S p) <= s).
  { apply (Rmult_le_reg_r (INR (S p))); [exact Ip|]. unfold Rdiv. rewrite Rmult_assoc, Rinv_l by lra. lra. }
  split; [exact A0|]. nra.
Qed.
Lemma rho_le p : (p <= n)%nat -> (0 < n)%nat -> rho p <= reg * reg * D.
Proof.
  intros Hp Hn. pose proof (m_le_D 0 Hn). assert (0 <= reg * reg) by nra. unfold rho. destruct (average_bound p Hp) as [[_ H1]| ->].
  - replace (reg * average l p * (reg * average l p)) with (reg * reg * (average l p * average l p)) by ring. apply Rmult_le_compat_l; assumption.
  - unfold average. cbn [sum]. unfold Rdiv. rewrite Rmult_0_l, !Rmult_0_r. apply Rmult_le_pos; lra.
Qed.
Lemma ratio_bound x y : 0 < y -> m <= y * y -> x * x <= D -> m <= D -> Rabs (x / y) <= D / m.
Proof.
  intros Hy Hm Hx HmD. assert (Q : (x / y) * (x / y) <= D / m).
  { replace (x / y * (x / y)) with ((x * x) / (y * y)) by (field; lra).
    apply Rle_trans with (D / (y * y)); [apply Rmult_le_compat_r; [left; apply Rinv_0_lt_compat; nra|exact Hx]|].
    apply Rmult_le_compat_l; [lra|]. apply Rinv_le_contravar; assumption. }
  assert (1 <= D / m). { apply (Rmult_le_reg_r m); [exact m_pos|]. unfold Rdiv. rewrite Rmult_assoc, Rinv_l by lra. lra. }
  unfold Rabs. destruct (Rcase_abs _); nra.
Qed.
Lemma error_lower i j : (j <= i < n)%nat -> reg * reg <= 1 -> Rabs (error i j) <= 3 * (reg * reg) * (D * D / m).
Proof.
  intros Hij Hr. unfold error. assert (Hn : (0 < n)%nat) by lia. pose proof (m_le_D 0 Hn) as MD. assert (R0 : 0 <= reg * reg) by nra.
  pose proof (rho_le n ltac:(lia) Hn) as R1. pose proof (rho_le i ltac:(lia) Hn) as R2. pose proof (rho_nonneg n) as R3. pose proof (rho_nonneg i) as R4.
  assert (Q1 : 1 <= D / m). { apply (Rmult_le_reg_r m); [exact m_pos|]. unfold Rdiv. rewrite Rmult_assoc, Rinv_l by lra. lra. }
  assert (QD : D * D / m = D * (D / m)) by (unfold Rdiv; ring). rewrite QD. set (e := reg * reg) in *. set (q := D / m) in *.
  assert (eD : 0 <= e * D) by (apply Rmult_le_pos; lra).
  replace (i =? j)%nat with (j =? i)%nat by apply Nat.eqb_sym. destruct (j =? i)%nat eqn:E.
  - destruct (pivots i ltac:(lia)) as [Pi Mi]. 
    assert (T : rho n * rho n / (l i i * l i i) <= e * D * q).
    { apply Rle_trans with (rho n * rho n / m).
      - apply Rmult_le_compat_l; [nra|]. apply Rinv_le_contravar; assumption.
      - unfold q, Rdiv. rewrite <- Rmult_assoc. apply Rmult_le_compat_r; [left; apply Rinv_0_lt_compat; exact m_pos|].
        apply Rle_trans with (e * D * (e * D)); [apply Rmult_le_compat; lra|]. assert (Z : 0 <= e * D * D) by (apply Rmult_le_pos; lra). replace (e * D * (e * D)) with (e * (e * D * D)) by ring. clearbody e. clear - Z Hr. set (z := e * D * D) in *. clearbody z. nra. }
    assert (T0 : 0 <= rho n * rho n / (l i i * l i i)) by (apply Rmult_le_pos; [nra|left; apply Rinv_0_lt_compat; nra]).
    rewrite Rabs_right by lra. assert (e * D <= e * D * q) by nra. replace (3 * e * (D * q)) with (3 * (e * D * q)) by ring. lra.
  - apply Nat.eqb_neq in E. replace (j <? i)%nat with true by (symmetry; apply Nat.ltb_lt; lia).
    destruct (pivots j ltac:(lia)) as [Pj Mj]. replace (l i j * (rho n - rho i) / l j j) with (l i j / l j j * (rho n - rho i)) by (unfold Rdiv; ring).
    rewrite Rabs_mult. pose proof (ratio_bound (l i j) (l j j) Pj Mj (entry_le i j Hij) MD) as B.
    assert (B2 : Rabs (rho n - rho i) <= e * D) by (unfold Rabs; destruct (Rcase_abs _); lra).
    apply Rle_trans with (q * (e * D)); [apply Rmult_le_compat; try apply Rabs_pos; assumption|]. assert (0 <= q * (e * D)) by (apply Rmult_le_pos; lra). nra.
Qed.
Lemma error_bound i j : (i < n)%nat -> (j < n)%nat -> reg * reg <= 1 -> Rabs (error i j) <= 3 * (reg * reg) * (D * D / m).
Proof.
  intros Hi Hj Hr. destruct (Nat.le_gt_cases j i); [apply error_lower; [lia|exact Hr]|]. rewrite error_sym. apply error_lower; [lia|exact Hr].
Qed.
Lemma rho_pos : (0 < n)%nat -> reg <> 0 -> 0 < rho n.
Proof.
  intros Hn Hr. unfold rho, average. assert (In : 0 < INR n) by (apply lt_0_INR; exact Hn).
  assert (P : 0 < sum n (fun k => l k k)).
  { apply Rlt_le_trans with (l 0%nat 0%nat); [apply pivots; exact Hn|]. apply (sum_term n 0 (fun k => l k k)); [exact Hn|]. intros k Hk. destruct (pivots k Hk). lra. }
  assert (0 < sum n (fun k => l k k) / INR n) by (apply Rdiv_lt_0_compat; assumption). set (x := sum n _ / INR n) in *.
  replace (reg * x * (reg * x)) with (reg * reg * (x * x)) by ring. apply Rmult_lt_0_compat; [exact (Rsqr_pos_lt reg Hr)|apply Rmult_lt_0_compat; assumption].
Qed.
End Algebra.

(** dominance gives positive pivots *)
Section Dominant.
Variables (n : nat) (a : nat -> nat -> R) (reg m : R) (l : nat -> nat -> R).
Hypothesis fac : factor_rows a reg 0 n (average l) l.
Hypothesis m_pos : 0 < m.
Hypothesis sym : symmetric n a.
Hypothesis dom : forall i, (i < n)%nat -> m + sum n (fun j => if (j =? i)%nat then 0 else Rabs (a i j)) <= a i i.
(** what is left of the matrix after k columns *)
Definition rest (k i j : nat) : R := a i j - sum k (fun q => l i q * l j q).
Definition others (k i : nat) (f : nat -> R) : R := sum n (fun j => if (k <=? j)%nat && negb (j =? i)%nat then f j else 0).
Lemma rest_step k i j : rest (S k) i j = rest k i j - l i k * l j k.
Proof. unfold rest. cbn [sum]. ring. Qed.
Lemma rest_sym k i j : (i < n)%nat -> (j < n)%nat -> rest k i j = rest k j i.
Proof. intros Hi Hj. unfold rest. rewrite (sym i j) by assumption. f_equal. apply sum_ext. intros. ring. Qed.
Lemma dominant_step k : (k <= n)%nat ->
  (forall q, (q < k)%nat -> 0 < l q q /\ m <= l q q * l q q) /\
  (forall i, (k <= i < n)%nat -> m + others k i (fun j => Rabs (rest k i j)) <= rest k i i).
Proof.
  induction k as [|k IH]; intros Hk.
  - split; [intros; lia|]. intros i Hi. unfold others, rest. cbn [sum]. rewrite Rminus_0_r. 
    rewrite (sum_ext n _ (fun j => if (j =? i)%nat then 0 else Rabs (a i j))); [apply dom; lia|].
    intros j _. cbn [Nat.leb andb]. destruct (j =? i)%nat; cbn [negb]; [reflexivity|]. f_equal. lra.
  - destruct (IH ltac:(lia)) as [P Q]. clear IH.
    assert (Nn : forall i k f, (forall j, 0 <= f j) -> 0 <= others k i f) by (intros i k' f Hf; apply sum_nonneg; intros j _; destruct (_ && _); [apply Hf|lra]).
    pose proof (Q k ltac:(lia)) as Qk. pose proof (Nn k k (fun j => Rabs (rest k k j)) ltac:(intros; apply Rabs_pos)) as Ok0.
    destruct (fac k ltac:(lia)) as (_ & Dk). fold (rest k k k) in Dk. rewrite Rmax_right in Dk by lra.
    assert (Lk : l k k * l k k = rest k k k) by (rewrite Dk; apply sqrt_sqrt; lra).
    assert (Pk : 0 < l k k) by (rewrite Dk; apply sqrt_lt_R0; lra).
    split. { intros q Hq. destruct (Nat.eq_dec q k) as [->|Ne]; [split; [exact Pk|lra]|apply P; lia]. }
    (* entries of column k *)
    assert (Col : forall i, (k < i < n)%nat -> Rabs (l i k) * l k k <= Rabs (rest k i k)).
    { intros i Hi. destruct (fac i ltac:(lia)) as (Oi & _). specialize (Oi k ltac:(lia)).
      assert (E0 : a k i - sum k (fun q => l i q * l k q) = rest k i k) by (unfold rest; rewrite (sym i k) by lia; reflexivity).
      rewrite E0 in Oi. rewrite Oi. unfold shrunk. set (r := (reg * average l i) * (reg * average l i)). assert (R0 : 0 <= r) by (unfold r; nra).
      replace (rest k i k * l k k / (l k k * l k k + r)) with (rest k i k * (l k k / (l k k * l k k + r))) by (unfold Rdiv; ring).
      assert (Lp : 0 < l k k * l k k) by nra.
      rewrite Rabs_mult, (Rabs_right (l k k / _)) by (apply Rle_ge; apply Rmult_le_pos; [lra|left; apply Rinv_0_lt_compat; lra]).
      rewrite Rmult_assoc. rewrite <- (Rmult_1_r (Rabs (rest k i k))) at 2. apply Rmult_le_compat_l; [apply Rabs_pos|].
      apply (Rmult_le_reg_r (l k k * l k k + r)); [lra|]. unfold Rdiv.
      replace (l k k * / (l k k * l k k + r) * l k k * (l k k * l k k + r)) with (l k k * l k k) by (field; lra). lra. }
    assert (SumCol : others (S k) k (fun j => Rabs (l j k)) <= l k k).
    { assert (others (S k) k (fun j => Rabs (l j k)) * l k k <= others k k (fun j => Rabs (rest k k j))).
      { unfold others. rewrite <- sum_scal_r. apply sum_le. intros j Hj. destruct (Nat.eq_dec j k) as [->|Ne].
        - rewrite Nat.eqb_refl, !andb_false_r. lra.
        - replace (j =? k)%nat with false by (symmetry; apply Nat.eqb_neq; lia). cbn [negb]. rewrite !andb_true_r.
          destruct (Nat.le_gt_cases (S k) j) as [H|H].
          + replace (S k <=? j)%nat with true by (symmetry; apply Nat.leb_le; lia). replace (k <=? j)%nat with true by (symmetry; apply Nat.leb_le; lia).
            rewrite (rest_sym k k j) by lia. apply Col. lia.
          + replace (S k <=? j)%nat with false by (symmetry; apply Nat.leb_gt; lia). replace (k <=? j)%nat with false by (symmetry; apply Nat.leb_gt; lia). lra. }
      assert (others (S k) k (fun j => Rabs (l j k)) * l k k <= l k k * l k k) by lra. apply (Rmult_le_reg_r (l k k)); [exact Pk|lra]. }
    intros i Hi. rewrite rest_step. pose proof (Q i ltac:(lia)) as Qi.
    assert (S1 : others k i (fun j => Rabs (rest k i j)) = Rabs (rest k i k) + others (S k) i (fun j => Rabs (rest k i j))).
    { unfold others. rewrite (sum_pick n k) by lia. rewrite Nat.leb_refl. replace (k =? i)%nat with false by (symmetry; apply Nat.eqb_neq; lia). cbn [negb andb].
      f_equal. apply sum_ext. intros j Hj. destruct (j =? k)%nat eqn:E.
      - apply Nat.eqb_eq in E. subst j. replace (S k <=? k)%nat with false by (symmetry; apply Nat.leb_gt; lia). reflexivity.
      - apply Nat.eqb_neq in E. replace (k <=? j)%nat with (S k <=? j)%nat; [reflexivity|]. apply eq_true_iff_eq. rewrite !Nat.leb_le. lia. }
    assert (S2 : others (S k) i (fun j => Rabs (rest (S k) i j)) <= others (S k) i (fun j => Rabs (rest k i j)) + Rabs (l i k) * others (S k) i (fun j => Rabs (l j k))).
    { unfold others. rewrite <- sum_scal, <- sum_plus. apply sum_le. intros j Hj. destruct (_ && _); [|lra].
      rewrite rest_step. unfold Rminus. eapply Rle_trans; [apply Rabs_triang|]. rewrite Rabs_Ropp, Rabs_mult. lra. }
    assert (S3 : others (S k) k (fun j => Rabs (l j k)) = Rabs (l i k) + others (S k) i (fun j => Rabs (l j k))).
    { unfold others. rewrite (sum_pick n i) by lia. replace (S k <=? i)%nat with true by (symmetry; apply Nat.leb_le; lia).
      replace (i =? k)%nat with false by (symmetry; apply Nat.eqb_neq; lia). cbn [negb andb]. f_equal. apply sum_ext. intros j Hj.
      destruct (j =? i)%nat eqn:E; cbn [negb]; [rewrite andb_false_r; reflexivity|]. destruct (S k <=? j)%nat eqn:E2; cbn [andb]; [|reflexivity].
      apply Nat.leb_le in E2. replace (j =? k)%nat with false by (symmetry; apply Nat.eqb_neq; lia). reflexivity. }
    pose proof (Col i ltac:(lia)) as Ci. pose proof (Rabs_pos (l i k)).
    assert (S4 : l i k * l i k = Rabs (l i k) * Rabs (l i k)) by (rewrite <- Rabs_mult; symmetry; apply Rabs_right; nra).
    assert (S5 : Rabs (l i k) * others (S k) k (fun j => Rabs (l j k)) <= Rabs (rest k i k)).
    { eapply Rle_trans; [apply Rmult_le_compat_l; [apply Rabs_pos|exact SumCol]|exact Ci]. }
    rewrite S3 in S5. rewrite S1 in Qi. rewrite S4. lra.
Qed.
Lemma dominant_pivots i : (i < n)%nat -> 0 < l i i /\ m <= l i i * l i i.
Proof. intros Hi. destruct (dominant_step n (le_n n)) as [P _]. apply P. exact Hi. Qed.
End Dominant.
