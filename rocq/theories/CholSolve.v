(** Multiplying, solving and correlating with a stored Cholesky factor. *)
From Coq Require Import Reals List Arith Lia Lra Bool.
From Verif Require Import Base Vec LinNum LinModel BandSpec BandProofs LinSpec LinProofs LinUpper CholModel CholSpec CholProofs CholAlgebra.
Import ListNotations.
Local Open Scope R_scope.
Local Existing Instance RealLin.

Lemma nth_map_seq (f : nat -> R) n i : (i < n)%nat -> nth i (map f (seq 0 n)) 0 = f i.
Proof.
  intros Hi. rewrite (nth_indep _ 0 (f 0%nat)) by (rewrite map_length, seq_length; exact Hi). rewrite map_nth, seq_nth by exact Hi. reflexivity.
Qed.
Lemma cell_col (m : sqm) i j : (i < length m)%nat -> nth i (sq_col m j) 0 = cell m i j.
Proof.
  intros Hi. unfold sq_col, cell. rewrite (nth_indep _ 0 ((fun r => nth j r (@zero RealLin)) [])) by (rewrite map_length; exact Hi).
  exact (map_nth (fun r => nth j r (@zero RealLin)) m [] i).
Qed.
Lemma sum_tail n k f : (k <= n)%nat -> sum n f = sum k f + sum (n - k) (fun j => f (k + j)%nat).
Proof.
  intros Hk. replace n with (k + (n - k))%nat at 1 by lia. generalize (n - k)%nat. intros m. induction m as [|m IH]; cbn [sum]; [rewrite Nat.add_0_r; lra|].
  rewrite Nat.add_succ_r. cbn [sum]. rewrite IH. lra.
Qed.
Lemma lower_head_length (c : R) i x row : length (lower_head c i x row) = length x.
Proof. revert i row. induction x as [|v x IH]; intros [|i] [|r row]; cbn; auto. Qed.
Lemma lower_head_nth (c : R) i : forall (x row : list R) p, (i <= length row)%nat -> (p < length x)%nat ->
  nth p (lower_head c i x row) 0 = if (p <? i)%nat then nth p x 0 - c * nth p row 0 else nth p x 0.
Proof.
  induction i as [|i IH]; intros x row p Hr Hp.
  - replace (p <? 0)%nat with false by (symmetry; apply Nat.ltb_ge; lia). destruct x, row; reflexivity.
  - destruct row as [|r row]; [cbn in Hr; lia|]. destruct x as [|v x]; [cbn in Hp; lia|]. cbn [lower_head].
    destruct p as [|p]; cbn [nth]; [cbn; lra|]. rewrite IH by (cbn in *; lia). reflexivity.
Qed.

Section Stored.
Variables (n : nat) (low : sqm) (f : nat -> nat -> R).
Hypothesis fit : fits low n.
Hypothesis below : forall i j, (j < i < n)%nat -> f i j = cell low i j.
Hypothesis on_diag : forall i, (i < n)%nat -> cell low i i <> 0 /\ f i i = / cell low i i.
Hypothesis above : forall i j, (i < j < n)%nat -> f i j = 0.

Lemma mul_l_ok (t : list R) i : (i < n)%nat -> (n <= length t)%nat -> mul_l low t i = sum n (fun k => f i k * nth k t 0).
Proof.
  intros Hi Ht. unfold mul_l. rewrite (inner_sum _ _ i).
  - rewrite zero_R. cbn [nadd ndiv RealLin]. rewrite (sum_cut n (S i)); [|lia|intros j Hj; rewrite above by lia; ring].
    cbn [sum]. destruct (on_diag i Hi) as [_ ->]. unfold Rdiv. rewrite Rplus_0_l. f_equal; [|rewrite (nth_indep t _ 0) by (cbn [num RealLin]; lia); apply Rmult_comm].
    apply sum_ext. intros k Hk. rewrite nth_firstn_lt by exact Hk. rewrite below by lia. unfold cell, sq_row. rewrite zero_R. apply Rmult_comm.
  - rewrite firstn_length. cbn [num RealLin] in *. lia.
  - pose proof (row_len low n i fit Hi) as Q. cbn [num RealLin] in *. lia.
Qed.
Lemma mul_lt_ok (x : list R) i : (i < n)%nat -> length x = n -> mul_lt low x i = sum n (fun k => f k i * nth k x 0).
Proof.
  intros Hi Hx. unfold mul_lt. destruct fit as [Ln _].
  assert (Lc : length (@sq_col RealLin low i) = n) by (unfold sq_col; rewrite map_length; exact Ln).
  rewrite (inner_sum _ _ (n - (i + 1))).
  - rewrite zero_R. cbn [nadd ndiv RealLin]. rewrite (sum_tail n (i + 1)) by lia. rewrite (Nat.add_1_r i). cbn [sum].
    rewrite (sum_ext i (fun k => f k i * nth k x 0) (fun _ => 0)) by (intros j Hj; rewrite above by lia; ring). rewrite sum_zero.
    destruct (on_diag i Hi) as [_ ->].
    rewrite (sum_ext (n - S i) (fun j => f (S i + j)%nat i * nth (S i + j) x 0) (fun k => nth k (skipn (S i) x) 0 * nth k (skipn (S i) (sq_col low i)) 0)).
    + rewrite !Rplus_0_l. unfold Rdiv. rewrite (nth_indep x _ 0) by (cbn [num RealLin]; lia). rewrite Rplus_comm. apply f_equal2; [apply Rmult_comm|reflexivity].
    + intros k Hk. rewrite !nth_skipn_add. rewrite (cell_col low) by lia. rewrite below by lia. apply Rmult_comm.
  - rewrite skipn_length. cbn [num RealLin] in *. lia.
  - rewrite skipn_length. cbn [num RealLin] in *. lia.
Qed.
Lemma gram_times (x : list R) i : row_times n (gram n f) x i = sum n (fun k => f i k * sum n (fun j => f j k * nth j x 0)).
Proof.
  unfold row_times, gram. rewrite (sum_ext n _ (fun j => sum n (fun k => f i k * f j k * nth j x 0))) by (intros; rewrite <- sum_scal_r; reflexivity).
  rewrite sum_swap. apply sum_ext. intros k _. rewrite <- sum_scal. apply sum_ext. intros. ring.
Qed.
Lemma multiply_ok (x : list R) : length x = n -> exists b, chol_multiply low x = Ok b /\ is_vector b n (row_times n (gram n f) x).
Proof.
  intros Hx. unfold chol_multiply. destruct fit as [Ln _].
  assert (Ln' : @length (list (@num RealLin)) low = n) by exact Ln. assert (Hx' : @length (@num RealLin) x = n) by exact Hx. rewrite Ln', Hx', Nat.eqb_refl. cbn [negb].
  eexists. split; [reflexivity|]. split; [rewrite map_length, seq_length; reflexivity|].
  intros i Hi. etransitivity; [exact (nth_map_seq _ n i Hi)|].
  etransitivity; [apply mul_l_ok; [exact Hi|rewrite map_length, seq_length; lia]|].
  rewrite gram_times. apply sum_ext. intros k Hk. f_equal. etransitivity; [exact (nth_map_seq _ n k Hk)|]. apply mul_lt_ok; assumption.
Qed.
Lemma correlate_ok (z : list R) : (n <= length z)%nat -> exists c, chol_correlate low z = Ok (c, StartOfOutput) /\ is_vector c n (row_times n f z).
Proof.
  intros Hz. unfold chol_correlate. destruct fit as [Ln _].
  assert (Ln' : @length (list (@num RealLin)) low = n) by exact Ln. assert (E : (@length (@num RealLin) z <? n)%nat = false) by (apply Nat.ltb_ge; exact Hz). rewrite Ln', E.
  eexists. split; [reflexivity|]. split; [rewrite map_length, seq_length; reflexivity|].
  intros i Hi. etransitivity; [exact (nth_map_seq _ n i Hi)|]. apply mul_l_ok; assumption.
Qed.

(** forward substitution *)
Lemma forward_ok (b : list R) k : forall i (x : list R), (i + k = n)%nat -> (n <= length x)%nat -> (n <= length b)%nat ->
  let y := solve_forward low b i k x in
  length y = length x /\ (forall p, (p < i)%nat \/ (n <= p)%nat -> nth p y 0 = nth p x 0) /\
  forall p, (i <= p < n)%nat -> @nth R p y 0 = (nth p b 0 - sum p (fun q => cell low p q * @nth R q y 0)) * cell low p p.
Proof.
  induction k as [|k IH]; intros i x Hk Hx Hb; cbn [solve_forward].
  - split; [reflexivity|]. split; [reflexivity|]. intros p Hp. lia.
  - set (v := nmul _ _). 
    assert (Hv : v = (nth i b 0 - sum i (fun q => cell low i q * nth q x 0)) * cell low i i).
    { unfold v. cbn [nmul nsub RealLin]. f_equal. rewrite (inner_sum _ _ i).
      - rewrite zero_R, Rplus_0_l. apply (f_equal2 Rminus); [reflexivity|].
        apply sum_ext. intros q Hq. rewrite nth_firstn_lt by exact Hq. unfold cell, sq_row. rewrite zero_R. apply Rmult_comm.
      - rewrite firstn_length. cbn [num RealLin] in *. lia.
      - pose proof (row_len low n i fit ltac:(lia)) as Q. cbn [num RealLin] in *. lia. }
    assert (Lx : length (set_nth x i v) = length x) by apply (@set_nth_length R).
    destruct (IH (S i) (set_nth x i v)) as (Ly & O & V); [lia|cbn [num RealLin] in *; lia|exact Hb|].
    set (y := solve_forward low b (S i) k (set_nth x i v)) in *.
    assert (N : forall p, nth p (set_nth x i v) 0 = if (p =? i)%nat then v else nth p x 0) by (intros p; apply (@nth_set_nth R); cbn [num RealLin] in *; lia).
    assert (OR : forall p, (p < S i)%nat \/ (n <= p)%nat -> @nth R p y 0 = @nth R p (set_nth x i v) 0) by exact O. clear O. rename OR into O.
    split; [exact (eq_trans Ly Lx)|]. cbn [num RealLin] in *. repeat match goal with |- context [@solve_forward RealLin low b (S i) k ?z] => change (@solve_forward RealLin low b (S i) k z) with y end. split.
    + intros p Hp. rewrite O by lia. rewrite N. replace (p =? i)%nat with false by (symmetry; apply Nat.eqb_neq; lia). reflexivity.
    + intros p Hp. destruct (Nat.eq_dec p i) as [->|Ne]; [|apply V; lia]. rewrite O by lia. rewrite N, Nat.eqb_refl, Hv. f_equal. f_equal.
      apply sum_ext. intros q Hq. rewrite O by lia. rewrite N. replace (q =? i)%nat with false by (symmetry; apply Nat.eqb_neq; lia). reflexivity.
Qed.
Lemma backward_step k (x : list R) (r : list R) : (forall v x1 x2, v = nth k x 0 * cell low k k -> x1 = @set_nth R x k v -> x2 = lower_head v k x1 (sq_row low k) -> solve_backward low k x2 = r) ->
  solve_backward low (S k) x = r.
Proof. intros H. cbn [solve_backward]. eapply H; [|reflexivity|reflexivity]. rewrite zero_R. reflexivity. Qed.
(** backward substitution: y is the vector before the loop *)
Lemma backward_ok (y : list R) : (n <= length y)%nat -> forall i (x : list R), (i <= n)%nat -> length x = length y ->
  (forall p, (n <= p)%nat -> nth p x 0 = nth p y 0) ->
  (forall p, (p < i)%nat -> nth p x 0 = nth p y 0 - sum (n - i) (fun q => cell low (i + q) p * nth (i + q) x 0)) ->
  let r := solve_backward low i x in
  @length R r = length y /\ (forall p, (n <= p)%nat -> @nth R p r 0 = nth p y 0) /\ (forall p, (i <= p)%nat -> @nth R p r 0 = nth p x 0) /\
  forall p, (p < i)%nat -> @nth R p r 0 = (nth p y 0 - sum (n - S p) (fun q => cell low (S p + q) p * @nth R (S p + q) r 0)) * cell low p p.
Proof.
  intros Hy. induction i as [|k IH]; intros x Hi Lx Hn Hp.
  - split; [exact Lx|]. split; [exact Hn|]. split; [reflexivity|]. intros p H. lia.
  - set (v := nth k x 0 * cell low k k : R).
    assert (Hv : v = nth k x 0 * cell low k k) by reflexivity. clearbody v.
    set (x1 := @set_nth R x k v). assert (L1 : length x1 = length x) by apply (@set_nth_length R).
    set (x2 := @lower_head RealLin v k x1 (sq_row low k) : list R). assert (L2 : length x2 = length x) by (etransitivity; [apply lower_head_length|exact L1]).
    assert (N1 : forall p, nth p x1 0 = if (p =? k)%nat then v else nth p x 0) by (intros p; apply (@nth_set_nth R); cbn [num RealLin] in *; lia).
    assert (N2 : forall p, nth p x2 0 = if (p <? k)%nat then nth p x 0 - v * cell low k p else if (p =? k)%nat then v else nth p x 0).
    { intros p. destruct (Nat.lt_ge_cases p (length x1)) as [H|H].
      - unfold x2. rewrite lower_head_nth; [|pose proof (row_len low n k fit ltac:(lia)) as Q; cbn [num RealLin] in *; lia|exact H].
        rewrite N1. destruct (p <? k)%nat eqn:E; [|reflexivity]. apply Nat.ltb_lt in E. replace (p =? k)%nat with false by (symmetry; apply Nat.eqb_neq; lia).
        unfold cell, sq_row. rewrite zero_R. reflexivity.
      - rewrite !nth_overflow by (cbn [num RealLin] in *; lia). replace (p <? k)%nat with false by (symmetry; apply Nat.ltb_ge; cbn [num RealLin] in *; lia).
        replace (p =? k)%nat with false by (symmetry; apply Nat.eqb_neq; cbn [num RealLin] in *; lia). reflexivity. }
    assert (St : solve_backward low (S k) x = solve_backward low k x2).
    { apply backward_step. intros v' a b -> -> ->. rewrite <- Hv. reflexivity. }
    rewrite St. clear St. destruct (IH x2) as (Lr & On & Og & V).
    + lia.
    + cbn [num RealLin] in *; lia.
    + intros p H. rewrite N2. replace (p <? k)%nat with false by (symmetry; apply Nat.ltb_ge; lia). replace (p =? k)%nat with false by (symmetry; apply Nat.eqb_neq; lia). apply Hn; exact H.
    + intros p H. rewrite N2. replace (p <? k)%nat with true by (symmetry; apply Nat.ltb_lt; lia). rewrite Hp by lia.
      replace (n - k)%nat with (S (n - S k)) by lia. rewrite sum_head. rewrite Nat.add_0_r, N2.
      replace (k <? k)%nat with false by (symmetry; apply Nat.ltb_ge; lia). rewrite Nat.eqb_refl.
      rewrite (sum_ext (n - S k) (fun q => cell low (k + S q) p * nth (k + S q) x2 0) (fun q => cell low (S k + q) p * nth (S k + q) x 0)); [ring|].
      intros q Hq. replace (k + S q)%nat with (S k + q)%nat by lia. rewrite N2. replace (S k + q <? k)%nat with false by (symmetry; apply Nat.ltb_ge; lia).
      replace (S k + q =? k)%nat with false by (symmetry; apply Nat.eqb_neq; lia). reflexivity.
    + set (r := solve_backward low k x2) in *. split; [exact Lr|]. split; [exact On|].
      assert (Og' : forall p, (S k <= p)%nat -> nth p r 0 = nth p x 0).
      { intros p H. rewrite Og by lia. rewrite N2. replace (p <? k)%nat with false by (symmetry; apply Nat.ltb_ge; lia). replace (p =? k)%nat with false by (symmetry; apply Nat.eqb_neq; lia). reflexivity. }
      split; [exact Og'|]. intros p H. destruct (Nat.eq_dec p k) as [->|Ne]; [|apply V; lia].
      rewrite Og by lia. rewrite N2. replace (k <? k)%nat with false by (symmetry; apply Nat.ltb_ge; lia). rewrite Nat.eqb_refl, Hv. f_equal.
      rewrite Hp by lia. f_equal. apply sum_ext. intros q Hq. rewrite Og' by lia. reflexivity.
Qed.
Lemma solve_ok (b x : list R) : (n <= length b)%nat -> (n <= length x)%nat ->
  exists r, chol_solve low b x = Ok r /\ length r = length x /\ (forall p, (n <= p)%nat -> nth p r 0 = nth p x 0) /\ solves n (gram n f) r b.
Proof.
  intros Hb Hx. unfold chol_solve. pose proof fit as [Ln _].
  assert (Ln' : @length (list (@num RealLin)) low = n) by exact Ln.
  assert (E1 : (@length (@num RealLin) b <? n)%nat = false) by (apply Nat.ltb_ge; exact Hb).
  assert (E2 : (@length (@num RealLin) x <? n)%nat = false) by (apply Nat.ltb_ge; exact Hx).
  rewrite Ln', E1, E2. cbn [orb].
  destruct (forward_ok b n 0 x) as (Ly & Oy & Vy); [lia|exact Hx|exact Hb|]. set (y := solve_forward low b 0 n x) in *.
  destruct (backward_ok y) with (i := n) (x := y) as (Lr & On & _ & Vr); [cbn [num RealLin] in *; lia|lia|reflexivity|reflexivity| |].
  { intros p Hp. rewrite Nat.sub_diag. cbn [sum]. lra. }
  set (r := solve_backward low n y) in *. exists r. split; [reflexivity|]. split; [cbn [num RealLin] in *; lia|].
  split; [intros p Hp; rewrite On by exact Hp; apply Oy; lia|].
  intros i Hi. rewrite gram_times.
  assert (T : forall k, (k < n)%nat -> sum n (fun j => f j k * @nth R j r 0) = @nth R k y 0).
  { intros k Hk. rewrite (sum_tail n (S k)) by lia. cbn [sum].
    rewrite (sum_ext k (fun j => f j k * @nth R j r 0) (fun _ => 0)) by (intros j Hj; rewrite above by lia; ring). rewrite sum_zero.
    rewrite (sum_ext (n - S k) (fun j => f (S k + j)%nat k * @nth R (S k + j) r 0) (fun q => cell low (S k + q) k * @nth R (S k + q) r 0)) by (intros j Hj; rewrite below by lia; reflexivity).
    destruct (on_diag k Hk) as [Nz ->]. specialize (Vr k Hk). set (s := sum (n - S k) _) in *. set (c := cell low k k) in *. set (yk := @nth R k y 0) in *. rewrite Vr. field. exact Nz. }
  rewrite (sum_ext n _ (fun k => f i k * @nth R k y 0)) by (intros k Hk; rewrite T by exact Hk; reflexivity).
  rewrite (sum_cut n (S i)); [|lia|intros j Hj; rewrite above by lia; ring]. cbn [sum].
  rewrite (sum_ext i _ (fun q => cell low i q * @nth R q y 0)) by (intros q Hq; rewrite below by lia; reflexivity).
  destruct (on_diag i Hi) as [Nz ->]. specialize (Vy i ltac:(lia)). set (s := sum i _) in *. set (c := cell low i i) in *. set (bi   := @nth R i b 0) in *. rewrite Vy. field. exact Nz.
Qed.
End Stored.
