(** Cholesky decomposition with regularisation: what the factor satisfies. *)
From Coq Require Import Reals List Arith Lia Lra Bool.
From Verif Require Import Base Vec LinNum LinModel BandSpec BandProofs LinSpec LinProofs LinUpper CholModel CholSpec.
Import ListNotations.
Local Open Scope R_scope.
Local Existing Instance RealLin.
Notation sqm := (@sq RealLin).

Lemma cell_set (m : sqm) n i j (v : R) p q : fits m n -> (i < n)%nat -> (j < n)%nat ->
  cell (set_cell m i j v) p q = if (p =? i)%nat && (q =? j)%nat then v else cell m p q.
Proof.
  intros [Hl Hf] Hi Hj. unfold cell, set_cell. rewrite nth_set_nth by lia.
  destruct (p =? i)%nat eqn:E; [|reflexivity]. apply Nat.eqb_eq in E. subst p. cbn [andb].
  apply (@nth_set_nth R). rewrite Forall_nth in Hf. rewrite Hf by lia. exact Hj.
Qed.
Lemma fits_set (m : sqm) n i j (v : R) : fits m n -> (i < n)%nat -> fits (set_cell m i j v) n.
Proof.
  intros [Hl Hf] Hi. split; unfold set_cell; [rewrite set_nth_length; exact Hl|].
  apply Forall_set; [exact Hf|]. rewrite set_nth_length. rewrite Forall_nth in Hf. apply Hf. lia.
Qed.
Lemma row_len (m : sqm) n i : fits m n -> (i < n)%nat -> length (sq_row m i) = n.
Proof. intros [Hl Hf] Hi. unfold sq_row. rewrite Forall_nth in Hf. apply Hf. lia. Qed.
Lemma inner_rows (m : sqm) n i j k : fits m n -> (i < n)%nat -> (j < n)%nat -> (k <= n)%nat ->
  inner (@zero RealLin) (firstn k (sq_row m i)) (sq_row m j) = sum k (fun p => cell m i p * cell m j p).
Proof.
  intros F Hi Hj Hk. rewrite (inner_sum _ _ k).
  - rewrite zero_R, Rplus_0_l. apply sum_ext. intros p Hp. rewrite nth_firstn_lt by exact Hp. reflexivity.
  - etransitivity; [apply firstn_length|]. pose proof (row_len m n i F Hi) as Q. unfold sq, sq_row in *. cbn [num RealLin] in *. lia.
  - pose proof (row_len m n j F Hj) as Q. unfold sq, sq_row in *. cbn [num RealLin] in *. lia.
Qed.
(** an off-diagonal entry *)
Definition shrunk (reg need d mean : R) : R := need * d / (d * d + (reg * mean) * (reg * mean)).
Lemma entry_value (need d reg mean : R) :
  (if neqb need (@zero RealLin) then (@zero RealLin) else ndiv (nmul need d) (nadd (square d) (square (nmul reg mean)))) = shrunk reg need d mean.
Proof.
  unfold shrunk, square. rewrite zero_R. cbn [neqb ndiv nmul nadd RealLin]. destruct (Req_EM_T need 0) as [->|Ne]; [|reflexivity].
  unfold Rdiv. rewrite !Rmult_0_l. reflexivity.
Qed.

Section Factor.
Variables (n : nat) (a : nat -> nat -> R) (reg : R).

Lemma chol_row_ok src (mean : R) i k : forall j (out : sqm), fits out n -> (i < n)%nat -> (j + k = i)%nat ->
  (forall p, (p <= i)%nat -> cell (source src out) p i = a p i) ->
  let out' := chol_row src reg mean i j k out in
  fits out' n /\ (forall p q, p <> i \/ (q < j)%nat \/ (i <= q)%nat -> cell out' p q = cell out p q) /\
  (forall q, (j <= q < i)%nat -> cell out' i q = shrunk reg (a q i - sum q (fun k => cell out' i k * cell out' q k)) (cell out' q q) mean).
Proof.
  induction k as [|k IH]; intros j out F Hi Hj Ha; cbn [chol_row].
  - split; [exact F|]. split; [reflexivity|]. intros q Hq. lia.
  - set (locked := inner zero (firstn j (sq_row out i)) (sq_row out j)).
    assert (El : locked = sum j (fun p => cell out i p * cell out j p)) by (apply (inner_rows out n); try assumption; lia).
    rewrite entry_value. set (v := shrunk reg (nsub (cell (source src out) j i) locked) (cell out j j) mean).
    set (out1 := set_cell out i j v).
    assert (F1 : fits out1 n) by (apply fits_set; assumption).
    assert (C1 : forall p q, cell out1 p q = if (p =? i)%nat && (q =? j)%nat then v else cell out p q) by (intros p q; apply (cell_set out n); try assumption; lia).
    destruct (IH (S j) out1) as (F' & O & V); try assumption; try lia.
    { intros p Hp. destruct src as [b|]; cbn [source] in *; [apply Ha; exact Hp|]. rewrite C1.
      replace (i =? j)%nat with false by (symmetry; apply Nat.eqb_neq; lia). rewrite andb_false_r. apply Ha. exact Hp. }
    fold out1 in F', O, V. set (out' := chol_row src reg mean i (S j) k out1) in *.
    split; [exact F'|]. split.
    + intros p q H. rewrite O by lia. rewrite C1. destruct (p =? i)%nat eqn:E1; [|reflexivity]. destruct (q =? j)%nat eqn:E2; [|reflexivity].
      apply Nat.eqb_eq in E1, E2. lia.
    + intros q Hq. destruct (Nat.eq_dec q j) as [->|Ne]; [|apply V; lia].
      rewrite O by lia. rewrite C1, !Nat.eqb_refl. cbn [andb]. unfold v.
      assert (D : cell out' j j = cell out j j).
      { rewrite O by lia. rewrite C1. replace (j =? i)%nat with false by (symmetry; apply Nat.eqb_neq; lia). reflexivity. }
      rewrite D, (Ha j) by lia. f_equal. cbn [nsub RealLin]. f_equal. rewrite El. apply sum_ext. intros p Hp.
      rewrite !O by lia. rewrite !C1. replace (p =? j)%nat with false by (symmetry; apply Nat.eqb_neq; lia). rewrite !andb_false_r. reflexivity.
Qed.

(** what a finished factor satisfies in rows i0 and after, the mean being that of the rows before *)
Definition factor_rows (i0 i1 : nat) (mean : nat -> R) (l : nat -> nat -> R) : Prop :=
  forall i, (i0 <= i < i1)%nat ->
    (forall j, (j < i)%nat -> l i j = shrunk reg (a j i - sum j (fun k => l i k * l j k)) (l j j) (mean i)) /\
    l i i = R_sqrt.sqrt (Rmax 0 (a i i - sum i (fun k => l i k * l i k))).
Fixpoint running (l : nat -> nat -> R) (i : nat) : R :=
  match i with O => 0 | S k => running l k + (l k k - running l k) / (1 + INR k) end.
Lemma running_ext l m i : (forall k, (k < i)%nat -> l k k = m k k) -> running l i = running m i.
Proof. induction i as [|i IH]; intros H; [reflexivity|]. cbn [running]. rewrite IH, (H i) by (intros; try apply H; lia). reflexivity. Qed.
Lemma running_average l i : running l i = average l i.
Proof.
  unfold average. induction i as [|i IH]; [cbn; unfold Rdiv; lra|]. cbn [running sum]. rewrite IH. rewrite S_INR. pose proof (pos_INR i).
  destruct (Nat.eq_dec i 0) as [->|Ne]; [cbn; unfold Rdiv; rewrite !Rmult_0_l; replace (1 + 0) with 1 by lra; replace (0 + 1) with 1 by lra; lra|]. assert (INR i <> 0) by (apply not_0_INR; exact Ne). field. split; [lra|assumption].
Qed.
Lemma max_R x : nmax (@zero RealLin) x = Rmax 0 x.
Proof. unfold nmax. rewrite zero_R. cbn [nltb RealLin]. destruct (Rlt_dec 0 x); unfold Rmax; destruct (Rle_dec 0 x); try reflexivity; lra. Qed.

Lemma chol_rows_ok src k : forall i (mean : R) (out : sqm), fits out n -> (i + k = n)%nat ->
  (forall p q, (p <= q < n)%nat -> (i <= q)%nat -> cell (source src out) p q = a p q) -> mean = running (cell out) i ->
  let r := chol_rows src reg mean i k out in
  fits (snd r) n /\ (forall p q, (p < i)%nat \/ (p < q)%nat -> cell (snd r) p q = cell out p q) /\
  fst r = running (cell (snd r)) n /\ factor_rows i n (running (cell (snd r))) (cell (snd r)).
Proof.
  induction k as [|k IH]; intros i mean out F Hk Ha Hm; cbn [chol_rows].
  - cbn [fst snd]. split; [exact F|]. split; [reflexivity|]. replace n with i by lia. split; [exact Hm|]. intros j Hj. lia.
  - assert (Hi : (i < n)%nat) by lia.
    destruct (chol_row_ok src mean i i 0 out F Hi) as (F1 & O1 & V1); [lia|intros p Hp; apply Ha; lia|].
    set (out1 := chol_row src reg mean i 0 i out) in *.
    set (need := nsub (cell (source src out1) i i) (inner zero (firstn i (sq_row out1 i)) (sq_row out1 i))). set (out2 := set_cell out1 i i (nsqrt (nmax zero need))).
    assert (F2 : fits out2 n) by (apply fits_set; assumption).
    assert (C2 : forall p q, cell out2 p q = if (p =? i)%nat && (q =? i)%nat then nsqrt (nmax zero need) else cell out1 p q) by (intros p q; apply (cell_set out1 n); assumption).
    assert (Col : forall p q, (p <= q < n)%nat -> (S i <= q)%nat -> cell (source src out2) p q = a p q).
    { intros p q H1 H2. destruct src as [b|]; cbn [source] in *; [apply Ha; lia|]. rewrite C2.
      replace (q =? i)%nat with false by (symmetry; apply Nat.eqb_neq; lia). rewrite andb_false_r. rewrite O1 by lia. apply Ha; lia. }
    assert (Cii : cell (source src out1) i i = a i i).
    { destruct src as [b|]; cbn [source] in *; [apply Ha; lia|]. rewrite O1 by lia. apply Ha; lia. }
    assert (Rn : mean = running (cell out2) i).
    { rewrite Hm. apply running_ext. intros p Hp. rewrite C2. replace (p =? i)%nat with false by (symmetry; apply Nat.eqb_neq; lia).
      cbn [andb]. rewrite O1 by lia. reflexivity. }
    specialize (IH (S i) (nadd mean (ndiv (nsub (cell out2 i i) mean) (nadd one (of_nat i)))) out2 F2 ltac:(lia) Col).
    destruct IH as (F' & O & M & V).
    { cbn [running]. rewrite <- Rn. reflexivity. }
    set (r := chol_rows _ _ _ _ _ _) in *.
    split; [exact F'|]. split.
    + intros p q H. rewrite O by lia. rewrite C2. destruct (p =? i)%nat eqn:E1; destruct (q =? i)%nat eqn:E2; cbn [andb];
        try (apply Nat.eqb_eq in E1); try (apply Nat.eqb_eq in E2); try lia; apply O1; lia.
    + split; [exact M|]. intros j Hj. destruct (Nat.eq_dec j i) as [->|Ne]; [|apply V; lia].
      assert (K : forall q, (q <= i)%nat -> cell (snd r) i q = cell out2 i q) by (intros q Hq; apply O; lia).
      assert (K' : forall p q, (p < i)%nat -> cell (snd r) p q = cell out1 p q).
      { intros p q Hp. rewrite O by lia. rewrite C2. replace (p =? i)%nat with false by (symmetry; apply Nat.eqb_neq; lia). reflexivity. }
      assert (K2 : forall q, (q < i)%nat -> cell (snd r) i q = cell out1 i q).
      { intros q Hq. rewrite K by lia. rewrite C2. replace (q =? i)%nat with false by (symmetry; apply Nat.eqb_neq; lia). rewrite andb_false_r. reflexivity. }
      split.
      * intros q Hq. rewrite K2 by exact Hq. rewrite V1 by lia.
        assert (Rm : running (cell (snd r)) i = mean).
        { rewrite Rn. apply running_ext. intros p Hp. rewrite O by lia. reflexivity. }
        rewrite Rm, K' by exact Hq. f_equal. f_equal. apply sum_ext. intros p Hp. rewrite K2, K' by lia. reflexivity.
      * rewrite K by lia. rewrite C2, !Nat.eqb_refl. cbn [andb nsqrt RealLin]. rewrite max_R. f_equal. f_equal. unfold need. cbn [nsub RealLin].
        rewrite Cii. f_equal. rewrite (inner_rows out1 n) by (try assumption; lia). apply sum_ext. intros p Hp. rewrite K2 by exact Hp. reflexivity.
Qed.
End Factor.
