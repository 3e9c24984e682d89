(** The product of a matrix with its transpose added to an upper triangle, and volatilities and correlations: proofs. *)
From Coq Require Import Reals List Arith Lia Lra Bool.
From Verif Require Import Base Vec LinNum LinModel BandSpec BandProofs LinSpec LinProofs.
Import ListNotations.
Local Open Scope R_scope.
Local Existing Instance RealLin.

Lemma mat_set_ok (m : matrix) i j (v : R) : shaped m -> (i < nrows m)%nat -> (j < mcols m)%nat ->
  exists m', mat_set m i j v = Ok m' /\ shaped m' /\ nrows m' = nrows m /\ mcols m' = mcols m /\
    forall p q, entry m' p q = if (p =? i)%nat && (q =? j)%nat then v else entry m p q.
Proof.
  intros Hs Hi Hj. unfold mat_set. change (get (mrows m) i) with (mat_row m i). rewrite (mat_row_ok m i Hi). cbn [obind].
  rewrite put_ok by (rewrite shaped_row; assumption). cbn [obind]. eexists. split; [reflexivity|].
  split. { unfold shaped. cbn [mrows mcols]. apply Forall_set; [exact Hs|]. rewrite set_nth_length. apply shaped_row; assumption. }
  split; [unfold nrows; cbn [mrows]; apply set_nth_length|]. split; [reflexivity|].
  intros p q. unfold entry. cbn [mrows]. rewrite nth_set_nth by exact Hi.
  destruct (p =? i)%nat eqn:E; [|reflexivity]. apply Nat.eqb_eq in E. subst p. cbn [andb].
  exact (@nth_set_nth R _ j v 0 q (eq_ind_r (fun x => (j < x)%nat) Hj (shaped_row m i Hs Hi))).
Qed.
(** products of the columns lo .. lo + w - 1 of rows i and j *)
Definition part (a : matrix) (i j lo w : nat) : R := sum w (fun k => entry a i (lo + k) * entry a j (lo + k)).
Lemma part_split a i j lo w v : part a i j lo (w + v) = part a i j lo w + part a i j (lo + w) v.
Proof.
  unfold part. induction v as [|v IH].
  - rewrite Nat.add_0_r. cbn [sum]. lra.
  - rewrite Nat.add_succ_r. cbn [sum]. rewrite IH. rewrite Nat.add_assoc. lra.
Qed.
Lemma nth_firstn_lt {A} (l : list A) w k d : (k < w)%nat -> nth k (firstn w l) d = nth k l d.
Proof. revert w k. induction l as [|x l IH]; intros [|w] [|k] H; cbn; try lia; auto. apply IH. lia. Qed.
Lemma nth_skipn_add {A} (l : list A) w k d : nth k (skipn w l) d = nth (w + k) l d.
Proof. revert l. induction w as [|w IH]; intros [|x l]; cbn; auto. destruct k; reflexivity. Qed.

Lemma upper_cells_ok a ii lo w n : forall j h,
  shaped a -> shaped h -> (ii < nrows a)%nat -> (lo + w <= mcols a)%nat -> (j + n <= nrows a)%nat -> nrows h = nrows a -> mcols h = nrows a ->
  exists h', upper_cells a ii lo w j n h = Ok h' /\ shaped h' /\ nrows h' = nrows a /\ mcols h' = nrows a /\
    forall p q, entry h' p q = entry h p q + if (p =? ii)%nat && ((j <=? q)%nat && (q <? j + n)%nat) then part a ii q lo w else 0.
Proof.
  induction n as [|n IH]; intros j h Sa Sh Hi Hw Hj Nh Ch.
  - exists h. cbn [upper_cells]. repeat (split; [auto|]). intros p q.
    replace ((j <=? q)%nat && (q <? j + 0)%nat) with false; [rewrite andb_false_r; lra|].
    symmetry. destruct (j <=? q)%nat eqn:E; [|reflexivity]. apply Nat.leb_le in E. apply Nat.ltb_ge. lia.
  - cbn [upper_cells]. rewrite (mat_row_ok a ii Hi). cbn [obind]. assert (Hj' : (j < nrows a)%nat) by lia. rewrite (mat_row_ok a j Hj'). cbn [obind].
    assert (Hih : (ii < nrows h)%nat) by lia. assert (Hjh : (j < mcols h)%nat) by lia.
    rewrite (mat_get_ok h ii j Sh Hih Hjh). cbn [obind].
    set (v := @inner RealLin (entry h ii j) (firstn w (skipn lo (nth ii (mrows a) []))) (skipn lo (nth j (mrows a) []))).
    assert (Hv : v = entry h ii j + part a ii j lo w).
    { unfold v, part. rewrite (inner_sum _ _ w).
      - f_equal. apply sum_ext. intros k Hk. rewrite nth_firstn_lt by exact Hk. rewrite !nth_skipn_add. reflexivity.
      - rewrite firstn_length, skipn_length. etransitivity; [apply f_equal; apply f_equal2; [exact (shaped_row a ii Sa Hi)|reflexivity]|]. lia.
      - rewrite skipn_length. etransitivity; [|apply Nat.eq_le_incl; symmetry; apply f_equal2; [exact (shaped_row a j Sa Hj')|reflexivity]]. lia. }
    destruct (mat_set_ok h ii j v Sh Hih Hjh) as (h1 & E1 & S1 & N1 & C1 & V1). rewrite E1. cbn [obind].
    destruct (IH (S j) h1) as (h' & E & S' & N' & C' & V); try assumption; try lia.
    exists h'. split; [exact E|]. split; [exact S'|]. split; [exact N'|]. split; [exact C'|].
    intros p q. rewrite V, V1. destruct (p =? ii)%nat eqn:Ep; cbn [andb]; [|lra]. apply Nat.eqb_eq in Ep. subst p.
    destruct (q =? j)%nat eqn:Eq.
    + apply Nat.eqb_eq in Eq. subst q. rewrite Hv. replace (S j <=? j)%nat with false by (symmetry; apply Nat.leb_gt; lia).
      rewrite Nat.leb_refl. replace (j <? j + S n)%nat with true by (symmetry; apply Nat.ltb_lt; lia). cbn [andb]. lra.
    + apply Nat.eqb_neq in Eq. replace ((S j <=? q)%nat && (q <? S j + n)%nat) with ((j <=? q)%nat && (q <? j + S n)%nat); [reflexivity|].
      apply eq_true_iff_eq. rewrite !andb_true_iff, !Nat.leb_le, !Nat.ltb_lt. lia.
Qed.
Lemma upper_blocks_ok a ii j jstop fuel : forall lo h,
  shaped a -> shaped h -> (ii < nrows a)%nat -> (jstop <= nrows a)%nat -> (j <= jstop)%nat -> nrows h = nrows a -> mcols h = nrows a -> (mcols a - lo <= fuel)%nat ->
  exists h', upper_blocks a ii j jstop lo fuel h = Ok h' /\ shaped h' /\ nrows h' = nrows a /\ mcols h' = nrows a /\
    forall p q, entry h' p q = entry h p q + if (p =? ii)%nat && ((j <=? q)%nat && (q <? jstop)%nat) then part a ii q lo (mcols a - lo) else 0.
Proof.
  induction fuel as [|fuel IH]; intros lo h Sa Sh Hi Hs Hj Nh Ch Hf.
  - cbn [upper_blocks]. replace (lo <? mcols a)%nat with false by (symmetry; apply Nat.ltb_ge; lia).
    exists h. repeat (split; [auto|]). intros p q. replace (mcols a - lo)%nat with O by lia. unfold part. cbn [sum]. destruct (_ && _); lra.
  - cbn [upper_blocks]. destruct (lo <? mcols a)%nat eqn:E0.
    + apply Nat.ltb_lt in E0. set (w := Nat.min (mcols a - lo) cache_size).
      assert (Hw : (1 <= w /\ w <= mcols a - lo /\ w <= cache_size)%nat) by (unfold w, cache_size; lia).
      destruct (upper_cells_ok a ii lo w (jstop - j) j h) as (h1 & E1 & S1 & N1 & C1 & V1); try assumption; try lia.
      rewrite E1. cbn [obind].
      destruct (IH (lo + cache_size)%nat h1) as (h' & E & S' & N' & C' & V); try assumption; [unfold cache_size in *; lia|].
      exists h'. split; [exact E|]. repeat (split; [assumption|]).
      intros p q. rewrite V, V1. replace (j + (jstop - j))%nat with jstop by lia.
      destruct (_ && _); [|lra].
      destruct (Nat.le_gt_cases (mcols a - lo) cache_size) as [Hc|Hc].
      * assert (w = (mcols a - lo)%nat) as -> by (unfold w; lia). replace (mcols a - (lo + cache_size))%nat with O by lia.
        unfold part at 2. cbn [sum]. lra.
      * assert (w = cache_size) as -> by (unfold w; lia).
        replace (mcols a - lo)%nat with (cache_size + (mcols a - (lo + cache_size)))%nat by lia. rewrite part_split. lra.
    + apply Nat.ltb_ge in E0. exists h. repeat (split; [auto|]). intros p q. replace (mcols a - lo)%nat with O by lia. unfold part. cbn [sum]. destruct (_ && _); lra.
Qed.
Lemma upper_row_ok a ii fuel : forall j h,
  shaped a -> shaped h -> (ii < nrows a)%nat -> nrows h = nrows a -> mcols h = nrows a -> (nrows a - j <= fuel)%nat ->
  exists h', upper_row a ii j fuel h = Ok h' /\ shaped h' /\ nrows h' = nrows a /\ mcols h' = nrows a /\
    forall p q, (q < nrows a)%nat -> entry h' p q = entry h p q + if (p =? ii)%nat && (j <=? q)%nat then part a ii q 0 (mcols a) else 0.
Proof.
  induction fuel as [|fuel IH]; intros j h Sa Sh Hi Nh Ch Hf.
  - cbn [upper_row]. replace (j <? nrows a)%nat with false by (symmetry; apply Nat.ltb_ge; lia).
    exists h. repeat (split; [auto|]). intros p q Hq. replace (j <=? q)%nat with false by (symmetry; apply Nat.leb_gt; lia). rewrite andb_false_r. lra.
  - cbn [upper_row]. destruct (j <? nrows a)%nat eqn:E0.
    + apply Nat.ltb_lt in E0.
      destruct (upper_blocks_ok a ii j (Nat.min (nrows a) (j + cache_size)) (mcols a) 0 h) as (h1 & E1 & S1 & N1 & C1 & V1); try assumption; try lia.
      rewrite E1. cbn [obind].
      destruct (IH (j + cache_size)%nat h1) as (h' & E & S' & N' & C' & V); try assumption; [unfold cache_size in *; lia|].
      exists h'. split; [exact E|]. repeat (split; [assumption|]).
      intros p q Hq. rewrite V, V1 by exact Hq. rewrite Nat.sub_0_r. destruct (p =? ii)%nat; cbn [andb]; [|lra].
      destruct (j <=? q)%nat eqn:A1; cbn [andb].
      * apply Nat.leb_le in A1. destruct (q <? Nat.min (nrows a) (j + cache_size))%nat eqn:A2.
        -- apply Nat.ltb_lt in A2. replace (j + cache_size <=? q)%nat with false by (symmetry; apply Nat.leb_gt; lia). lra.
        -- apply Nat.ltb_ge in A2. replace (j + cache_size <=? q)%nat with true by (symmetry; apply Nat.leb_le; lia). lra.
      * apply Nat.leb_gt in A1. replace (j + cache_size <=? q)%nat with false by (symmetry; apply Nat.leb_gt; lia). lra.
    + apply Nat.ltb_ge in E0. exists h. repeat (split; [auto|]). intros p q Hq. replace (j <=? q)%nat with false by (symmetry; apply Nat.leb_gt; lia). rewrite andb_false_r. lra.
Qed.
Lemma upper_rows_ok a n : forall ii h,
  shaped a -> shaped h -> (ii + n = nrows a)%nat -> nrows h = nrows a -> mcols h = nrows a ->
  exists h', upper_rows a ii n h = Ok h' /\ shaped h' /\ nrows h' = nrows a /\ mcols h' = nrows a /\
    forall p q, (p < nrows a)%nat -> (q < nrows a)%nat -> entry h' p q = entry h p q + if (ii <=? p)%nat && (p <=? q)%nat then part a p q 0 (mcols a) else 0.
Proof.
  induction n as [|n IH]; intros ii h Sa Sh Hi Nh Ch.
  - exists h. cbn [upper_rows]. repeat (split; [auto|]). intros p q Hp Hq. replace (ii <=? p)%nat with false by (symmetry; apply Nat.leb_gt; lia). cbn [andb]. lra.
  - cbn [upper_rows]. destruct (upper_row_ok a ii (nrows a) ii h) as (h1 & E1 & S1 & N1 & C1 & V1); try assumption; try lia.
    rewrite E1. cbn [obind]. destruct (IH (S ii) h1) as (h' & E & S' & N' & C' & V); try assumption; try lia.
    exists h'. split; [exact E|]. repeat (split; [assumption|]).
    intros p q Hp Hq. rewrite V, V1 by assumption. destruct (p =? ii)%nat eqn:Ep.
    + apply Nat.eqb_eq in Ep. subst p. replace (S ii <=? ii)%nat with false by (symmetry; apply Nat.leb_gt; lia). rewrite Nat.leb_refl. cbn [andb].
      destruct (ii <=? q)%nat; lra.
    + apply Nat.eqb_neq in Ep. cbn [andb]. replace (ii <=? p)%nat with (S ii <=? p)%nat; [lra|].
      apply eq_true_iff_eq. rewrite !Nat.leb_le. lia.
Qed.

(** volatilities *)
Lemma scale_col_ok (rows : list (list R)) i vol c : Forall (fun r => length r = c) rows -> (i < c)%nat ->
  exists rows', scale_col rows i vol = Ok rows' /\ length rows' = length rows /\ Forall (fun r => length r = c) rows' /\
    forall p q, (p < length rows)%nat -> nth q (nth p rows' []) 0 = if (q =? i)%nat then vol_scale vol (nth i (nth p rows []) 0) else nth q (nth p rows []) 0.
Proof.
  intros H Hi. induction H as [|r rows Hr H IH].
  - exists []. cbn. repeat split; auto. intros; lia.
  - destruct IH as (rows' & E & L & F & V). cbn [scale_col].
    assert (Hir : (i < length r)%nat) by lia.
    rewrite (@get_ok (@num RealLin) r i 0 Hir). cbn [obind]. rewrite E. cbn [obind]. eexists. split; [reflexivity|].
    split; [cbn [length]; lia|].
    split. { apply Forall_cons; [|exact F]. etransitivity; [exact (@set_nth_length R r i _)|exact Hr]. }
    intros [|p] q Hp; cbn [nth]; [|apply V; cbn [length] in Hp; lia].
    exact (@nth_set_nth R r i _ 0 q Hir).
Qed.
Lemma vol_scale_R vol x : @vol_scale RealLin vol x = x / Rmax (2 / 100000000000000) vol.
Proof.
  unfold vol_scale, nmax. cbn [ndiv nltb epsilon RealLin]. f_equal. destruct (Rlt_dec _ _); unfold Rmax; destruct (Rle_dec _ _); try reflexivity; lra.
Qed.
Definition vol_of (cov : matrix) (i : nat) : R := R_sqrt.sqrt (entry cov i i).
Definition denom (cov : matrix) (i : nat) : R := Rmax (2 / 100000000000000) (vol_of cov i).
Lemma denom_pos cov i : 0 < denom cov i.
Proof. unfold denom. pose proof (Rmax_l (2 / 100000000000000) (vol_of cov i)). lra. Qed.
Lemma vols_loop_ok cov N n : forall i (vs : list R) corr,
  shaped cov -> nrows cov = N -> mcols cov = N -> shaped corr -> nrows corr = N -> mcols corr = N -> length vs = N -> (i + n = N)%nat ->
  (forall p, (p < i)%nat -> nth p vs 0 = vol_of cov p) ->
  (forall p q, (p < N)%nat -> (q < N)%nat -> entry corr p q = entry cov p q / (if (p <? i)%nat then denom cov p else 1) / (if (q <? i)%nat then denom cov q else 1)) ->
  exists vs' corr', vols_loop cov i n vs corr = Ok (vs', corr') /\ is_vector vs' N (vol_of cov) /\
    is_matrix corr' N N (fun p q => entry cov p q / denom cov p / denom cov q).
Proof.
  induction n as [|n IH]; intros i vs corr Sc Nc Cc So No Co Lv Hi Hv He.
  - exists vs, corr. cbn [vols_loop]. split; [reflexivity|]. split; [split; [exact Lv|]; intros p Hp; apply Hv; lia|].
    repeat (split; [assumption|]). intros p q Hp Hq. rewrite He by assumption.
    replace (p <? i)%nat with true by (symmetry; apply Nat.ltb_lt; lia). replace (q <? i)%nat with true by (symmetry; apply Nat.ltb_lt; lia). reflexivity.
  - cbn [vols_loop]. assert (Hin : (i < N)%nat) by lia. rewrite (mat_get_ok cov i i Sc) by lia. cbn [obind].
    assert (Hp : @put (@num RealLin) vs i (@nsqrt RealLin (entry cov i i)) = Ok (set_nth vs i (vol_of cov i))) by (apply (@put_ok (@num RealLin)); exact (eq_ind_r (fun x => (i < x)%nat) Hin Lv)).
    rewrite Hp. cbn [obind]. unfold scale_row. change (get (mrows corr) i) with (mat_row corr i). rewrite (mat_row_ok corr i) by lia. cbn [obind mrows mcols].
    set (m1 := set_nth (mrows corr) i (map (@vol_scale RealLin (@nsqrt RealLin (entry cov i i))) (nth i (mrows corr) []))).
    assert (Hic : (i < length (mrows corr))%nat) by (unfold nrows in No; lia).
    assert (F1 : Forall (fun r => length r = N) m1).
    { unfold m1. apply Forall_set; [unfold shaped in So; rewrite Co in So; exact So|]. rewrite map_length. etransitivity; [apply shaped_row; [exact So|exact Hic]|exact Co]. }
    assert (L1 : length m1 = N) by (unfold m1; rewrite set_nth_length; exact No).
    destruct (scale_col_ok m1 i (@nsqrt RealLin (entry cov i i)) N F1 Hin) as (rows' & E & L & F & V).
    change (@nsqrt RealLin (entry cov i i)) with (vol_of cov i) in *. rewrite E. cbn [obind].
    apply IH; try assumption; try reflexivity.
    + unfold shaped. cbn [mrows mcols]. rewrite Co. exact F.
    + unfold nrows. cbn [mrows]. exact (eq_trans L L1).
    + etransitivity; [exact (@set_nth_length R vs i _)|exact Lv].
    + lia.
    + intros p Hp'. destruct (Nat.eq_dec p i) as [->|Ne].
      * exact (@nth_set_same R vs i _ 0 ltac:(lia)).
      * etransitivity; [exact (@nth_set_other R vs i _ 0 p ltac:(lia) Ne)|]. apply Hv. lia.
    + intros p q Hp' Hq'. unfold entry at 1. cbn [mrows]. rewrite V by exact (eq_ind_r (fun x => (p < x)%nat) Hp' L1).
      assert (R1 : forall q, (q < N)%nat -> nth q (nth p m1 []) 0 = if (p =? i)%nat then @vol_scale RealLin (vol_of cov i) (entry corr i q) else entry corr p q).
      { intros q' Hq2. unfold m1. rewrite nth_set_nth by exact Hic. destruct (p =? i)%nat eqn:Ep; [|reflexivity].
        unfold entry. rewrite (nth_indep _ 0 (@vol_scale RealLin (vol_of cov i) 0)).
        - exact (map_nth (@vol_scale RealLin (vol_of cov i)) (nth i (mrows corr) []) 0 q').
        - rewrite map_length. refine (eq_ind_r (fun x => (q' < x)%nat) Hq2 _). etransitivity; [apply shaped_row; [exact So|exact Hic]|exact Co]. }
      assert (D : forall x, @vol_scale RealLin (vol_of cov i) x = x / denom cov i) by (intros x; apply vol_scale_R).
      pose proof (denom_pos cov i) as Dp. pose proof (denom_pos cov p). pose proof (denom_pos cov q).
      destruct (q =? i)%nat eqn:Eq.
      * apply Nat.eqb_eq in Eq. subst q. rewrite R1 by exact Hq'.
        replace (i <? S i)%nat with true by (symmetry; apply Nat.ltb_lt; lia).
        destruct (p =? i)%nat eqn:Ep.
        -- apply Nat.eqb_eq in Ep. subst p. rewrite !D, He by assumption. replace (i <? i)%nat with false by (symmetry; apply Nat.ltb_ge; lia).
           replace (i <? S i)%nat with true by (symmetry; apply Nat.ltb_lt; lia). field. lra.
        -- apply Nat.eqb_neq in Ep. rewrite D, He by assumption. replace (i <? i)%nat with false by (symmetry; apply Nat.ltb_ge; lia).
           replace (p <? S i)%nat with (p <? i)%nat by (apply eq_true_iff_eq; rewrite !Nat.ltb_lt; lia). destruct (p <? i)%nat; field; lra.
      * apply Nat.eqb_neq in Eq. rewrite R1 by exact Hq'.
        replace (q <? S i)%nat with (q <? i)%nat by (apply eq_true_iff_eq; rewrite !Nat.ltb_lt; lia).
        destruct (p =? i)%nat eqn:Ep.
        -- apply Nat.eqb_eq in Ep. subst p. rewrite D, He by assumption. replace (i <? i)%nat with false by (symmetry; apply Nat.ltb_ge; lia).
           replace (i <? S i)%nat with true by (symmetry; apply Nat.ltb_lt; lia). destruct (q <? i)%nat; field; lra.
        -- apply Nat.eqb_neq in Ep. rewrite He by assumption.
           replace (p <? S i)%nat with (p <? i)%nat by (apply eq_true_iff_eq; rewrite !Nat.ltb_lt; lia). reflexivity.
Qed.
