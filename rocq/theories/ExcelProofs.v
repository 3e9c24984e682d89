From Coq Require Import Ascii ZArith List Bool Lia Permutation.
From Verif Require Import Base DateModel StringModel DictModel ExcelModel ExcelSpec.
Import ListNotations.
Open Scope nat_scope.

Section Proofs.
Context {N T : Type}.
Notation cell := (DictModel.cell N T).
Notation oper := (oper N).

Definition B (cells : list oper) (k : nat) : bool := is_blank (nth k cells OMissing).
Lemma at_ok (cells : list oper) k : k < length cells -> cell_at cells k = Ok (nth k cells OMissing).
Proof. intro H. unfold cell_at. rewrite (nth_error_nth' cells OMissing H). reflexivity. Qed.
Lemma blank_ok (cells : list oper) k : k < length cells -> blank_at cells k = Ok (B cells k).
Proof. intro H. unfold blank_at. rewrite at_ok by exact H. reflexivity. Qed.
Lemma all_blank_ok (cells : list oper) step n : forall k, (forall t, t < n -> k + t * step < length cells) ->
  exists b, all_blank cells step n k = Ok b /\ (b = true <-> forall t, t < n -> B cells (k + t * step) = true).
Proof.
  induction n as [|n IH]; intros k H; cbn [all_blank].
  - exists true. split; [reflexivity|]. split; [lia|reflexivity].
  - pose proof (H 0 ltac:(lia)) as H0. rewrite Nat.mul_0_l, Nat.add_0_r in H0. rewrite blank_ok by exact H0. cbn [obind].
    destruct (B cells k) eqn:E.
    + destruct (IH (k + step)) as (b & -> & Hb). { intros t L. specialize (H (S t) ltac:(lia)). cbn in H. lia. }
      exists b. split; [reflexivity|]. rewrite Hb. split; intros G t L.
      * destruct t as [|t]; [rewrite Nat.mul_0_l, Nat.add_0_r; exact E|]. specialize (G t ltac:(lia)). cbn. rewrite <- G. f_equal. lia.
      * specialize (G (S t) ltac:(lia)). cbn in G. rewrite <- G. f_equal. lia.
    + exists false. split; [reflexivity|]. split; [discriminate|]. intro G. specialize (G 0 ltac:(lia)).
      rewrite Nat.mul_0_l, Nat.add_0_r in G. congruence.
Qed.
Lemma in_range nr nc i j : i < nr -> j < nc -> i * nc + j < nr * nc.
Proof. intros. nia. Qed.
Lemma grow_rows_ok nr nc (cells : list oper) cols n : range nr nc cells -> cols <= nc -> forall rows, rows + n = nr ->
  exists r, grow_rows cells nc cols rows n = Ok r /\ rows <= r <= nr /\
    (forall i, rows <= i < r -> ~ forall j, j < cols -> blank nc cells i j) /\ (r = nr \/ forall j, j < cols -> blank nc cells r j).
Proof.
  intros R C. induction n as [|n IH]; intros rows E; cbn [grow_rows].
  - exists rows. split; [reflexivity|]. repeat split; try lia.
  - destruct (all_blank_ok cells 1 cols (rows * nc)) as (b & -> & Hb).
    { intros t L. rewrite R, Nat.mul_1_r. apply in_range; lia. }
    assert (b = true <-> forall j, j < cols -> blank nc cells rows j) as Hb'.
    { rewrite Hb. unfold blank, at_place, B. split; intros G t L; specialize (G t L); rewrite ?Nat.mul_1_r in *; exact G. }
    cbn [obind]. destruct b.
    + exists rows. split; [reflexivity|]. repeat split; try lia. right. apply Hb'. reflexivity.
    + destruct (IH (S rows) ltac:(lia)) as (r & -> & L & M & F). exists r. split; [reflexivity|]. repeat split; try lia.
      * intros i Li. destruct (Nat.eq_dec i rows) as [->|D]; [|apply M; lia]. intro G. apply Hb' in G. discriminate.
      * exact F.
Qed.
Lemma grow_cols_ok nr nc (cells : list oper) rows n : range nr nc cells -> rows <= nr -> forall cols, cols + n = nc ->
  exists c, grow_cols cells nc rows cols n = Ok c /\ cols <= c <= nc /\
    (forall j, cols <= j < c -> ~ forall i, i < rows -> blank nc cells i j) /\ (c = nc \/ forall i, i < rows -> blank nc cells i c).
Proof.
  intros R C. induction n as [|n IH]; intros cols E; cbn [grow_cols].
  - exists cols. split; [reflexivity|]. repeat split; try lia.
  - destruct (all_blank_ok cells nc rows cols) as (b & -> & Hb).
    { intros t L. rewrite R, Nat.add_comm. apply in_range; lia. }
    assert (b = true <-> forall i, i < rows -> blank nc cells i cols) as Hb'.
    { rewrite Hb. unfold blank, at_place, B. split; intros G t L; specialize (G t L); rewrite Nat.add_comm; exact G. }
    cbn [obind]. destruct b.
    + exists cols. split; [reflexivity|]. repeat split; try lia. right. apply Hb'. reflexivity.
    + destruct (IH (S cols) ltac:(lia)) as (r & -> & L & M & F). exists r. split; [reflexivity|]. repeat split; try lia.
      * intros i Li. destruct (Nat.eq_dec i cols) as [->|D]; [|apply M; lia]. intro G. apply Hb' in G. discriminate.
      * exact F.
Qed.
Lemma grow_ok nr nc (cells : list oper) fuel : range nr nc cells -> forall rows cols, 1 <= rows <= nr -> 1 <= cols <= nc ->
  (forall r c, fenced nr nc (blank nc cells) r c -> rows <= r /\ cols <= c) -> nr + nc < fuel + (rows + cols) ->
  exists r c, grow fuel cells nr nc rows cols = Ok (r, c) /\ smallest nr nc (blank nc cells) r c.
Proof.
  intro R. induction fuel as [|f IH]; intros rows cols L1 L2 Low Fu; [lia|]. cbn [grow].
  destruct (grow_rows_ok nr nc cells cols (nr - rows) R ltac:(lia) rows ltac:(lia)) as (r & -> & Lr & Mr & Fr). cbn [obind].
  destruct (grow_cols_ok nr nc cells r (nc - cols) R ltac:(lia) cols ltac:(lia)) as (c & -> & Lc & Mc & Fc). cbn [obind].
  assert (forall r' c', fenced nr nc (blank nc cells) r' c' -> r <= r' /\ c <= c') as Low'.
  { intros r' c' F. destruct (Low r' c' F) as [A A']. destruct F as (F1 & F2 & F3 & F4).
    assert (r <= r') as Ar.
    { destruct (le_lt_dec r r') as [Z|Z]; [exact Z|]. exfalso. destruct F3 as [F3|F3]; [lia|]. apply (Mr r' ltac:(lia)).
      intros j Hj. apply F3. lia. }
    split; [exact Ar|]. destruct (le_lt_dec c c') as [Z|Z]; [exact Z|]. exfalso. destruct F4 as [F4|F4]; [lia|]. apply (Mc c' ltac:(lia)).
    intros i Hi. apply F4. lia. }
  destruct ((r =? rows) && (c =? cols)) eqn:E.
  - apply andb_prop in E. destruct E as [E1 E2]. apply Nat.eqb_eq in E1, E2. subst r c. exists rows, cols. split; [reflexivity|].
    split; [|exact Low]. unfold fenced. repeat split; try lia; assumption.
  - apply IH; try lia; [exact Low'|]. apply andb_false_iff in E. destruct E as [E|E]; apply Nat.eqb_neq in E; lia.
Qed.
Lemma leading_ok (cells : list oper) n : forall k, k + n <= length cells ->
  exists m, leading cells n k = Ok m /\ m <= n /\ (forall t, t < m -> B cells (k + t) = false) /\ (m < n -> B cells (k + m) = true).
Proof.
  induction n as [|n IH]; intros k H; cbn [leading]; [exists 0; repeat split; lia|].
  rewrite blank_ok by lia. cbn [obind]. destruct (B cells k) eqn:E.
  - exists 0. split; [reflexivity|]. split; [lia|]. split; [lia|]. intros _. rewrite Nat.add_0_r. exact E.
  - destruct (IH (S k) ltac:(lia)) as (m & -> & L & F & G). exists (S m). split; [reflexivity|]. split; [lia|]. split.
    + intros [|t] Lt; [rewrite Nat.add_0_r; exact E|]. rewrite Nat.add_succ_r. apply F. lia.
    + intro Lt. rewrite Nat.add_succ_r. apply G. lia.
Qed.

(** reading a matrix *)
Lemma read_row_ok {A} (read : oper -> outcome A) (f : nat -> A) (cells : list oper) n : forall k,
  (forall t, t < n -> k + t < length cells /\ read (nth (k + t) cells OMissing) = Ok (f (k + t))) ->
  read_row read cells n k = Ok (map f (seq k n)).
Proof.
  induction n as [|n IH]; intros k H; cbn [read_row]; [reflexivity|].
  destruct (H 0 ltac:(lia)) as [H0 H1]. rewrite Nat.add_0_r in H0, H1. rewrite at_ok by exact H0. cbn [obind]. rewrite H1. cbn [obind].
  rewrite IH. { reflexivity. } intros t L. specialize (H (S t) ltac:(lia)). rewrite Nat.add_succ_r in H. exact H.
Qed.
Lemma read_rows_ok {A} (read : oper -> outcome A) (f : nat -> A) (cells : list oper) nc cols n : forall i,
  (forall t j, t < n -> j < cols -> (i + t) * nc + j < length cells /\ read (nth ((i + t) * nc + j) cells OMissing) = Ok (f ((i + t) * nc + j))) ->
  read_rows read cells nc cols n i = Ok (map (fun t => map (fun j => f (t * nc + j)) (seq 0 cols)) (seq i n)).
Proof.
  induction n as [|n IH]; intros i H; cbn [read_rows]; [reflexivity|].
  rewrite (read_row_ok read f). 2: { intros t L. specialize (H 0 t ltac:(lia) L). rewrite Nat.add_0_r in H. exact H. }
  cbn [obind]. rewrite IH. 2: { intros t j Lt Lj. specialize (H (S t) j ltac:(lia) Lj). rewrite Nat.add_succ_r in H. exact H. }
  cbn [obind seq map]. f_equal. f_equal. rewrite <- (Nat.add_0_r (i * nc)) at 1.
  generalize (i * nc). generalize 0. clear. induction cols as [|c IH]; intros a b; cbn; [reflexivity|].
  f_equal. rewrite <- (IH (S a) b). f_equal. f_equal. lia.
Qed.

(** writing *)
Lemma put_ok (cells : list oper) o : forall k, k < length cells -> exists l, put cells k o = Ok l /\ length l = length cells /\
  (forall t, nth_error l t = if t =? k then Some o else nth_error cells t).
Proof.
  induction cells as [|x r IH]; intros k H; [cbn in H; lia|]. destruct k as [|k]; cbn [put].
  - exists (o :: r). split; [reflexivity|]. split; [reflexivity|]. intros [|t]; reflexivity.
  - destruct (IH k) as (l & -> & L & F); [cbn in H; lia|]. exists (x :: l). split; [reflexivity|]. split; [cbn; lia|].
    intros [|t]; [reflexivity|]. cbn. apply F.
Qed.
(** the blocks a value is in *)
Definition blocks (o : oper) : list nat := match o with OStr b _ => [b] | OMulti b _ _ _ => [b] | _ => [] end.
Definition flat (o : oper) : Prop := match o with OMulti _ _ _ _ => False | _ => True end.
Lemma put_blocks (cells : list oper) o : forall k l, put cells k o = Ok l -> nth_error cells k = Some OMissing -> Forall flat cells -> flat o ->
  Forall flat l /\ Permutation (flat_map blocks l) (blocks o ++ flat_map blocks cells).
Proof.
  induction cells as [|x r IH]; intros k l E Z F Fo; [discriminate|]. inversion F as [|? ? Fx Fr]; subst. destruct k as [|k]; cbn in E, Z.
  - injection E as <-. injection Z as ->. cbn. split; [constructor; assumption|]. apply Permutation_refl.
  - destruct (put r k o) as [l'| | |] eqn:P; try discriminate. injection E as <-. destruct (IH k l' P Z Fr Fo) as [G H].
    split; [constructor; assumption|]. cbn. rewrite H, !app_assoc. apply Permutation_app_tail, Permutation_app_comm.
Qed.
Variable of_int : Z -> N.
Variable time_number : T -> N.
Notation write_cell := (write_cell of_int time_number).
Lemma write_blocks (c : cell) n : let '(o, m) := write_cell c n in flat o /\ n <= m /\ Permutation (blocks o) (seq n (m - n)).
Proof.
  assert (seq n (S n - n) = [n]) as E by (replace (S n - n) with 1 by lia; reflexivity).
  destruct c; cbn [ExcelModel.write_cell blocks]; rewrite ?Nat.sub_diag, ?E; (split; [exact Logic.I|]; split; [lia|]; apply Permutation_refl).
Qed.
(** the same cell, whatever block it is put in *)
Definition same_value (o o' : oper) : Prop := match o, o' with OStr _ s, OStr _ s' => s = s' | _, _ => o = o' end.
Lemma same_value_refl o : same_value o o. Proof. destruct o; cbn; auto. Qed.
Lemma write_any (c : cell) n m : same_value (fst (write_cell c n)) (fst (write_cell c m)).
Proof. destruct c; cbn; auto. Qed.

Lemma run_writes_ok ncols ws : forall (cells : list oper) next,
  NoDup (map (fun w => snd (fst w) + fst (fst w) * ncols) ws) ->
  (forall i j c, In (i, j, c) ws -> nth_error cells (j + i * ncols) = Some OMissing) -> Forall flat cells ->
  exists l next', run_writes of_int time_number ncols ws cells next = Ok (l, next') /\ length l = length cells /\ next <= next' /\ Forall flat l /\
    Permutation (flat_map blocks l) (flat_map blocks cells ++ seq next (next' - next)) /\
    (forall i j c, In (i, j, c) ws -> exists o, nth_error l (j + i * ncols) = Some o /\ same_value o (fst (write_cell c 0))) /\
    (forall k, ~ In k (map (fun w => snd (fst w) + fst (fst w) * ncols) ws) -> nth_error l k = nth_error cells k).
Proof.
  induction ws as [|[[i j] c] r IH]; intros cells next D Z F; cbn [run_writes].
  - exists cells, next. rewrite Nat.sub_diag. cbn. rewrite app_nil_r. repeat split; auto. intros ? ? ? [].
  - cbn in D. inversion D as [|? ? Nin D']; subst. pose proof (write_blocks c next) as W. pose proof (write_any c next 0) as WA.
    destruct (write_cell c next) as [o n1]. cbn [fst] in WA. destruct W as (Fo & Ln & Pb).
    pose proof (Z i j c (or_introl eq_refl)) as Zc.
    assert (j + i * ncols < length cells) as Lk by (apply nth_error_Some; rewrite Zc; discriminate).
    destruct (put_ok cells o _ Lk) as (l1 & P & L1 & Q). rewrite P. cbn [obind].
    destruct (put_blocks cells o _ l1 P Zc F Fo) as [F1 B1].
    destruct (IH l1 n1 D') as (l & n2 & E & L2 & Ln2 & F2 & B2 & In2 & Out2).
    { intros i' j' c' I. rewrite Q. destruct (j' + i' * ncols =? j + i * ncols) eqn:G; [|apply (Z i' j' c'); right; exact I].
      apply Nat.eqb_eq in G. exfalso. apply Nin. rewrite <- G. apply in_map_iff. exists (i', j', c'). split; [reflexivity|exact I]. }
    { exact F1. }
    exists l, n2. split; [exact E|]. split; [lia|]. split; [lia|]. split; [exact F2|]. split; [|split].
    + rewrite B2, B1, Pb. replace (n2 - next) with ((n1 - next) + (n2 - n1)) by lia. rewrite seq_app.
      replace (next + (n1 - next)) with n1 by lia. rewrite !app_assoc. apply Permutation_app_tail, Permutation_app_comm.
    + intros i' j' c' [I|I].
      * injection I as <- <- <-. exists o. split; [|exact WA]. rewrite Out2 by exact Nin. rewrite Q, Nat.eqb_refl. reflexivity.
      * apply In2, I.
    + intros k K. cbn in K. rewrite Out2 by tauto. rewrite Q. destruct (k =? j + i * ncols) eqn:G; [|reflexivity].
      apply Nat.eqb_eq in G. subst k. tauto.
Qed.

(** the writes are the columns *)
Notation wpos w := (fst (fst w), snd (fst w)).
Lemma column_in col v : forall row i j (c : cell), In (i, j, c) (column_writes col row v) <-> j = col /\ row <= i /\ nth_error v (i - row) = Some c.
Proof.
  induction v as [|x r IH]; intros row i j c; cbn [column_writes In].
  - split; [intros []|]. intros (_ & _ & H). destruct (i - row); discriminate.
  - rewrite IH. split.
    + intros [E|(-> & L & H)]; [injection E as -> -> ->; rewrite Nat.sub_diag; repeat split; lia|].
      repeat split; [lia|]. replace (i - row) with (S (i - S row)) by lia. exact H.
    + intros (-> & L & H). destruct (Nat.eq_dec i row) as [->|D].
      * left. rewrite Nat.sub_diag in H. cbn in H. congruence.
      * right. repeat split; [lia|]. replace (i - row) with (S (i - S row)) in H by lia. exact H.
Qed.
Lemma row_in row v : forall col i j (c : cell), In (i, j, c) (row_writes row col v) <-> i = row /\ col <= j /\ nth_error v (j - col) = Some c.
Proof.
  induction v as [|x r IH]; intros col i j c; cbn [row_writes In].
  - split; [intros []|]. intros (_ & _ & H). destruct (j - col); discriminate.
  - rewrite IH. split.
    + intros [E|(-> & L & H)]; [injection E as -> -> ->; rewrite Nat.sub_diag; repeat split; lia|].
      repeat split; [lia|]. replace (j - col) with (S (j - S col)) by lia. exact H.
    + intros (-> & L & H). destruct (Nat.eq_dec j col) as [->|D].
      * left. rewrite Nat.sub_diag in H. cbn in H. congruence.
      * right. repeat split; [lia|]. replace (j - col) with (S (j - S col)) in H by lia. exact H.
Qed.
Lemma vector_in vs : forall off i j (c : cell), In (i, j, c) (vector_writes off vs) <-> off <= j /\ nth_error (nth (j - off) vs []) i = Some c.
Proof.
  induction vs as [|v r IH]; intros off i j c; cbn [vector_writes].
  - split; [intros []|]. intros [_ H]. destruct (j - off), i; discriminate.
  - rewrite in_app_iff, column_in, IH. split.
    + intros [(-> & _ & H)|(L & H)].
      * rewrite Nat.sub_diag, Nat.sub_0_r in *. split; [lia|exact H].
      * split; [lia|]. replace (j - off) with (S (j - S off)) by lia. exact H.
    + intros [L H]. destruct (Nat.eq_dec j off) as [->|D].
      * left. rewrite Nat.sub_diag in H. rewrite Nat.sub_0_r. repeat split; [lia|exact H].
      * right. replace (j - off) with (S (j - S off)) in H by lia. split; [lia|exact H].
Qed.
Lemma rows_in m : forall off row i j (c : cell), In (i, j, c) (rows_writes off row m) <-> off <= j /\ row <= i /\ nth_error (nth (i - row) m []) (j - off) = Some c.
Proof.
  induction m as [|v r IH]; intros off row i j c; cbn [rows_writes].
  - split; [intros []|]. intros (_ & _ & H). destruct (i - row), (j - off); discriminate.
  - rewrite in_app_iff, row_in, IH. split.
    + intros [(-> & L & H)|(L & L' & H)].
      * rewrite Nat.sub_diag. repeat split; [lia..|exact H].
      * repeat split; [lia..|]. replace (i - row) with (S (i - S row)) by lia. exact H.
    + intros (L & L' & H). destruct (Nat.eq_dec i row) as [->|D].
      * left. rewrite Nat.sub_diag in H. repeat split; [lia|exact H].
      * right. replace (i - row) with (S (i - S row)) in H by lia. repeat split; [lia..|exact H].
Qed.
Lemma columns_length c (m : list (list cell)) : length (columns_of c m) = c.
Proof. unfold columns_of. rewrite map_length, seq_length. reflexivity. Qed.
Lemma columns_nth c (m : list (list cell)) i j : Forall (fun row => length row = c) m ->
  nth_error (nth j (columns_of c m) []) i = if j <? c then nth_error (nth i m []) j else None.
Proof.
  intro F. unfold columns_of. destruct (j <? c) eqn:E.
  - apply Nat.ltb_lt in E. rewrite (nth_indep _ [] (map (fun row => nth 0 row CEmpty) m)) by (rewrite map_length, seq_length; exact E).
    rewrite (map_nth (fun j => map (fun row => nth j row CEmpty) m) (seq 0 c) 0 j), seq_nth by exact E. cbn [plus]. rewrite nth_error_map.
    destruct (nth_error m i) as [row|] eqn:R; cbn.
    + rewrite (nth_error_nth m i [] R). rewrite Forall_forall in F. pose proof (F row (nth_error_In m i R)) as L.
      symmetry. apply nth_error_nth'. rewrite L. exact E.
    + apply nth_error_None in R. rewrite nth_overflow by exact R. destruct j; reflexivity.
  - apply Nat.ltb_ge in E. rewrite nth_overflow by (rewrite map_length, seq_length; exact E). destruct i; reflexivity.
Qed.
Lemma matrix_in ms : Forall (fun m => Forall (fun row => length row = fst m) (snd m)) ms -> forall off i j (c : cell),
  In (i, j, c) (matrix_writes off ms) <-> off <= j /\ nth_error (nth (j - off) (flat_map (fun m => columns_of (fst m) (snd m)) ms) []) i = Some c.
Proof.
  induction 1 as [|[w m] r F _ IH]; intros off i j c; cbn [matrix_writes flat_map fst snd].
  - split; [intros []|]. intros [_ H]. destruct (j - off), i; discriminate.
  - cbn [fst snd] in F. rewrite in_app_iff, rows_in, IH, Nat.sub_0_r. split.
    + intros [(L & _ & H)|(L & H)].
      * assert (j - off < w) as Lw.
        { destruct (nth_error m i) as [row|] eqn:R.
          - rewrite (nth_error_nth m i [] R) in H. rewrite Forall_forall in F. rewrite <- (F row (nth_error_In m i R)). apply nth_error_Some. congruence.
          - apply nth_error_None in R. rewrite nth_overflow in H by exact R. destruct (j - off); discriminate. }
        split; [exact L|]. rewrite app_nth1 by (rewrite columns_length; exact Lw). rewrite columns_nth by exact F.
        apply Nat.ltb_lt in Lw. rewrite Lw. exact H.
      * split; [lia|]. rewrite app_nth2 by (rewrite columns_length; lia). rewrite columns_length. replace (j - off - w) with (j - (off + w)) by lia. exact H.
    + intros [L H]. destruct (le_lt_dec w (j - off)) as [G|G].
      * right. split; [lia|]. rewrite app_nth2, columns_length in H by (rewrite columns_length; exact G). replace (j - (off + w)) with (j - off - w) by lia. exact H.
      * left. split; [exact L|]. split; [lia|]. rewrite app_nth1, columns_nth in H by (try rewrite columns_length; assumption).
        apply Nat.ltb_lt in G. rewrite G in H. exact H.
Qed.

(** no place is written twice *)
Lemma NoDup_app {A} (a b : list A) : NoDup a -> NoDup b -> (forall x, In x a -> ~ In x b) -> NoDup (a ++ b).
Proof.
  induction 1 as [|x r Nin _ IH]; intros Hb D; [exact Hb|]. cbn. constructor.
  - rewrite in_app_iff. intros [I|I]; [exact (Nin I)|exact (D x (or_introl eq_refl) I)].
  - apply IH; [exact Hb|]. intros y I. apply D. right. exact I.
Qed.
Definition places (ws : list (nat * nat * cell)) : list (nat * nat) := map fst ws.
Lemma places_in ws i j : In (i, j) (places ws) <-> exists c, In (i, j, c) ws.
Proof.
  unfold places. rewrite in_map_iff. split.
  - intros ([[a b] c] & E & I). cbn in E. injection E as -> ->. exists c. exact I.
  - intros [c I]. exists (i, j, c). split; [reflexivity|exact I].
Qed.
Lemma places_app a b : places (a ++ b) = places a ++ places b. Proof. apply map_app. Qed.
Lemma column_once col v : forall row, NoDup (places (column_writes col row v)).
Proof.
  induction v as [|x r IH]; intro row; cbn; [constructor|]. constructor; [|apply IH]. intro I. apply places_in in I. destruct I as [c I].
  apply column_in in I. lia.
Qed.
Lemma row_once row v : forall col, NoDup (places (row_writes row col v)).
Proof.
  induction v as [|x r IH]; intro col; cbn; [constructor|]. constructor; [|apply IH]. intro I. apply places_in in I. destruct I as [c I].
  apply row_in in I. lia.
Qed.
Lemma vector_once vs : forall off, NoDup (places (vector_writes off vs)).
Proof.
  induction vs as [|v r IH]; intro off; cbn [vector_writes]; [constructor|]. rewrite places_app. apply NoDup_app; [apply column_once|apply IH|].
  intros [i j] I J. apply places_in in I, J. destruct I as [c I], J as [d J]. apply column_in in I. apply vector_in in J. lia.
Qed.
Lemma rows_once m : forall off row, NoDup (places (rows_writes off row m)).
Proof.
  induction m as [|v r IH]; intros off row; cbn [rows_writes]; [constructor|]. rewrite places_app. apply NoDup_app; [apply row_once|apply IH|].
  intros [i j] I J. apply places_in in I, J. destruct I as [c I], J as [d J]. apply row_in in I. apply rows_in in J. lia.
Qed.
Lemma matrix_once ms : Forall (fun m => Forall (fun row => length row = fst m) (snd m)) ms -> forall off, NoDup (places (matrix_writes off ms)).
Proof.
  induction 1 as [|[w m] r F G IH]; intro off; cbn [matrix_writes]; [constructor|]. rewrite places_app. apply NoDup_app; [apply rows_once|apply IH|].
  intros [i j] I J. apply places_in in I, J. destruct I as [c I], J as [d J]. apply rows_in in I. apply (matrix_in r G) in J.
  destruct I as (L & _ & H). destruct J as (L' & _). cbn [fst snd] in F.
  assert (j - off < w); [|lia]. rewrite Nat.sub_0_r in H. destruct (nth_error m i) as [row|] eqn:R.
  - rewrite (nth_error_nth m i [] R) in H. rewrite Forall_forall in F. rewrite <- (F row (nth_error_In m i R)). apply nth_error_Some. congruence.
  - apply nth_error_None in R. rewrite nth_overflow in H by exact R. destruct (j - off); discriminate.
Qed.
Lemma matrices_rect (l : list (result N T)) : Forall rectangular l -> Forall (fun m => Forall (fun row => length row = fst m) (snd m)) (matrices l).
Proof. induction 1 as [|[c|v|c m] r F _ IH]; cbn in *; auto. Qed.
Lemma writes_in (l : list (result N T)) i j c : Forall rectangular l -> In (i, j, c) (writes l) <-> nth_error (nth j (columns l) []) i = Some c.
Proof.
  intro F. apply matrices_rect in F. unfold writes, columns, first_offset. rewrite !in_app_iff, column_in, vector_in, (matrix_in _ F), Nat.sub_0_r.
  set (M := flat_map (fun m => columns_of (fst m) (snd m)) (matrices l)).
  assert (forall A (u : list A) v z k, nth k (u ++ v) z = if k <? length u then nth k u z else nth (k - length u) v z) as Sp.
  { intros A u v z k. destruct (k <? length u) eqn:E; [apply Nat.ltb_lt in E; apply app_nth1, E|apply Nat.ltb_ge in E; apply app_nth2, E]. }
  assert (forall k (L : list (list cell)), nth_error (nth k L []) i = Some c -> k < length L) as Len.
  { intros k L H. destruct (le_lt_dec (length L) k) as [G|G]; [|exact G]. rewrite nth_overflow in H by exact G. destruct i; discriminate. }
  destruct (scalars l) as [|s ss] eqn:S; cbn [app length].
  - rewrite Sp, !Nat.sub_0_r. split.
    + intros [(_ & _ & H)|[(_ & H)|(L & H)]]; [destruct i; discriminate| |].
      * pose proof (Len _ _ H) as Z. apply Nat.ltb_lt in Z. rewrite Z. exact H.
      * assert (j <? length (vectors l) = false) as -> by (apply Nat.ltb_ge; lia). exact H.
    + intro H. destruct (j <? length (vectors l)) eqn:E.
      * right. left. split; [lia|exact H].
      * right. right. apply Nat.ltb_ge in E. split; [lia|exact H].
  - destruct j as [|j]; cbn [nth Nat.sub].
    + split; [intros [(_ & _ & H)|[(L & _)|(L & _)]]; [exact H|lia|lia]|]. intro H. left. repeat split; [lia|exact H].
    + rewrite Nat.sub_0_r, Sp. split.
      * intros [(E & _)|[(L & H)|(L & H)]]; [lia| |].
        -- pose proof (Len _ _ H) as Z. apply Nat.ltb_lt in Z. rewrite Z. exact H.
        -- assert (j <? length (vectors l) = false) as -> by (apply Nat.ltb_ge; lia). exact H.
      * intro H. destruct (j <? length (vectors l)) eqn:E.
        -- right. left. split; [lia|exact H].
        -- right. right. apply Nat.ltb_ge in E. split; [lia|exact H].
Qed.
Lemma writes_once (l : list (result N T)) : Forall rectangular l -> NoDup (places (writes l)).
Proof.
  intro F. apply matrices_rect in F. unfold writes. rewrite !places_app. apply NoDup_app; [apply column_once| |].
  - apply NoDup_app; [apply vector_once|apply matrix_once, F|]. intros [i j] I J. apply places_in in I, J. destruct I as [c I], J as [d J].
    apply vector_in in I. apply (matrix_in _ F) in J. destruct I as [L H]. destruct J as [L' _].
    destruct (le_lt_dec (length (vectors l)) (j - first_offset l)) as [G|G]; [|lia]. rewrite nth_overflow in H by exact G. destruct i; discriminate.
  - intros [i j] I J. apply places_in in I. destruct I as [c I]. apply column_in in I. destruct I as (-> & _ & H).
    rewrite in_app_iff, !places_in in J. unfold first_offset in J. destruct (scalars l) as [|s ss]; [destruct (i - 0); discriminate|].
    destruct J as [[d J]|[d J]]; [apply vector_in in J|apply (matrix_in _ F) in J]; lia.
Qed.
Lemma fold_max {A} (f : A -> nat) l : forall n, fold_left (fun n x => Nat.max n (f x)) l n = Nat.max n (list_max (map f l)).
Proof.
  induction l as [|x r IH]; intro n; [cbn; lia|]. cbn [fold_left map]. rewrite IH. change (list_max (f x :: map f r)) with (Nat.max (f x) (list_max (map f r))). lia.
Qed.
Lemma fold_plus {A} (f : A -> nat) l : forall n, fold_left (fun n x => n + f x) l n = n + list_sum (map f l).
Proof.
  induction l as [|x r IH]; intro n; [cbn; lia|]. cbn [fold_left map]. rewrite IH. change (list_sum (f x :: map f r)) with (f x + list_sum (map f r)). lia.
Qed.
Lemma n_cols_columns (l : list (result N T)) : n_cols l = length (columns l).
Proof.
  unfold n_cols, columns, first_offset. rewrite fold_plus, !app_length.
  assert (length (flat_map (fun m => columns_of (fst m) (snd m)) (matrices l)) = list_sum (map fst (matrices l))) as ->.
  { induction (matrices l) as [|m r IH]; cbn; [reflexivity|]. rewrite app_length, columns_length, IH. reflexivity. }
  destruct (scalars l); cbn; lia.
Qed.
Lemma list_max_ge l x : In x l -> x <= list_max l.
Proof.
  induction l as [|y r IH]; [intros []|]. change (list_max (y :: r)) with (Nat.max y (list_max r)). intros [->|I]; [lia|]. specialize (IH I). lia.
Qed.
Lemma n_rows_columns (l : list (result N T)) j : length (nth j (columns l) []) <= n_rows l.
Proof.
  unfold n_rows. rewrite !fold_max.
  destruct (le_lt_dec (length (columns l)) j) as [G|G]; [rewrite nth_overflow by exact G; cbn; lia|].
  pose proof (nth_In (columns l) [] G) as I. revert I. generalize (nth j (columns l) []). intros v I. unfold columns in I.
  rewrite !in_app_iff in I. destruct I as [I|[I|I]].
  - destruct (scalars l) as [|s ss]; [destruct I|]. destruct I as [<-|[]]. lia.
  - pose proof (list_max_ge (map (@length cell) (vectors l)) (length v) (in_map _ _ _ I)). lia.
  - apply in_flat_map in I. destruct I as (m & Im & I). unfold columns_of in I. apply in_map_iff in I. destruct I as (k & <- & _).
    rewrite map_length. pose proof (list_max_ge (map (fun x => length (snd x)) (matrices l)) (length (snd m)) (in_map (fun x => length (snd x)) _ _ Im)). lia.
Qed.
Lemma place_inj ncols i j i' j' : j < ncols -> j' < ncols -> j + i * ncols = j' + i' * ncols -> i = i' /\ j = j'.
Proof.
  intros L L' E. assert (i = i'); [|subst; lia].
  destruct (Nat.lt_total i i') as [Z|[Z|Z]]; [exfalso; nia|exact Z|exfalso; nia].
Qed.
Lemma indices_once (l : list (result N T)) : Forall rectangular l -> NoDup (map (fun w => snd (fst w) + fst (fst w) * n_cols l) (writes l)).
Proof.
  intro F. pose proof (writes_once l F) as D. unfold places in D.
  assert (forall ws : list (nat * nat * cell), (forall i j c, In (i, j, c) ws -> j < n_cols l) -> NoDup (map fst ws) -> NoDup (map (fun w => snd (fst w) + fst (fst w) * n_cols l) ws)) as G.
  { induction ws as [|[[i j] c] r IH]; intros H E; [constructor|]. inversion E as [|? ? Nin E']; subst. cbn. constructor.
    - intro I. apply in_map_iff in I. destruct I as ([[a b] d] & Q & I). cbn in Q. apply Nin. cbn. apply in_map_iff. exists (a, b, d). split; [|exact I].
      cbn. destruct (place_inj (n_cols l) a b i j) as [-> ->]; [apply (H a b d); right; exact I|apply (H i j c); left; reflexivity|exact Q|reflexivity].
    - apply IH; [|exact E']. intros. eapply H. right. eassumption. }
  apply G; [|exact D]. intros i j c I. apply (writes_in l i j c F) in I. rewrite n_cols_columns.
  destruct (le_lt_dec (length (columns l)) j) as [Z|Z]; [|exact Z]. rewrite nth_overflow in I by exact Z. destruct i; discriminate.
Qed.
Lemma xloper_ok (l : list (result N T)) : Forall rectangular l ->
  exists cells next, to_xloper of_int time_number l = Ok (OMulti 1 (Nat.max (n_rows l) 1) (n_cols l) cells, next) /\
    range (n_rows l) (n_cols l) cells /\ 2 <= next /\ Forall flat cells /\ Permutation (flat_map blocks cells) (seq 2 (next - 2)) /\
    (forall i j, i < n_rows l -> j < n_cols l -> match nth_error (nth j (columns l) []) i with
       | Some c => same_value (at_place (n_cols l) cells i j) (fst (write_cell c 0))
       | None => at_place (n_cols l) cells i j = OMissing end).
Proof.
  intro F. unfold to_xloper.
  assert (forall i j c, In (i, j, c) (writes l) -> i < n_rows l /\ j < n_cols l) as Bd.
  { intros i j c I. apply (writes_in l i j c F) in I. rewrite n_cols_columns.
    assert (j < length (columns l)) as Lj.
    { destruct (le_lt_dec (length (columns l)) j) as [Z|Z]; [|exact Z]. rewrite nth_overflow in I by exact Z. destruct i; discriminate. }
    split; [|exact Lj]. apply Nat.lt_le_trans with (length (nth j (columns l) [])); [apply nth_error_Some; congruence|apply n_rows_columns]. }
  assert (forall k, k < n_rows l * n_cols l -> nth_error (repeat (@OMissing N) (n_rows l * n_cols l)) k = Some OMissing) as Rp.
  { intros k L. rewrite (nth_error_nth' _ OMissing) by (rewrite repeat_length; exact L). rewrite nth_repeat. reflexivity. }
  destruct (run_writes_ok (n_cols l) (writes l) (repeat OMissing (n_rows l * n_cols l)) 2 (indices_once l F)) as (cells & next & -> & L & Ln & Fl & P & I1 & I2).
  { intros i j c I. destruct (Bd i j c I). apply Rp. nia. }
  { apply Forall_forall. intros o Io. apply repeat_spec in Io. subst o. exact Logic.I. }
  cbn [obind]. exists cells, next. split; [reflexivity|]. rewrite repeat_length in L. split; [exact L|]. split; [exact Ln|]. split; [exact Fl|]. split.
  - rewrite P. assert (forall n, flat_map blocks (repeat (@OMissing N) n) = []) as -> by (induction n; cbn; auto). reflexivity.
  - intros i j Li Lj. unfold at_place.
    assert (i * n_cols l + j < length cells) as Lk by (rewrite L; apply in_range; assumption).
    destruct (nth_error (nth j (columns l) []) i) as [c|] eqn:E.
    + apply (writes_in l i j c F) in E. destruct (I1 i j c E) as (o & Eo & S). rewrite Nat.add_comm in Eo. rewrite (nth_error_nth cells _ OMissing Eo). exact S.
    + assert (nth_error cells (i * n_cols l + j) = Some OMissing) as Z.
      { rewrite I2; [apply Rp; rewrite <- L; exact Lk|]. intro Q. apply in_map_iff in Q. destruct Q as ([[a b] d] & Q & I). cbn in Q.
        destruct (Bd a b d I) as [La Lb]. destruct (place_inj (n_cols l) a b i j Lb Lj ltac:(lia)) as [-> ->].
        apply (writes_in l i j d F) in I. congruence. }
      apply (nth_error_nth cells _ OMissing Z).
Qed.
Lemma free_flat (cells : list oper) b r c : Forall flat cells -> length cells = r * c -> free_contents (OMulti b r c cells) = Ok (flat_map blocks cells ++ [b]).
Proof.
  intros F L. cbn [free_contents]. rewrite <- L.
  assert (forall cs : list oper, Forall flat cs -> (fix go (cs : list oper) (n : nat) : outcome (list nat) :=
                 match cs, n with
                 | _, O => Ok []
                 | [], S m => UB
                 | x :: rest, S m => do a <- free_contents x; do z <- go rest m; Ok (a ++ z)
                 end) cs (length cs) = Ok (flat_map blocks cs)) as G.
  { induction 1 as [|x rest Fx _ IH]; [reflexivity|]. cbn [length flat_map]. rewrite IH.
    destruct x; cbn; try reflexivity. destruct Fx. }
  rewrite (G cells F). reflexivity.
Qed.
(** text *)
Lemma narrow_widen c : narrow (widen c) = c.
Proof. destruct c as [[] [] [] [] [] [] [] []]; reflexivity. Qed.
Lemma pascal s : from_pascal (to_pascal s) = until_zero (firstn max_size s).
Proof.
  unfold from_pascal, to_pascal. f_equal. rewrite map_map. rewrite <- (map_id (firstn max_size s)) at 2. apply map_ext. apply narrow_widen.
Qed.
Lemma to_pascal_nil s : to_pascal s = [] <-> s = [].
Proof.
  unfold to_pascal, max_size. destruct s as [|c r]; [rewrite firstn_nil; tauto|].
  replace (Z.to_nat 65535) with (S (Z.to_nat 65534)) by lia. cbn. split; discriminate.
Qed.
Lemma same_cell (o o' : oper) b : same_value o o' -> @to_cell N T o b = to_cell o' b /\ is_blank o = is_blank o' /\ to_double o = to_double o'.
Proof. destruct o, o'; cbn; intro H; try discriminate; try (injection H as ->); try subst; repeat split; try congruence. Qed.
Lemma cell_returned (c : cell) n : to_cell (fst (write_cell c n)) true = Ok (returned of_int time_number c).
Proof.
  destruct c as [|b|x|d|t|s]; cbn [fst ExcelModel.write_cell]; try reflexivity; [destruct b; reflexivity|].
  pose proof (to_pascal_nil s) as Z. pose proof (pascal s) as P. destruct (to_pascal s) as [|z r].
  - rewrite (proj1 Z eq_refl). reflexivity.
  - change (Ok (CStr (T:=T) (from_pascal (z :: r))) = Ok (returned of_int time_number (CStr s))). rewrite P.
    destruct s; [discriminate (proj2 Z eq_refl)|reflexivity].
Qed.
Lemma cell_blank (c : cell) n : is_blank (fst (write_cell c n)) = true <-> empty_cell c.
Proof.
  unfold empty_cell. pose proof (fun s => to_pascal_nil s) as Z.
  destruct c as [|b|x|d|t|s]; cbn [fst ExcelModel.write_cell is_blank].
  1: tauto.
  1-4: split; [discriminate|intros [H|H]; discriminate].
  specialize (Z s). destruct (to_pascal s) as [|z r].
  - split; [|reflexivity]. intros _. right. rewrite (proj1 Z eq_refl). reflexivity.
  - split; [discriminate|]. intros [H|H]; [discriminate|]. assert (s = []) as E by congruence. discriminate (proj2 Z E).
Qed.
Lemma until_zero_id s : ~ In "000"%char s -> until_zero s = s.
Proof.
  induction s as [|c r IH]; intro H; cbn; [reflexivity|]. destruct (nat_of_ascii c =? 0) eqn:E.
  - apply Nat.eqb_eq in E. exfalso. apply H. left. rewrite <- (ascii_nat_embedding c), E. reflexivity.
  - rewrite IH; [reflexivity|]. intro I. apply H. right. exact I.
Qed.

Lemma same_write (o : oper) (c : cell) : same_value o (fst (write_cell c 0)) -> exists n, o = fst (write_cell c n).
Proof.
  destruct c; cbn; intro H; try (exists 0; destruct o; cbn in H; congruence).
  - destruct o; cbn in H; try discriminate. subst. exists block. reflexivity.
  - destruct o; cbn in H; try discriminate. subst. exists block. reflexivity.
Qed.
Lemma list_tab {A} (l : list A) d : l = map (fun i => nth i l d) (seq 0 (length l)).
Proof.
  apply nth_ext with d d; [rewrite map_length, seq_length; reflexivity|]. intros n L.
  rewrite (nth_indep (map (fun i => nth i l d) (seq 0 (length l))) d (nth 0 l d)) by (rewrite map_length, seq_length; exact L).
  rewrite (map_nth (fun i => nth i l d) (seq 0 (length l)) 0 n), seq_nth by exact L. reflexivity.
Qed.
Lemma read_row_inv {A} (read : oper -> outcome A) (cells : list oper) n : forall k l, read_row read cells n k = Ok l ->
  length l = n /\ forall t, t < n -> exists x, nth_error l t = Some x /\ read (nth (k + t) cells OMissing) = Ok x.
Proof.
  induction n as [|n IH]; intros k l; cbn [read_row].
  - intros [= <-]. split; [reflexivity|lia].
  - destruct (cell_at cells k) as [o| | |] eqn:C; cbn [obind]; try discriminate.
    destruct (read o) as [x| | |] eqn:R; cbn [obind]; try discriminate.
    destruct (read_row read cells n (S k)) as [r| | |] eqn:Q; cbn [obind]; try discriminate. intros [= <-].
    destruct (IH _ _ Q) as [L F]. split; [cbn; lia|]. intros [|t] Lt.
    + exists x. split; [reflexivity|]. rewrite Nat.add_0_r. unfold cell_at in C. destruct (nth_error cells k) as [o'|] eqn:E; [|discriminate].
      injection C as ->. rewrite (nth_error_nth _ _ _ E). exact R.
    + rewrite Nat.add_succ_r. apply F. lia.
Qed.
Lemma read_rows_inv {A} (read : oper -> outcome A) (cells : list oper) nc cols n : forall i m, read_rows read cells nc cols n i = Ok m ->
  length m = n /\ forall t, t < n -> length (nth t m []) = cols /\
    forall j, j < cols -> exists x, nth_error (nth t m []) j = Some x /\ read (nth ((i + t) * nc + j) cells OMissing) = Ok x.
Proof.
  induction n as [|n IH]; intros i m; cbn [read_rows].
  - intros [= <-]. split; [reflexivity|lia].
  - destruct (read_row read cells cols (i * nc)) as [r| | |] eqn:R; cbn [obind]; try discriminate.
    destruct (read_rows read cells nc cols n (S i)) as [l| | |] eqn:Q; cbn [obind]; try discriminate. intros [= <-].
    destruct (IH _ _ Q) as [L F]. destruct (read_row_inv _ _ _ _ _ R) as [L1 F1]. split; [cbn; lia|]. intros [|t] Lt.
    + cbn [nth]. rewrite Nat.add_0_r. split; [exact L1|exact F1].
    + rewrite Nat.add_succ_r. cbn [nth]. apply F. lia.
Qed.
Lemma read_rows_as {A} (read : oper -> outcome A) (cells : list oper) nr nc r c : range nr nc cells -> r <= nr -> c <= nc ->
  (forall i j, i < r -> j < c -> exists x, read (at_place nc cells i j) = Ok x) ->
  exists m, read_rows read cells nc c r 0 = Ok m /\ read_as read nc cells r c m.
Proof.
  intros R Lr Lc H. destruct (Nat.eq_dec r 0) as [->|Nr]; [exists []; split; [reflexivity|]; split; [reflexivity|lia]|].
  destruct (Nat.eq_dec c 0) as [->|Nc].
  - exists (map (fun _ => []) (seq 0 r)). assert (forall n i, read_rows read cells nc 0 n i = Ok (map (fun _ => []) (seq i n))) as G.
    { induction n as [|n IH]; intro i; cbn [read_rows read_row obind]; [reflexivity|]. rewrite IH. reflexivity. }
    split; [apply G|]. split; [rewrite map_length, seq_length; reflexivity|]. intros i L. split; [|lia].
    assert (forall (l : list nat) i, nth i (map (fun _ => @nil A) l) [] = []) as -> by (induction l; intros [|k]; cbn; auto). reflexivity.
  - destruct (H 0 0) as [x0 _]; [lia..|].
    pose (f := fun k => match read (nth k cells OMissing) with Ok x => x | _ => x0 end).
    pose proof (read_rows_ok read f cells nc c r 0) as Q. cbn [plus] in Q. rewrite Q.
    + eexists. split; [reflexivity|]. pose proof (read_rows_inv read cells nc c r 0 _ (Q ltac:(
        intros t j Lt Lj; split; [rewrite R; apply in_range; lia|]; destruct (H t j Lt Lj) as [x E]; unfold at_place in E; unfold f; rewrite E; reflexivity))) as V.
      cbn [plus] in V. unfold read_as, at_place. exact V.
    + intros t j Lt Lj. split; [rewrite R; apply in_range; lia|]. destruct (H t j Lt Lj) as [x E]. unfold at_place in E. unfold f. rewrite E. reflexivity.
Qed.
Lemma read_as_unique {A} (read : oper -> outcome A) nc (cells : list oper) r c m m' : read_as read nc cells r c m -> read_as read nc cells r c m' -> m = m'.
Proof.
  intros [L H] [L' H']. apply nth_ext with [] []; [congruence|]. intros i Li. rewrite L in Li. destruct (H i Li) as [Lr F], (H' i Li) as [Lr' F'].
  assert (forall (u v : list A), length u = length v -> (forall j, j < length u -> nth_error u j = nth_error v j) -> u = v) as Ext.
  { induction u as [|x u IH]; intros [|y v] E G; try discriminate; [reflexivity|]. pose proof (G 0 ltac:(cbn; lia)) as G0. cbn in G0. f_equal; [congruence|].
    apply IH; [cbn in E; lia|]. intros j Lj. apply (G (S j)). cbn. lia. }
  apply Ext; [congruence|]. intros j Lj. rewrite Lr in Lj. destruct (F j Lj) as (x & -> & E), (F' j Lj) as (y & -> & E'). congruence.
Qed.
Lemma read_items_written {A} (read : oper -> outcome A) (g : cell -> A) (v : list cell) : forall (pre cells : list oper),
  Forall2 (fun o c => exists n, o = fst (write_cell c n)) cells v ->
  (forall c n, In c v -> ~ empty_cell c -> read (fst (write_cell c n)) = Ok (g c)) ->
  read_items read (pre ++ cells) (length cells) (length pre) = Ok (map g (before_empty v)).
Proof.
  induction v as [|c r IH]; intros pre cells F H; inversion F as [|o ? cs ? [n En] F']; subst; cbn [read_items length]; [reflexivity|].
  unfold cell_at. rewrite nth_error_app2, Nat.sub_diag by lia. cbn [nth_error obind].
  pose proof (cell_blank c n) as Bk. destruct (is_blank (fst (write_cell c n))) eqn:E.
  - destruct (proj1 Bk eq_refl) as [->| ->]; reflexivity.
  - assert (~ empty_cell c) as Ne by (intro Z; apply Bk in Z; discriminate).
    rewrite (H c n (or_introl eq_refl) Ne). cbn [obind].
    specialize (IH (pre ++ [fst (write_cell c n)]) cs F'). rewrite <- app_assoc, app_length in IH. cbn [app length] in IH.
    rewrite Nat.add_comm in IH. cbn [plus] in IH. rewrite IH by (intros; apply H; [right|]; assumption). cbn [obind].
    assert (before_empty (c :: r) = c :: before_empty r) as ->; [|reflexivity].
    unfold empty_cell in Ne. destruct c as [| | | | |[|]]; try reflexivity; exfalso; auto.
Qed.
Lemma pairs_ok (rows : list (oper * oper)) : forall (pre : list oper) k (d : dict N T), length pre = 2 * k ->
  read_pairs (pre ++ flat_map (fun p => [fst p; snd p]) rows) (length rows) k d =
  fold_left add_entry (entries rows) (Ok d).
Proof.
  induction rows as [|[key v] r IH]; intros pre k d L; cbn [read_pairs length flat_map fst snd app]; [reflexivity|].
  unfold cell_at. rewrite !nth_error_app2 by lia. rewrite L, Nat.sub_diag. replace (2 * k + 1 - 2 * k) with 1 by lia. cbn [nth_error obind].
  assert (forall d' : dict N T, read_pairs (pre ++ key :: v :: flat_map (fun p => [fst p; snd p]) r) (length r) (S k) d' =
     fold_left add_entry (entries r) (Ok d')) as G.
  { intro d'. specialize (IH (pre ++ [key; v]) (S k) d'). rewrite <- app_assoc in IH. apply IH. rewrite app_length. cbn. lia. }
  assert (forall e (bad : outcome (dict N T)), (forall d, bad <> Ok d) -> fold_left add_entry e bad = bad) as Bad.
  { induction e as [|p e IHe]; intros bad Nb; [reflexivity|]. cbn [fold_left]. destruct bad as [z| | |]; [destruct (Nb z eq_refl)| | |]; apply IHe; discriminate. }
  cbn [entries]. destruct (is_blank v) eqn:Ev; cbn [negb].
  - destruct (is_blank key); [reflexivity|apply G].
  - cbn [fold_left]. unfold add_entry at 2. cbn [obind fst snd]. destruct (to_string key false) as [ks| | |]; cbn [obind]; try (rewrite Bad by discriminate; reflexivity).
    destruct (to_cell v false) as [c| | |]; cbn [obind]; try (rewrite Bad by discriminate; reflexivity).
    destruct (DictModel.insert d ks c) as [d'| | |]; cbn [obind]; try (rewrite Bad by discriminate; reflexivity). apply G.
Qed.
End Proofs.
