(** C76: tables exchanged with the spreadsheet. *)
From Coq Require Import String Ascii ZArith List Bool Lia Permutation.
From Verif Require Import Base DateModel DateProofs StringModel DictModel ExcelModel ExcelSpec ExcelProofs.
Import ListNotations.
Open Scope nat_scope.

(** Several results make one table: the scalars in a column, then a column for each vector, then the matrices side by side.  The
    place of every value is its place in that list of columns, and the places left over are missing values. *)
Theorem C76_layout {N T} (of_int : Z -> N) (time_number : T -> N) (l : list (result N T)) :
  Forall rectangular l -> 1 <= n_rows l ->
  exists cells blocks, to_xloper of_int time_number l = Ok (OMulti 1 (n_rows l) (length (columns l)) cells, blocks) /\
    range (n_rows l) (length (columns l)) cells /\ (forall v, In v (columns l) -> length v <= n_rows l) /\
    forall i j, i < n_rows l -> j < length (columns l) ->
      match nth_error (nth j (columns l) []) i with
      | Some c => exists n, at_place (length (columns l)) cells i j = fst (write_cell of_int time_number c n)
      | None => at_place (length (columns l)) cells i j = OMissing
      end.
Proof.
  intros F R. destruct (xloper_ok of_int time_number l F) as (cells & next & E & L & _ & _ & _ & H). rewrite Nat.max_l in E by lia.
  rewrite n_cols_columns in *. exists cells, next. split; [exact E|]. split; [exact L|]. split.
  - intros v I. apply In_nth with (d := []) in I. destruct I as (j & _ & <-). apply n_rows_columns.
  - intros i j Li Lj. specialize (H i j Li Lj). destruct (nth_error (nth j (columns l) []) i) as [c|]; [|exact H].
    apply (same_write of_int time_number), H.
Qed.
Print Assumptions C76_layout.
Example C76_layout_witness :
  to_xloper (N:=Z) (T:=Z) id id [RVector [CNum 1; CNum 2]; RScalar (CBool true); RMatrix 2 [[CNum 3; CStr ["a"%char]]; [CNum 5; CNum 6]; [CNum 7; CNum 8]]]%Z
  = Ok (OMulti 1 3 4 [OBool 1; ONum 1; ONum 3; OStr 2 [97]; OMissing; ONum 2; ONum 5; ONum 6; OMissing; OMissing; ONum 7; ONum 8]%Z, 3).
Proof. vm_compute. reflexivity. Qed.

(** The spreadsheet hands the table back when it is done with it: each block of memory allocated for it is freed once. *)
Theorem C76_freed {N T} (of_int : Z -> N) (time_number : T -> N) (l : list (result N T)) :
  Forall rectangular l -> 1 <= n_rows l ->
  exists o blocks freed, to_xloper of_int time_number l = Ok (o, blocks) /\ auto_free o = Ok freed /\ Permutation freed (seq 0 blocks).
Proof.
  intros F R. destruct (xloper_ok of_int time_number l F) as (cells & next & E & L & Ln & Fl & P & _). rewrite Nat.max_l in E by lia.
  eexists _, next, _. split; [exact E|]. unfold auto_free. rewrite (free_flat cells 1 (n_rows l) (n_cols l) Fl L). cbn [obind]. split; [reflexivity|].
  rewrite P. rewrite <- app_assoc. replace next with (2 + (next - 2)) at 2 by lia. rewrite seq_app. cbn [plus].
  rewrite Permutation_app_comm. apply Permutation_app_tail. change (seq 0 2) with [0; 1]. constructor 3.
Qed.
Print Assumptions C76_freed.
Example C76_freed_witness :
  (do r <- to_xloper (N:=Z) (T:=Z) id id [RScalar (CStr ["a"%char]); RVector [CEmpty; CNum 2%Z]]; auto_free (fst r)) = Ok [2; 3; 1; 0].
Proof. vm_compute. reflexivity. Qed.

(** The part of a range that is read: the smallest fenced block at its top left, unless the first cell and its two neighbours are
    all blank, when nothing is read. *)
Theorem C76_block {N : Type} nr nc (cells : list (oper N)) : range nr nc cells -> 2 <= nr -> 2 <= nc ->
  (blank nc cells 0 0 /\ blank nc cells 0 1 /\ blank nc cells 1 0 -> nonblank_size nr nc cells = Ok (0, 0)) /\
  (~ (blank nc cells 0 0 /\ blank nc cells 0 1 /\ blank nc cells 1 0) ->
   exists r c, nonblank_size nr nc cells = Ok (r, c) /\ smallest nr nc (blank nc cells) r c).
Proof.
  intros R Lr Lc. unfold nonblank_size.
  assert (nr * nc =? 0 = false) as -> by (apply Nat.eqb_neq; nia).
  assert (nr =? 1 = false) as -> by (apply Nat.eqb_neq; lia). assert (nc =? 1 = false) as -> by (apply Nat.eqb_neq; lia). cbn [orb].
  rewrite blank_ok by (rewrite R; nia). cbn [obind]. rewrite !blank_ok by (rewrite R; nia). cbn [obind].
  unfold blank, at_place. cbn [Nat.mul Nat.add]. rewrite !Nat.add_0_r. fold (B cells 0) (B cells 1) (B cells nc).
  assert (exists r c, grow (nr + nc) cells nr nc 1 1 = Ok (r, c) /\ smallest nr nc (blank nc cells) r c) as G.
  { apply grow_ok; [exact R|lia|lia| |lia]. intros r c (Q1 & Q2 & _). lia. }
  unfold blank, at_place in G.
  destruct (B cells 0); [|split; [intros (Z & _); discriminate|intros _; exact G]]. cbn [obind].
  destruct (B cells 1); [|split; [intros (_ & Z & _); discriminate|intros _; exact G]]. cbn [obind].
  destruct (B cells nc); [|split; [intros (_ & _ & Z); discriminate|intros _; exact G]].
  split; [reflexivity|]. intro Z. destruct Z. auto.
Qed.
Print Assumptions C76_block.
Example C76_block_witness :
  nonblank_size (N:=Z) 4 4 [ONil; ONum 1; ONum 2; ONil; ONum 3; ONil; ONil; ONil; ONum 4; ONil; ONum 5; ONil; ONil; ONil; ONil; ONum 9]%Z = Ok (3, 3).
Proof. vm_compute. reflexivity. Qed.
(** of a single row or a single column, the cells before the first blank one *)
Theorem C76_line {N : Type} nr nc (cells : list (oper N)) : range nr nc cells -> (nr = 1 /\ 1 <= nc) \/ (nc = 1 /\ 1 <= nr) ->
  exists n, nonblank_size nr nc cells = Ok (if nr =? 1 then (1, n) else (n, 1)) /\ n <= length cells /\
    (forall k, k < n -> is_blank (nth k cells OMissing) = false) /\ (n < length cells -> is_blank (nth n cells OMissing) = true).
Proof.
  intros R H. unfold nonblank_size. assert (nr * nc =? 0 = false) as -> by (apply Nat.eqb_neq; nia).
  assert ((nr =? 1) || (nc =? 1) = true) as -> by (destruct H as [[-> _]|[-> _]]; cbn; [reflexivity|apply orb_true_r]).
  rewrite <- R. destruct (leading_ok cells (length cells) 0 ltac:(lia)) as (n & -> & L & F & G). cbn [obind]. exists n. split; [reflexivity|]. auto.
Qed.
Print Assumptions C76_line.
Example C76_line_witness : nonblank_size (N:=Z) 1 4 [ONum 1; ONum 2; OStr 0 []; ONum 4]%Z = Ok (1, 2).
Proof. reflexivity. Qed.

(** A matrix is read cell by cell: all of the range when asked for, or else the block above.  It fails when a cell does. *)
Theorem C76_matrix {N A} (read : oper N -> outcome A) b nr nc cells (optional greedy : bool) r c :
  range nr nc cells -> (if greedy then (r, c) = (nr, nc) else nonblank_size nr nc cells = Ok (r, c)) -> 1 <= r <= nr -> 1 <= c <= nc ->
  (forall m, to_matrix read (OMulti b nr nc cells) optional greedy = Ok m -> read_as read nc cells r c m) /\
  ((forall i j, i < r -> j < c -> exists x, read (at_place nc cells i j) = Ok x) -> exists m, to_matrix read (OMulti b nr nc cells) optional greedy = Ok m).
Proof.
  intros R E Lr Lc. cbn [to_matrix].
  assert ((if greedy then Ok (nr, nc) else nonblank_size nr nc cells) = Ok (r, c)) as -> by (destruct greedy; congruence).
  cbn [obind]. assert (r * c =? 0 = false) as -> by (apply Nat.eqb_neq; nia). split.
  - intros m Em. apply read_rows_inv in Em. exact Em.
  - intro H. destruct (read_rows_as read cells nr nc r c R ltac:(lia) ltac:(lia) H) as (m & Em & _). exists m. exact Em.
Qed.
Print Assumptions C76_matrix.
Example C76_matrix_witness : to_matrix (N:=Z) to_double (OMulti 0 2 3 [ONum 1; ONum 2; ONil; ONum 3; ONum 4; ONil]%Z) false false = Ok [[1; 2]; [3; 4]]%Z.
Proof. vm_compute. reflexivity. Qed.

(** A matrix of cells written to the spreadsheet and read back whole *)
Section RoundTrip.
Context {N T : Type}.
Variable of_int : Z -> N.
Variable time_number : T -> N.
Lemma written c (m : list (list (DictModel.cell N T))) : Forall (fun row => length row = c) m -> 1 <= length m ->
  exists cells blocks, to_xloper of_int time_number [RMatrix c m] = Ok (OMulti 1 (length m) c cells, blocks) /\ range (length m) c cells /\
    (forall i j, i < length m -> j < c -> exists n, at_place c cells i j = fst (write_cell of_int time_number (nth j (nth i m []) CEmpty) n)).
Proof.
  intros F L. assert (Forall rectangular [RMatrix c m]) as F' by (constructor; [exact F|constructor]).
  assert (columns [RMatrix c m] = columns_of c m) as Ec by (unfold columns; cbn; rewrite !app_nil_r; reflexivity).
  assert (n_rows [RMatrix c m] = length m) as Er by reflexivity.
  destruct (C76_layout of_int time_number _ F') as (cells & blocks & E & R & _ & H); [rewrite Er; exact L|].
  rewrite Ec, columns_length, Er in *. exists cells, blocks. split; [exact E|]. split; [exact R|]. intros i j Li Lj. specialize (H i j Li Lj).
  rewrite columns_nth in H by exact F. pose proof (proj2 (Nat.ltb_lt _ _) Lj) as Lb. rewrite Lb in H.
  assert (length (nth i m []) = c) as Lw by (rewrite Forall_forall in F; apply F, nth_In, Li).
  rewrite (nth_error_nth' (nth i m []) CEmpty) in H by (rewrite Lw; exact Lj). exact H.
Qed.
Lemma returned_matrix c (m : list (list (DictModel.cell N T))) cells : Forall (fun row => length row = c) m ->
  (forall i j, i < length m -> j < c -> exists n, at_place c cells i j = fst (write_cell of_int time_number (nth j (nth i m []) CEmpty) n)) ->
  read_as (fun x => to_cell x true) c cells (length m) c (map (map (returned of_int time_number)) m).
Proof.
  intros F H. split; [apply map_length|]. intros i Li.
  assert (length (nth i m []) = c) as Lw by (rewrite Forall_forall in F; apply F, nth_In, Li).
  change (@nil (DictModel.cell N T)) with (map (returned of_int time_number) []). rewrite map_nth. split; [rewrite map_length; exact Lw|].
  intros j Lj. destruct (H i j Li Lj) as [n ->]. rewrite cell_returned. eexists. split; [|reflexivity].
  rewrite nth_error_map, (nth_error_nth' _ CEmpty) by (rewrite Lw; exact Lj). reflexivity.
Qed.
End RoundTrip.
Theorem C76_round_trip {N T} (of_int : Z -> N) (time_number : T -> N) c m optional :
  Forall (fun row => length row = c) m -> 1 <= length m -> 1 <= c ->
  exists o blocks, to_xloper of_int time_number [RMatrix c m] = Ok (o, blocks) /\
    to_cell_matrix o optional true = Ok (map (map (returned of_int time_number)) m).
Proof.
  intros F L Lc. destruct (written of_int time_number c m F L) as (cells & blocks & E & R & H). eexists _, blocks. split; [exact E|].
  pose proof (returned_matrix of_int time_number c m cells F H) as RA. unfold to_cell_matrix.
  destruct (C76_matrix (fun x => to_cell (T:=T) x true) 1 (length m) c cells optional true (length m) c R eq_refl ltac:(lia) ltac:(lia)) as [P Q].
  destruct Q as [m' Em]. { intros i j Li Lj. destruct (H i j Li Lj) as [n ->]. rewrite (cell_returned of_int time_number). eauto. }
  rewrite Em. f_equal. exact (read_as_unique _ _ _ _ _ _ _ (P m' Em) RA).
Qed.
Print Assumptions C76_round_trip.
Example C76_round_trip_witness :
  (do r <- to_xloper (N:=Z) (T:=Z) id id [RMatrix 2 [[CStr ["a"%char]; CEmpty]; [CBool true; CNum 4]; [CDate 10; CStr []]]%Z]; to_cell_matrix (T:=Z) (fst r) false true)
  = Ok [[CStr ["a"%char]; CEmpty]; [CBool true; CNum 4]; [CNum 25578; CEmpty]]%Z.
Proof. vm_compute. reflexivity. Qed.
(** and read back up to the blanks: it is whole when its first row and its first column have no empty cell *)
Theorem C76_round_trip_block {N T} (of_int : Z -> N) (time_number : T -> N) c m optional :
  Forall (fun row => length row = c) m -> 1 <= length m -> 1 <= c ->
  (forall j, j < c -> ~ empty_cell (nth j (nth 0 m []) CEmpty)) -> (forall i, i < length m -> ~ empty_cell (nth 0 (nth i m []) CEmpty)) ->
  exists o blocks, to_xloper of_int time_number [RMatrix c m] = Ok (o, blocks) /\
    to_cell_matrix o optional false = Ok (map (map (returned of_int time_number)) m).
Proof.
  intros F L Lc R0 C0. destruct (written of_int time_number c m F L) as (cells & blocks & E & R & H). eexists _, blocks. split; [exact E|].
  pose proof (returned_matrix of_int time_number c m cells F H) as RA. unfold to_cell_matrix.
  assert (forall i j, i < length m -> j < c -> blank c cells i j -> empty_cell (nth j (nth i m []) CEmpty)) as Bk.
  { intros i j Li Lj Z. unfold blank in Z. destruct (H i j Li Lj) as [n En]. rewrite En in Z. apply cell_blank in Z. exact Z. }
  assert (nonblank_size (length m) c cells = Ok (length m, c)) as Sz.
  { destruct (Nat.eq_dec (length m) 1) as [E1|E1]; [|destruct (Nat.eq_dec c 1) as [E2|E2]].
    - destruct (C76_line (length m) c cells R ltac:(lia)) as (n & -> & Ln & _ & Z). rewrite E1. cbn [Nat.eqb]. f_equal. f_equal.
      unfold range in R. rewrite E1, Nat.mul_1_l in R. destruct (Nat.eq_dec n c) as [Q|Q]; [exact Q|]. exfalso. apply (R0 n); [lia|].
      apply (Bk 0 n); [lia..|]. unfold blank, at_place. cbn. apply Z. lia.
    - destruct (C76_line (length m) c cells R ltac:(lia)) as (n & -> & Ln & _ & Z).
      assert (length m =? 1 = false) as -> by (apply Nat.eqb_neq, E1). rewrite E2. f_equal. f_equal.
      unfold range in R. rewrite E2, Nat.mul_1_r in R. destruct (Nat.eq_dec n (length m)) as [Q|Q]; [exact Q|]. exfalso. apply (C0 n); [lia|].
      apply (Bk n 0); [lia..|]. unfold blank, at_place. rewrite E2, Nat.mul_1_r, Nat.add_0_r. apply Z. lia.
    - destruct (C76_block (length m) c cells R ltac:(lia) ltac:(lia)) as [_ K]. destruct K as (r & c' & -> & (F1 & F2 & F3 & F4) & _).
      { intros (Z & _). apply (R0 0); [lia|]. apply Bk; [lia..|exact Z]. }
      f_equal. f_equal.
      + destruct F3 as [F3|F3]; [exact F3|]. destruct (Nat.eq_dec r (length m)) as [Q|Q]; [exact Q|]. exfalso. apply (C0 r); [lia|]. apply Bk; [lia..|]. apply F3. lia.
      + destruct F4 as [F4|F4]; [exact F4|]. destruct (Nat.eq_dec c' c) as [Q|Q]; [exact Q|]. exfalso. apply (R0 c'); [lia|]. apply Bk; [lia..|]. apply F4. lia. }
  destruct (C76_matrix (fun x => to_cell (T:=T) x true) 1 (length m) c cells optional false (length m) c R Sz ltac:(lia) ltac:(lia)) as [P Q].
  destruct Q as [m' Em]. { intros i j Li Lj. destruct (H i j Li Lj) as [n ->]. rewrite (cell_returned of_int time_number). eauto. }
  rewrite Em. f_equal. exact (read_as_unique _ _ _ _ _ _ _ (P m' Em) RA).
Qed.
Print Assumptions C76_round_trip_block.
Example C76_round_trip_block_witness :
  (do r <- to_xloper (N:=Z) (T:=Z) id id [RMatrix 2 [[CNum 1; CNum 2]; [CNum 3; CEmpty]; [CNum 5; CNum 6]]%Z]; to_cell_matrix (T:=Z) (fst r) false false)
  = Ok [[CNum 1; CNum 2]; [CNum 3; CEmpty]; [CNum 5; CNum 6]]%Z.
Proof. vm_compute. reflexivity. Qed.

(** A vector written and read back comes back up to its first empty cell, by any reader that reads its other cells *)
Theorem C76_vector {N T A} (of_int : Z -> N) (time_number : T -> N) (read : oper N -> outcome A) (g : DictModel.cell N T -> A) v optional : v <> [] ->
  (forall c n, In c v -> ~ empty_cell c -> read (fst (write_cell of_int time_number c n)) = Ok (g c)) ->
  exists o blocks, to_xloper of_int time_number [RVector v] = Ok (o, blocks) /\
    read_vector read o optional = match before_empty v with [] => if optional then Ok [] else Throw | w => Ok (map g w) end.
Proof.
  intros Nv H. assert (Forall rectangular [RVector v]) as F by (constructor; [exact Logic.I|constructor]).
  assert (n_rows [RVector v] = length v) as Er by reflexivity.
  assert (1 <= length v) as Lv by (destruct v; [congruence|cbn; lia]).
  destruct (C76_layout of_int time_number _ F) as (cells & blocks & E & R & _ & L); [rewrite Er; exact Lv|].
  assert (columns [RVector v] = [v]) as Ec by reflexivity. rewrite Ec, Er in *. cbn [length] in *. eexists _, blocks. split; [exact E|].
  unfold range in R. rewrite Nat.mul_1_r in R.
  assert (Forall2 (fun o c => exists n, o = fst (write_cell of_int time_number c n)) cells v) as F2.
  { assert (forall i, i < length v -> exists n c, nth_error v i = Some c /\ nth_error cells i = Some (fst (write_cell of_int time_number c n))) as P.
    { intros i Li. specialize (L i 0 Li ltac:(lia)). cbn [nth] in L. unfold at_place in L. rewrite Nat.mul_1_r, Nat.add_0_r in L.
      destruct (nth_error v i) as [c|] eqn:Q; [|apply nth_error_None in Q; lia]. destruct L as [n En]. exists n, c. split; [reflexivity|].
      rewrite <- En. apply nth_error_nth'. lia. }
    clear - R P. revert cells R P. induction v as [|c r IH]; intros [|o cs] R P; try discriminate; constructor.
    - destruct (P 0 ltac:(cbn; lia)) as (n & c' & Q & Q'). cbn in Q, Q'. exists n. congruence.
    - apply IH; [cbn in R; lia|]. intros i Li. apply (P (S i)). cbn. lia. }
  cbn [read_vector is_blank]. assert ((length v =? 1) || (1 =? 1) = true) as -> by (apply orb_true_r).
  rewrite Nat.mul_1_r, <- R. pose proof (read_items_written of_int time_number read g v [] cells F2 H) as Q. cbn [app length] in Q. rewrite Q. cbn [obind].
  destruct (before_empty v); reflexivity.
Qed.
Print Assumptions C76_vector.
Example C76_vector_witness :
  (do r <- to_xloper (N:=Z) (T:=Z) id id [RVector [CNum 1; CNum 2]%Z]; read_vector to_double (fst r) false) = Ok [1; 2]%Z.
Proof. vm_compute. reflexivity. Qed.

(** A single value written and read back *)
Theorem C76_values {N T} (of_int : Z -> N) (as_int : N -> outcome Z) (equals_int near_int : N -> Z -> bool) (time_number : T -> N) n optional :
  (forall x, to_double (fst (write_cell of_int time_number (CNum x) n)) = Ok x) /\
  (forall b, to_bool equals_int (fst (write_cell of_int time_number (CBool b) n)) = Ok b) /\
  (forall z, as_int (of_int z) = Ok z -> near_int (of_int z) z = true -> to_int as_int near_int (fst (write_cell of_int time_number (CNum (of_int z)) n)) = Ok z) /\
  (forall d, (1 <= d < 65536)%Z -> as_int (of_int (to_excel d)) = Ok (to_excel d) -> equals_int (of_int (to_excel d)) (to_excel d) = true ->
    to_date N T as_int equals_int (fst (write_cell of_int time_number (CDate d) n)) optional = Ok d) /\
  (forall s, length s <= Z.to_nat 65535 -> ~ In "000"%char s -> to_string (fst (write_cell of_int time_number (CStr s) n)) optional = Ok s).
Proof.
  split; [reflexivity|]. split; [intros []; reflexivity|]. split; [|split].
  - intros z E G. cbn [fst write_cell to_int]. rewrite E. cbn [obind]. rewrite G. reflexivity.
  - intros d Hd E G. unfold to_date. cbn [fst write_cell to_cell is_blank obind]. rewrite E. cbn [obind]. rewrite G.
    f_equal. unfold from_excel, to_excel, u16, EXCEL_OFFSET. destruct (_ && _) eqn:Q.
    + replace (d + 25568 - 25568)%Z with d by lia. apply Z.mod_small. lia.
    + apply andb_false_iff in Q. rewrite !Z.ltb_ge in Q. lia.
  - intros s L Z. cbn [fst write_cell to_string]. rewrite pascal. f_equal. rewrite firstn_all2 by exact L. apply until_zero_id, Z.
Qed.
Print Assumptions C76_values.
Example C76_values_witness :
  to_date Z Z (fun x => Ok x) Z.eqb (fst (write_cell id id (CDate (T:=Z) 20000%Z) 0)) false = Ok 20000%Z /\
  to_string (N:=Z) (fst (write_cell id id (CStr (T:=Z) ["a"%char; "200"%char]) 0)) false = Ok ["a"%char; "200"%char].
Proof. split; reflexivity. Qed.

(** A dictionary is two columns of keys and values: rows without a value are passed over, a blank row ends it, and the rest are
    inserted in order.  A table of another width is refused. *)
Theorem C76_dictionary {N T} b (rows : list (oper N * oper N)) :
  to_dictionary (T:=T) (OMulti b (length rows) 2 (flat_map (fun p => [fst p; snd p]) rows)) = fold_left add_entry (entries rows) (Ok []) /\
  (forall r c cells, c <> 2 -> to_dictionary (N:=N) (T:=T) (OMulti b r c cells) = Throw).
Proof.
  split; [|intros r c cells H; cbn [to_dictionary]; now rewrite (proj2 (Nat.eqb_neq c 2) H)].
  cbn [to_dictionary Nat.eqb]. apply (pairs_ok rows [] 0 []). reflexivity. Qed.
Print Assumptions C76_dictionary.
Example C76_dictionary_witness :
  to_dictionary (N:=Z) (T:=Z) (OMulti 0 4 2 [OStr 0 [97]; ONum 1; OStr 0 [98]; ONil; OStr 0 [99]; ONum 3; ONil; ONil]%Z) = Ok [(["A"%char], CNum 1); (["C"%char], CNum 3)]%Z.
Proof. vm_compute. reflexivity. Qed.

(** A result with no rows, such as one empty vector, is said to have one row but has no cell: reading or freeing it goes beyond
    the array.  (Every table of results can be read and freed: false.) *)
Theorem C76_no_rows_refuted {N T} (of_int : Z -> N) (time_number : T -> N) (l : list (result N T)) : n_rows l = 0 -> columns l <> [] ->
  exists o blocks, to_xloper of_int time_number l = Ok (o, blocks) /\ auto_free o = UB /\ forall A (read : oper N -> outcome A) optional, to_matrix read o optional true = UB.
Proof.
  intros R C. assert (n_cols l <> 0) as Nc by (rewrite n_cols_columns; destruct (columns l); [congruence|discriminate]).
  assert (writes l = []) as W.
  { unfold n_rows in R. rewrite !fold_max in R.
    assert (length (scalars l) = 0 /\ list_max (map (@length _) (vectors l)) = 0 /\ list_max (map (fun m => length (snd m)) (matrices l)) = 0) as (Z1 & Z2 & Z3) by lia.
    unfold writes. destruct (scalars l); [|discriminate]. cbn [column_writes app].
    assert (forall vs : list (list (DictModel.cell N T)), list_max (map (@length _) vs) = 0 -> forall k, vector_writes k vs = []) as V.
    { induction vs as [|v r IH]; intros H k; [reflexivity|]. change (Nat.max (length v) (list_max (map (@length _) r)) = 0) in H.
      cbn [vector_writes]. destruct v; [|cbn [length] in H; lia]. apply IH. cbn [length Nat.max] in H. exact H. }
    rewrite (V _ Z2). cbn [app].
    assert (forall ms : list (nat * list (list (DictModel.cell N T))), list_max (map (fun m => length (snd m)) ms) = 0 -> forall k, matrix_writes k ms = []) as M.
    { induction ms as [|[c m] r IH]; intros H k; [reflexivity|]. change (Nat.max (length m) (list_max (map (fun m => length (snd m)) r)) = 0) in H.
      cbn [matrix_writes]. destruct m; [|cbn [length] in H; lia]. apply IH. cbn [length Nat.max] in H. exact H. }
    apply M, Z3. }
  unfold to_xloper. rewrite R, W. cbn [Nat.mul repeat run_writes obind Nat.max]. eexists _, _. split; [reflexivity|].
  destruct (n_cols l) as [|k]; [congruence|]. split; [reflexivity|]. intros A read optional. reflexivity.
Qed.
Print Assumptions C76_no_rows_refuted.
Example C76_no_rows_refuted_witness : n_rows (N:=Z) (T:=Z) [RVector []] = 0 /\ columns (N:=Z) (T:=Z) [RVector []] <> [].
Proof. split; [reflexivity|discriminate]. Qed.
(** A cell holding a whole number of the spreadsheet's integer type is read through the wrong member of the union. *)
Theorem C76_integer_refuted {N T} (as_int : N -> outcome Z) (near_int equals_int : N -> Z -> bool) w :
  to_double (N:=N) (OInt w) = UB /\ to_int as_int near_int (OInt w) = UB /\ to_bool equals_int (OInt w) = UB /\ to_cell (N:=N) (T:=T) (OInt w) true = UB.
Proof. repeat split. Qed.
Print Assumptions C76_integer_refuted.
(** An optional value left blank is accepted when it is given as a value, but not as a range of one blank cell. *)
Theorem C76_optional_refuted : exists o : oper Z, is_blank o = true /\
  to_string o true = Ok [] /\ to_cell o true = Ok (CEmpty (T:=Z)) /\ maybe to_double o = Ok None /\
  to_string (OMulti 0 1 1 [o]) true = Throw /\ to_cell (T:=Z) (OMulti 0 1 1 [o]) true = Throw /\ maybe to_double (OMulti 0 1 1 [o]) = Throw.
Proof. exists ONil. repeat split. Qed.
Print Assumptions C76_optional_refuted.
(** A text longer than 65535 characters, or with a zero character, does not come back. *)
Theorem C76_text_refuted {N T} (of_int : Z -> N) (time_number : T -> N) s n optional : (Z.to_nat 65535 < length s \/ In "000"%char s) ->
  exists s', to_string (fst (write_cell of_int time_number (CStr s) n)) optional = Ok s' /\ s' <> s.
Proof.
  intro H. cbn [fst write_cell to_string]. rewrite pascal. eexists. split; [reflexivity|]. intro E.
  assert (forall u, length (until_zero u) <= length u) as L by (induction u as [|c r IH]; cbn; [lia|]; destruct (_ =? _); cbn; lia).
  destruct H as [H|H].
  - pose proof (L (firstn max_size s)) as Q. rewrite E in Q. rewrite firstn_length in Q. unfold max_size in Q. lia.
  - rewrite <- E in H. revert H. generalize (firstn max_size s). clear. intro u. induction u as [|c r IH]; cbn; [intros []|].
    destruct (nat_of_ascii c =? 0) eqn:Q; [intros []|]. intros [->|H]; [cbn in Q; discriminate|exact (IH H)].
Qed.
Print Assumptions C76_text_refuted.
Example C76_text_refuted_witness : In "000"%char ["a"%char; "000"%char; "b"%char].
Proof. right. left. reflexivity. Qed.
(** A vector of texts with an empty one among them comes back short. *)
Theorem C76_gap_refuted : exists v : list (DictModel.cell Z Z),
  (do r <- to_xloper id id [RVector v]; read_vector (fun o => to_string o false) (fst r) false) = Ok [["a"%char]] /\ length v = 3.
Proof. exists [CStr ["a"%char]; CStr []; CStr ["b"%char]]. split; [vm_compute|]; reflexivity. Qed.
Print Assumptions C76_gap_refuted.

(** A text of ASCII characters is shown with its own characters. *)
Theorem C76_characters : forall s i c, length s <= Z.to_nat 65535 -> nth_error s i = Some c -> nat_of_ascii c < 128 -> nth_error (to_pascal s) i = Some (Z.of_nat (nat_of_ascii c)).
Proof.
  intros s i c L E H. unfold to_pascal, max_size. rewrite firstn_all2 by exact L. rewrite nth_error_map, E. cbn [option_map]. f_equal. unfold widen. destruct (Z.ltb_spec (Z.of_nat (nat_of_ascii c)) 128); [reflexivity|lia].
Qed.
Print Assumptions C76_characters.
Example C76_characters_witness : to_pascal ["a"%char; "~"%char] = [97%Z; 126%Z].
Proof. reflexivity. Qed.
(** Finding: a character of code 128 or more is not: the signed char is extended to the wide one. *)
Theorem C76_high_characters_refuted : forall s i c, length s <= Z.to_nat 65535 -> nth_error s i = Some c -> 128 <= nat_of_ascii c -> nth_error (to_pascal s) i = Some (Z.of_nat (nat_of_ascii c) + 65280)%Z.
Proof.
  intros s i c L E H. unfold to_pascal, max_size. rewrite firstn_all2 by exact L. rewrite nth_error_map, E. cbn [option_map]. f_equal. unfold widen. destruct (Z.ltb_spec (Z.of_nat (nat_of_ascii c)) 128); [lia|reflexivity].
Qed.
Print Assumptions C76_high_characters_refuted.
