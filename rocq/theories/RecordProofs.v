(** Proofs for C86. *)
From Coq Require Import String Ascii ZArith List Bool Lia.
From Verif Require Import Base DateModel StringModel DictModel ExcelModel ExcelSpec ExcelProofs ExcelProps RecordModel RecordSpec.
Import ListNotations.
Open Scope nat_scope.

Lemma rows_back {A} (m : list (list A)) : map (fun i => nth i m []) (seq 0 (length m)) = m.
Proof. induction m as [|x m IH]; [reflexivity|]. cbn [length seq map nth]. f_equal. rewrite <- seq_shift, map_map. exact IH. Qed.

Lemma place_ok {N} nr nc (cells : list (oper N)) i col : range nr nc cells -> i < nr -> (0 <= col < Z.of_nat nc)%Z -> place (Reader nc cells i) col = Ok (at_place nc cells i (Z.to_nat col)).
Proof.
  intros R Hi Hc. unfold place. cbn [columns_of_range row range_cells]. set (k := (col + Z.of_nat nc * Z.of_nat i)%Z). assert (Hk : (0 <= k)%Z) by nia.
  destruct (Z.ltb_spec k 0); [lia|]. assert (Ek : Z.to_nat k = i * nc + Z.to_nat col) by nia. rewrite Ek. unfold cell_at, at_place. unfold range in R.
  rewrite (nth_error_nth' cells OMissing); [reflexivity|]. rewrite R. nia.
Qed.

Section Read.
Context {N T E H : Type}.
Variable as_int : N -> outcome Z.
Variable equals_int near_int : N -> Z -> bool.
Variable parse : str -> outcome E.
Variable fetch : str -> outcome (option H).
Variable cast : H -> option H.
Notation get_field := (get_field N T E H as_int equals_int near_int parse fetch cast).
Notation get_fields := (get_fields N T E H as_int equals_int near_int parse fetch cast).
Notation records_from := (records_from N T E H as_int equals_int near_int parse fetch cast).
Notation field_at := (field_at N T E H as_int equals_int near_int parse fetch cast).
Notation field_from := (field_from N T E H as_int equals_int near_int parse fetch cast).

Lemma field_ok nr nc (cells : list (oper N)) i f : range nr nc cells -> i < nr -> (0 <= column_of N E f)%Z -> get_field (Reader nc cells i) f = field_at nc cells i f.
Proof.
  intros R Hi Hc. unfold RecordSpec.field_at. destruct (Z.ltb_spec (column_of N E f) (Z.of_nat nc)) as [L|L].
  - pose proof (place_ok nr nc cells i _ R Hi (conj Hc L)) as Pl. cbn zeta. set (o := at_place nc cells i (Z.to_nat (column_of N E f))) in *. clearbody o.
    assert (B1 : (column_of N E f <? Z.of_nat nc)%Z = true) by (now apply Z.ltb_lt). assert (B2 : (Z.of_nat nc <=? column_of N E f)%Z = false) by (now apply Z.leb_gt).
    destruct f; cbn [column_of] in *; cbn [RecordModel.get_field default_of read_as_field]; unfold extract_handle, extract, extract_or, exists_in; cbn [columns_of_range]; rewrite ?B1, ?B2, Pl; cbn [obind].
    all: try (destruct (is_blank o); cbn [negb obind]; reflexivity). all: try reflexivity.
    unfold to_handle_base. destruct (to_string o false) as [tag| | |]; cbn [obind]; try reflexivity. unfold object. destruct tag as [|a tag]; [reflexivity|].
    destruct (fetch (a :: tag)) as [[h|]| | |]; cbn [obind]; try reflexivity. destruct (cast h); reflexivity.
  - assert (B1 : (column_of N E f <? Z.of_nat nc)%Z = false) by (now apply Z.ltb_ge). assert (B2 : (Z.of_nat nc <=? column_of N E f)%Z = true) by (now apply Z.leb_le).
    destruct f; cbn [column_of] in *; cbn [RecordModel.get_field default_of]; unfold extract_handle, extract, extract_or, exists_in; cbn [columns_of_range]; rewrite ?B1, ?B2; reflexivity.
Qed.
Lemma fields_ok nr nc (cells : list (oper N)) i fs : range nr nc cells -> i < nr -> Forall (fun f => (0 <= column_of N E f)%Z) fs -> get_fields (Reader nc cells i) fs = all_of (map (field_at nc cells i) fs).
Proof. intros R Hi F. induction F as [|f fs Hf F IH]; [reflexivity|]. cbn [RecordModel.get_fields map all_of]. rewrite (field_ok nr), IH by assumption. reflexivity. Qed.
Lemma records_ok nr nc (cells : list (oper N)) fs n : range nr nc cells -> Forall (fun f => (0 <= column_of N E f)%Z) fs -> forall i, i + n <= nr ->
  records_from nc cells fs n i = all_of (map (fun k => all_of (map (field_at nc cells k) fs)) (seq i n)).
Proof.
  intros R F. induction n as [|n IH]; intros i Hi; [reflexivity|]. cbn [RecordModel.records_from seq map all_of]. rewrite (fields_ok nr) by (assumption || lia). rewrite IH by lia. reflexivity.
Qed.
Lemma all_of_length {A} (l : list (outcome A)) v : all_of l = Ok v -> length v = length l.
Proof.
  revert v. induction l as [|x l IH]; intros v; cbn [all_of]; [intros [= <-]; reflexivity|]. destruct x as [a| | |]; try discriminate. cbn [obind]. destruct (all_of l) as [w| | |]; try discriminate. intros [= <-]. cbn. now rewrite (IH w).
Qed.
Lemma not_empty {A} (l : list (outcome A)) optional : l <> [] -> (do v <- all_of l; match v with [] => if (optional : bool) then Ok v else Throw | _ => Ok v end) = all_of l.
Proof. intros Hl. destruct (all_of l) as [v| | |] eqn:Ev; try reflexivity. cbn [obind]. destruct v; [|reflexivity]. apply all_of_length in Ev. destruct l; [congruence|discriminate]. Qed.

(** the size of a table written *)
Variable of_int : Z -> N.
Variable time_number : T -> N.
Lemma written_size c (m : list (list (DictModel.cell N T))) cells : Forall (fun r => length r = c) m -> 1 <= length m -> 1 <= c ->
  (forall j, j < c -> ~ empty_cell (nth j (nth 0 m []) CEmpty)) -> (forall i, i < length m -> ~ empty_cell (nth 0 (nth i m []) CEmpty)) -> range (length m) c cells ->
  (forall i j, i < length m -> j < c -> exists n, at_place c cells i j = fst (write_cell of_int time_number (nth j (nth i m []) CEmpty) n)) -> nonblank_size (length m) c cells = Ok (length m, c).
Proof.
  intros F L Lc R0 C0 R Hw.
  assert (forall i j, i < length m -> j < c -> blank c cells i j -> empty_cell (nth j (nth i m []) CEmpty)) as Bk.
  { intros i j Li Lj Z. unfold blank in Z. destruct (Hw i j Li Lj) as [n En]. rewrite En in Z. apply cell_blank in Z. exact Z. }
  destruct (Nat.eq_dec (length m) 1) as [E1|E1]; [|destruct (Nat.eq_dec c 1) as [E2|E2]].
  - destruct (C76_line (length m) c cells R ltac:(lia)) as (n & -> & Ln & _ & Z). rewrite E1. cbn [Nat.eqb]. f_equal. f_equal.
    unfold range in R. rewrite E1, Nat.mul_1_l in R. destruct (Nat.eq_dec n c) as [Q|Q]; [exact Q|]. exfalso. apply (R0 n); [lia|].
    apply (Bk 0 n); [lia..|]. unfold blank, at_place. cbn. apply Z. lia.
  - destruct (C76_line (length m) c cells R ltac:(lia)) as (n & -> & Ln & _ & Z).
    assert (length m =? 1 = false) as -> by (apply Nat.eqb_neq, E1). rewrite E2. f_equal. f_equal.
    unfold range in R. rewrite E2, Nat.mul_1_r in R. destruct (Nat.eq_dec n (length m)) as [Q|Q]; [exact Q|]. exfalso. apply (C0 n); [lia|].
    apply (Bk n 0); [lia..|]. unfold blank, at_place. rewrite E2, Nat.mul_1_r, Nat.add_0_r. apply Z. lia.
  - destruct (C76_block (length m) c cells R ltac:(lia) ltac:(lia)) as [_ K]. destruct K as (r & c' & -> & (F1 & F2 & F3 & F4) & _).
    { intros (Z & _). apply (R0 0); [lia|]. apply Bk; [lia..|exact Z]. }
    f_equal. f_equal.
    + destruct F3 as [F3|F3]; [exact F3|]. destruct (Nat.eq_dec r (length m)) as [Q|Q]; [exact Q|]. exfalso. apply (C0 r); [lia|]. apply Bk; [lia..|]. apply F3. lia.
    + destruct F4 as [F4|F4]; [exact F4|]. destruct (Nat.eq_dec c' c) as [Q|Q]; [exact Q|]. exfalso. apply (R0 c'); [lia|]. apply Bk; [lia..|]. apply F4. lia.
Qed.
Lemma from_written f c n : 
  match default_of N E H f with
  | Some d => if is_blank (fst (write_cell of_int time_number c n)) then Ok d else read_as_field N T E H as_int equals_int near_int parse fetch cast f (fst (write_cell of_int time_number c n))
  | None => read_as_field N T E H as_int equals_int near_int parse fetch cast f (fst (write_cell of_int time_number c n))
  end = match returned of_int time_number c, default_of N E H f with CEmpty, Some d => Ok d | v, _ => from_cell N T E H as_int equals_int near_int parse fetch cast f v end.
Proof.
  destruct c as [|b|x|d|t|s]; cbn [fst write_cell returned].
  1: destruct f; reflexivity.
  1: destruct b, f; reflexivity.
  1, 2, 3: match goal with |- context [ONum ?y] => set (z := y); clearbody z end; destruct f; cbn [default_of is_blank read_as_field from_cell to_double to_int to_bool to_string obind]; try reflexivity;
    try (unfold to_date; cbn [to_cell is_blank obind]); try (destruct (as_int z) as [i| | |]; cbn [obind]; try reflexivity; first [destruct (near_int z i); reflexivity | destruct (equals_int z i); reflexivity]);
    destruct (equals_int z 0); cbn [orb negb obind]; try reflexivity; destruct (equals_int z 1); reflexivity.
  pose proof (to_pascal_nil s) as Z. pose proof (pascal s) as P. destruct (to_pascal s) as [|z r].
  - rewrite (proj1 Z eq_refl). destruct f; reflexivity.
  - assert (Er : returned of_int time_number (CStr s) = CStr (T:=T) (from_pascal (z :: r))) by (rewrite P; destruct s; [discriminate (proj2 Z eq_refl)|reflexivity]).
    cbn [returned] in Er. rewrite Er. clear Er P Z. destruct f; cbn [default_of is_blank read_as_field from_cell to_double to_int to_bool to_string obind]; try reflexivity.
    unfold to_date. cbn [to_cell is_blank obind]. destruct (from_pascal (z :: r)); reflexivity.
Qed.
End Read.
