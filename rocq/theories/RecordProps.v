(** C86: records read out of a range of the spreadsheet. *)
From Coq Require Import String Ascii ZArith List Bool Lia.
From Verif Require Import Base DateModel StringModel DictModel ExcelModel ExcelSpec ExcelProofs ExcelProps RecordModel RecordSpec RecordProofs.
Import ListNotations.
Open Scope nat_scope.

Section Reading.
Context {N T E H : Type}.
Variable as_int : N -> outcome Z.
Variable equals_int near_int : N -> Z -> bool.
Variable parse : str -> outcome E.
Variable fetch : str -> outcome (option H).
Variable cast : H -> option H.
Notation to_records := (to_records N T E H as_int equals_int near_int parse fetch cast).
Notation get_field := (get_field N T E H as_int equals_int near_int parse fetch cast).
Notation field_at := (field_at N T E H as_int equals_int near_int parse fetch cast).
Notation field_from := (field_from N T E H as_int equals_int near_int parse fetch cast).

(** Every row of the block that is read (C76) makes one record, in order, with the cells of that row in the columns asked for: the columns
    to the right of the block as well.  A blank cell or a column beyond the range gives the default, or fails when there is none. *)
Theorem C86_records : forall b nr nc cells r c fs optional, range nr nc cells -> nonblank_size nr nc cells = Ok (r, c) -> 1 <= r <= nr -> Forall (fun f => (0 <= column_of N E f)%Z) fs ->
  to_records fs (Some (OMulti b nr nc cells)) optional = all_of (map (fun i => all_of (map (field_at nc cells i) fs)) (seq 0 r)).
Proof.
  intros b nr nc cells r c fs optional R S Hr F. unfold RecordModel.to_records, rows. cbn [is_blank]. rewrite S. cbn [obind fst].
  rewrite (records_ok _ _ _ _ _ _ nr nc cells fs r R F 0 ltac:(lia)). apply not_empty. destruct r; [lia|discriminate].
Qed.
(** A table written to the spreadsheet, with no empty cell in its first row and first column, is read as one record for each of its rows. *)
Theorem C86_written : forall (of_int : Z -> N) (time_number : T -> N) c m fs optional, Forall (fun r => length r = c) m -> 1 <= length m -> 1 <= c ->
  (forall j, j < c -> ~ empty_cell (nth j (nth 0 m []) CEmpty)) -> (forall i, i < length m -> ~ empty_cell (nth 0 (nth i m []) CEmpty)) ->
  Forall (fun f => (0 <= column_of N E f)%Z) fs ->
  exists o blocks, to_xloper of_int time_number [RMatrix c m] = Ok (o, blocks) /\
    to_records fs (Some o) optional = all_of (map (fun r => all_of (map (field_from (map (returned of_int time_number) r)) fs)) m).
Proof.
  intros of_int time_number c m fs optional F L Lc R0 C0 Fs. destruct (written of_int time_number c m F L) as (cells & blocks & Ex & R & Hw). eexists _, blocks. split; [exact Ex|].
  rewrite (C86_records 1 (length m) c cells (length m) c fs optional R); [|now apply (written_size of_int time_number)|lia|exact Fs].
  f_equal. transitivity (map (fun i => all_of (map (field_from (map (returned of_int time_number) (nth i m []))) fs)) (seq 0 (length m))).
  - apply map_ext_in. intros i Hi. apply in_seq in Hi. f_equal. apply map_ext_in. intros f Hf. rewrite Forall_forall in Fs. specialize (Fs f Hf). cbn beta in Fs.
    assert (Lw : length (nth i m []) = c) by (rewrite Forall_forall in F; apply F, nth_In; lia). unfold RecordSpec.field_at, RecordSpec.field_from. rewrite nth_error_map.
    destruct (Z.ltb_spec (column_of N E f) (Z.of_nat c)) as [Hc|Hc].
    + rewrite (nth_error_nth' _ CEmpty) by lia. cbn [option_map]. destruct (Hw i (Z.to_nat (column_of N E f)) ltac:(lia) ltac:(lia)) as [n ->]. cbn zeta. rewrite from_written.
      destruct (returned of_int time_number _), (default_of N E H f); reflexivity.
    + rewrite (proj2 (nth_error_None _ _)) by lia. cbn [option_map]. reflexivity.
  - rewrite <- (map_map (fun i => nth i m []) (fun r => all_of (map (field_from (map (returned of_int time_number) r)) fs))). now rewrite rows_back.
Qed.
(** Nothing given, or a blank value: no records, if that is allowed.  A single value is refused. *)
Theorem C86_nothing : forall fs optional, to_records fs None optional = (if optional then Ok [] else Throw) /\
  forall o, match o with OMulti _ _ _ _ => True | _ => to_records fs (Some o) optional = if is_blank o then if optional then Ok [] else Throw else Throw end.
Proof.
  intros fs optional. split; [reflexivity|]. intros o. destruct o as [x|b t|b|w| | | |b nr nc cells]; try reflexivity; try exact Logic.I. all: destruct t; reflexivity.
Qed.
(** A field exists when its cell is in the range and not blank. *)
Theorem C86_exists : forall nr nc (cells : list (oper N)) i col, range nr nc cells -> i < nr -> (0 <= col)%Z ->
  exists_in (Reader nc cells i) col = Ok ((col <? Z.of_nat nc)%Z && negb (is_blank (at_place nc cells i (Z.to_nat col)))).
Proof.
  intros nr nc cells i col R Hi Hc. unfold exists_in. cbn [columns_of_range]. destruct (Z.ltb_spec col (Z.of_nat nc)); [|reflexivity]. rewrite (place_ok nr) by (assumption || lia). reflexivity.
Qed.
(** A negative column is not refused: it is a cell of the row before, and outside the range in the first row. *)
Theorem C86_negative_refuted : forall A (read : oper N -> outcome A) nr nc (cells : list (oper N)) i k, range nr nc cells -> i < nr -> 1 <= k <= nc ->
  extract read (Reader nc cells i) (- Z.of_nat k) = match i with O => UB | S j => read (at_place nc cells j (nc - k)) end.
Proof.
  intros A read nr nc cells i k R Hi Hk. unfold extract. cbn [columns_of_range]. destruct (Z.ltb_spec (- Z.of_nat k) (Z.of_nat nc)); [|lia]. destruct i as [|j].
  - unfold place. cbn [columns_of_range row]. destruct (Z.ltb_spec (- Z.of_nat k + Z.of_nat nc * Z.of_nat 0) 0); [reflexivity|lia].
  - pose proof (place_ok nr nc cells j (Z.of_nat (nc - k)) R ltac:(lia) ltac:(lia)) as Pl. unfold place in *. cbn [columns_of_range row range_cells] in *.
    replace (- Z.of_nat k + Z.of_nat nc * Z.of_nat (S j))%Z with (Z.of_nat (nc - k) + Z.of_nat nc * Z.of_nat j)%Z by lia. rewrite Pl. cbn [obind]. now rewrite Nat2Z.id.
Qed.
(** A range of one row is always a record, even if all of its cells are blank: records that are required, with fields that are optional,
    are then found where there is nothing. *)
Theorem C86_blank_row_refuted : forall b nc (cells : list (oper N)) fs optional, 1 <= nc -> range 1 nc cells -> Forall (fun o => is_blank o = true) cells ->
  Forall (fun f => (0 <= column_of N E f)%Z /\ default_of N E H f <> None) fs ->
  exists v, to_records fs (Some (OMulti b 1 nc cells)) optional = Ok [v] /\ map (default_of N E H) fs = map Some v.
Proof.
  intros b nc cells fs optional Hc R Bl F. destruct (C76_line 1 nc cells R ltac:(lia)) as (n & S & _). cbn [Nat.eqb] in S.
  rewrite (C86_records b 1 nc cells 1 n fs optional R S) by (lia || (eapply Forall_impl; [|exact F]; cbn beta; tauto)). cbn [seq map].
  assert (K : exists v, all_of (map (field_at nc cells 0) fs) = Ok v /\ map (default_of N E H) fs = map Some v).
  { induction F as [|f fs [F1 F2] F IH]; [exists []; split; reflexivity|]. destruct IH as (v & Ev & Dv). destruct (default_of N E H f) as [d|] eqn:Df; [|congruence].
    exists (d :: v). cbn [map all_of]. assert (Ef : field_at nc cells 0 f = Ok d).
    { unfold RecordSpec.field_at. destruct (Z.ltb_spec (column_of N E f) (Z.of_nat nc)); rewrite Df; [|reflexivity]. cbn zeta. unfold at_place. cbn [Nat.mul Nat.add].
      rewrite Forall_forall in Bl. rewrite Bl; [reflexivity|]. apply nth_In. unfold range in R. lia. }
    rewrite Ef, Ev, Df, Dv. split; reflexivity. }
  destruct K as (v & Ev & Dv). exists v. cbn [all_of]. rewrite Ev. split; [reflexivity|exact Dv].
Qed.
End Reading.
(** A row that has a value is not read, nor any after it, when the value is to the right of the block. *)
Theorem C86_lost_refuted : exists cells : list (oper Z), range 3 3 cells /\
  is_blank (at_place 3 cells 1 2) = false /\ is_blank (at_place 3 cells 2 0) = false /\
  to_records Z Z unit unit Ok Z.eqb Z.eqb (fun _ => Ok tt) (fun _ => Ok None) Some [FDoubleOr 0 0; FDoubleOr 2 0]%Z (Some (OMulti 0 3 3 cells)) false = Ok [[VDouble 1; VDouble 0]]%Z.
Proof. exists [ONum 1; ONil; ONil; ONil; ONil; ONum 5; ONum 3; ONil; ONum 4]%Z. repeat split. Qed.
Print Assumptions C86_records.
Print Assumptions C86_written.
Print Assumptions C86_nothing.
Print Assumptions C86_exists.
Print Assumptions C86_negative_refuted.
Print Assumptions C86_blank_row_refuted.
Print Assumptions C86_lost_refuted.
(** two records of three columns, with one field beyond the range and one blank *)
Example C86_case :
  let m := [[CStr ["a"%char]; CNum 5; CBool true]; [CStr ["b"%char]; CEmpty; CNum 0]]%Z in
  Forall (fun r : list (DictModel.cell Z Z) => length r = 3) m /\ (forall j, j < 3 -> ~ empty_cell (nth j (nth 0 m []) CEmpty)) /\ (forall i, i < 2 -> ~ empty_cell (nth 0 (nth i m []) CEmpty)) /\
  (do r <- to_xloper id id [RMatrix 3 m];
   to_records Z Z str unit Ok Z.eqb Z.eqb Ok (fun _ => Ok None) Some [FString 0; FIntOr 1 7; FBool 2; FEnum 0; FDoubleOr 3 9]%Z (Some (fst r)) false)
  = Ok [[VString ["a"%char]; VInt 5; VBool true; VEnum ["a"%char]; VDouble 9]; [VString ["b"%char]; VInt 7; VBool false; VEnum ["b"%char]; VDouble 9]]%Z.
Proof.
  cbn zeta. split; [repeat constructor|]. split; [intros j Hj; do 3 (destruct j as [|j]; [intros [K|K]; discriminate K|]); lia|].
  split; [intros i Hi; do 2 (destruct i as [|i]; [intros [K|K]; discriminate K|]); lia|]. vm_compute. reflexivity.
Qed.
