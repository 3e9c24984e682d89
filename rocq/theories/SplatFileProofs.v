From Coq Require Import String Ascii ZArith List Bool Lia Sorted ZifyBool.
From Verif Require Import Base DateModel StringModel StringSpec StringProofs OMap DictModel DictSpec DictProofs SplatModel SplatSpec SplatProofs ShareModel ShareSpec ShareProofs SplatFileModel SplatFileSpec.
Import ListNotations.
Open Scope Z_scope.
Ltac Zify.zify_post_hook ::= Z.div_mod_to_equations.

(** ** Lines *)
Lemma c_str_id s : ~ In nul s -> c_str s = s.
Proof.
  induction s as [|c s IH]; intros H; [reflexivity|]. cbn [c_str]. destruct (Ascii.eqb_spec c nul) as [->|]; [exfalso; apply H; now left|].
  rewrite IH; [reflexivity|]. intros G. apply H. now right.
Qed.
Lemma read_from_line s : forall taken room rest, ~ In newline s -> (length s <= room)%nat ->
  read_from taken room (s ++ newline :: rest) = c_str (rev taken ++ s) :: read_from [] line_room rest.
Proof.
  induction s as [|c s IH]; intros taken room rest Hn Hl; cbn [app read_from].
  - rewrite app_nil_r. reflexivity.
  - destruct (Ascii.eqb_spec c newline) as [->|]; [exfalso; apply Hn; now left|]. cbn [length] in Hl. destruct room as [|room]; [lia|].
    rewrite IH; [|intros G; apply Hn; now right|lia]. cbn [rev]. now rewrite <- app_assoc.
Qed.
Lemma read_lines_ok lines : Forall (fun l => ~ In newline l /\ ~ In nul l /\ zlen l <= 2047) lines -> read_lines (file_bytes lines) = lines.
Proof.
  unfold read_lines. induction 1 as [|l lines (H1 & H2 & H3) Hr IH]; [reflexivity|]. unfold file_bytes in *. cbn [flat_map].
  rewrite (c_str_id l H2), <- app_assoc. cbn [app]. rewrite read_from_line; [|exact H1|unfold line_room, zlen in *; lia].
  cbn [rev app]. rewrite (c_str_id l H2). now rewrite IH.
Qed.

(** ** Fields *)
Fixpoint trim1 (l : list str) : list str :=
  match l with
  | [] => []
  | t :: r => match r with [] => match t with [] => [] | _ => [t] end | _ => t :: trim1 r end
  end.
Lemma accumulate_commas t ts : accumulate (t :: ts) [comma] false = t ++ flat_map (cons comma) ts.
Proof.
  cbn [accumulate]. revert t. induction ts as [|u ts IH]; intros t; cbn [fold_left flat_map]; [now rewrite app_nil_r|].
  assert (joiner [comma] false t u = t ++ [comma] ++ u) as -> by (unfold joiner; destruct t, u; reflexivity).
  rewrite IH. now rewrite <- !app_assoc.
Qed.
Definition free (s : str) : Prop := ~ In comma s /\ ~ In quote s.
Lemma fields_run s : free s -> forall taken r, fields taken false (s ++ r) = fields (rev s ++ taken) false r.
Proof.
  intros [H1 H2]. induction s as [|c s IH]; intros taken r; [reflexivity|]. cbn [app fields].
  destruct (Ascii.eqb_spec c comma) as [->|]; [exfalso; apply H1; now left|]. cbn [negb andb].
  destruct (Ascii.eqb_spec c quote) as [->|]; [exfalso; apply H2; now left|].
  rewrite IH; [|intros G; apply H1; now right|intros G; apply H2; now right]. cbn [rev]. now rewrite <- app_assoc.
Qed.
Lemma split_join ts : forall t, Forall free (t :: ts) -> split_line (t ++ flat_map (cons comma) ts) = trim1 (t :: ts).
Proof.
  induction ts as [|u ts IH]; intros t H.
  - cbn [flat_map trim1]. rewrite app_nil_r. inversion H as [|? ? Ht _]; subst. destruct t as [|c t]; [reflexivity|]. unfold split_line.
    rewrite <- (app_nil_r (c :: t)) at 1. rewrite (fields_run _ Ht). cbn [fields]. now rewrite app_nil_r, rev_involutive.
  - inversion H as [|? ? Ht Hts]; subst. cbn [flat_map].
    assert (split_line (t ++ (comma :: u) ++ flat_map (cons comma) ts) = fields [] false (t ++ (comma :: u) ++ flat_map (cons comma) ts)) as ->
      by (destruct t; reflexivity).
    rewrite (fields_run _ Ht). cbn [app fields negb andb]. rewrite app_nil_r, rev_involutive. rewrite Ascii.eqb_refl. change (trim1 (t :: u :: ts)) with (t :: trim1 (u :: ts)).
    rewrite <- (IH u Hts). unfold split_line. destruct (u ++ flat_map (cons comma) ts); reflexivity.
Qed.
Lemma trim1_length l : l <> [] -> (last l [] <> [] /\ length (trim1 l) = length l) \/ (last l [] = [] /\ S (length (trim1 l)) = length l).
Proof.
  induction l as [|t r IH]; intros H; [congruence|]. destruct r as [|u r].
  - cbn. destruct t; [right|left]; split; try reflexivity; discriminate.
  - specialize (IH ltac:(discriminate)). change (last (t :: u :: r) []) with (last (u :: r) []). change (trim1 (t :: u :: r)) with (t :: trim1 (u :: r)).
    cbn [length] in *. destruct IH as [[? ?]|[? ?]]; [left|right]; split; try assumption; lia.
Qed.
Lemma trim1_nth l j : nth j (trim1 l) [] = nth j l [].
Proof.
  revert j. induction l as [|t r IH]; intros j; [reflexivity|]. destruct r as [|u r].
  - cbn [trim1]. destruct t; [destruct j as [|[|j]]; reflexivity|reflexivity].
  - change (trim1 (t :: u :: r)) with (t :: trim1 (u :: r)). destruct j; [reflexivity|]. cbn [nth] in *. apply IH.
Qed.

Section Sheet.
Variables N T : Type.
Variable value_of : str -> N.
Variable as_int : N -> outcome (option Z).
Variable show_double : N -> str.
Variable show_time : T -> str.
Notation cell := (DictModel.cell N T).
Notation grid := (SplatModel.grid N T).
Notation node := (SplatModel.node N T).
Notation print := (coerce_to_string as_int show_double show_time).
Notation load := (as_loaded (N := N) show_time).
Notation good := (survives value_of as_int show_double show_time).

Lemma empty_good : good CEmpty.
Proof. exists []. repeat split; intros []. Qed.


(** ** One row *)
Lemma row_ok (l : list cell) : Forall good l -> exists q, texts as_int show_double show_time l = Ok q /\ Forall plain q /\
  length q = length l /\ (forall j, as_cell value_of (nth j q []) = load (nth j l CEmpty)) /\
  zlen (flat_map (cons comma) q) = fold_right Z.add 0 (map (width as_int show_double show_time) l) + zlen l.
Proof.
  induction 1 as [|c l (s & H1 & H2 & H3) Hl (q & Q1 & Q2 & Q3 & Q4 & Q5)].
  - exists []. cbn. repeat split; auto. intros [|j]; reflexivity.
  - exists (s :: q). cbn [texts]. rewrite H1. cbn [obind]. rewrite Q1. cbn [obind]. split; [reflexivity|]. split; [now constructor|].
    split; [cbn [length]; lia|]. split; [intros [|j]; [exact H3|apply Q4]|]. cbn [flat_map map fold_right]. unfold width at 1. rewrite H1.
    unfold zlen in *. cbn [app length]. rewrite app_length. lia.
Qed.
Definition read_row (line : str) : list cell := map (as_cell value_of) (split_line line).
Lemma row_back (l : list cell) : l <> [] -> Forall good l -> line_fits as_int show_double show_time l ->
  exists q line, texts as_int show_double show_time l = Ok q /\ accumulate q [comma] false = line /\
    ~ In newline line /\ ~ In nul line /\ zlen line <= 2047 /\
    (forall j, nth j (read_row line) CEmpty = load (nth j l CEmpty)) /\
    (length (read_row line) = length l \/ S (length (read_row line)) = length l /\ load (last l CEmpty) = CEmpty).
Proof.
  intros Hne Hg Hf. destruct (row_ok l Hg) as (q & Q1 & Q2 & Q3 & Q4 & Q5). exists q, (accumulate q [comma] false).
  split; [exact Q1|]. split; [reflexivity|]. destruct q as [|t ts]; [destruct l; [congruence|discriminate]|].
  rewrite accumulate_commas. unfold line_fits in Hf.
  assert (forall c, c <> comma -> (forall s, In s (t :: ts) -> ~ In c s) -> ~ In c (t ++ flat_map (cons comma) ts)) as Hfree.
  { intros c Hc Hs Hin. apply in_app_or in Hin as [Hin|Hin]; [exact (Hs t (or_introl eq_refl) Hin)|]. apply in_flat_map in Hin as (u & U1 & [U2|U2]); [congruence|].
    exact (Hs u (or_intror U1) U2). }
  rewrite Forall_forall in Q2. split; [apply Hfree; [discriminate|intros s Hs; apply (Q2 s Hs)]|]. split; [apply Hfree; [discriminate|intros s Hs; apply (Q2 s Hs)]|].
  split.
  { change (flat_map (cons comma) (t :: ts)) with (comma :: (t ++ flat_map (cons comma) ts)) in Q5. unfold zlen in *. cbn [length] in *. lia. }
  assert (read_row (t ++ flat_map (cons comma) ts) = map (as_cell value_of) (trim1 (t :: ts))) as ->.
  { unfold read_row. rewrite split_join; [reflexivity|]. apply Forall_forall. intros s Hs. split; apply (Q2 s Hs). }
  split.
  - intros j. change (@CEmpty N T) with (as_cell (T := T) value_of []) at 1. rewrite map_nth, trim1_nth. apply Q4.
  - rewrite map_length. destruct (trim1_length (t :: ts) ltac:(discriminate)) as [[E1 E2]|[E1 E2]]; [left; etransitivity; [exact E2|exact Q3]|right]. split; [etransitivity; [exact E2|exact Q3]|].
    assert (forall A (l : list A) d, last l d = nth (pred (length l)) l d) as Hlast.
    { clear. induction l as [|x l IH]; intros d; [reflexivity|]. destruct l as [|y l]; [reflexivity|]. change (last (x :: y :: l) d) with (last (y :: l) d). rewrite IH. reflexivity. }
    rewrite Hlast, <- Q4. assert (nth (pred (length l)) (t :: ts) [] = []) as ->; [|reflexivity]. rewrite <- Q3. etransitivity; [symmetry; apply Hlast|exact E1].
Qed.

(** ** The sheet *)
Lemma row_cells_at (g : grid) r : 0 <= r < g_rows g -> forall n c, 0 <= c -> c + Z.of_nat n <= g_cols g ->
  row_cells g r c n = Ok (map (fun k => at_ g r (c + Z.of_nat k)) (seq 0 n)).
Proof.
  intros Hr. induction n as [|n IH]; intros c Hc Hn; [reflexivity|]. cbn [row_cells]. rewrite get_ok by lia. cbn [obind]. rewrite IH by lia. cbn [obind].
  f_equal. cbn [seq map]. f_equal; [f_equal; lia|]. rewrite <- seq_shift, map_map. apply map_ext. intros k. f_equal. lia.
Qed.
Definition row_of (g : grid) (r : Z) : list cell := map (fun k => at_ g r (Z.of_nat k)) (seq 0 (Z.to_nat (g_cols g))).
Lemma sheet_row_ok (g : grid) r : 0 <= r < g_rows g -> 0 <= g_cols g -> sheet_row g r = Ok (row_of g r).
Proof. intros Hr Hc. unfold sheet_row. rewrite row_cells_at by lia. reflexivity. Qed.
Lemma row_of_nth (g : grid) r j : nth j (row_of g r) CEmpty = if Z.of_nat j <? g_cols g then at_ g r (Z.of_nat j) else CEmpty.
Proof.
  unfold row_of. destruct (Z.of_nat j <? g_cols g) eqn:E.
  - rewrite (nth_indep _ CEmpty (at_ g r (Z.of_nat O))) by (rewrite map_length, seq_length; lia).
    rewrite (map_nth (fun k => at_ g r (Z.of_nat k))), seq_nth by lia. reflexivity.
  - apply nth_overflow. rewrite map_length, seq_length. lia.
Qed.

Definition cells_good (g : grid) : Prop := forall r c, 0 <= r < g_rows g -> 0 <= c < g_cols g -> good (at_ g r c).
Definition lines_fit (g : grid) : Prop := forall r, 0 <= r < g_rows g -> line_fits as_int show_double show_time (row_of g r).

Lemma lines_back (g : grid) : 1 <= g_cols g -> cells_good g -> lines_fit g -> forall n r, 0 <= r -> r + Z.of_nat n <= g_rows g ->
  exists lines, lines_from as_int show_double show_time g r n = Ok lines /\ length lines = n /\
    Forall (fun l => ~ In newline l /\ ~ In nul l /\ zlen l <= 2047) lines /\
    forall i, (i < n)%nat ->
      (forall j, nth j (nth i (map read_row lines) []) CEmpty = load (nth j (row_of g (r + Z.of_nat i)) CEmpty)) /\
      (zlen (nth i (map read_row lines) []) = g_cols g \/
       zlen (nth i (map read_row lines) []) = g_cols g - 1 /\ load (at_ g (r + Z.of_nat i) (g_cols g - 1)) = CEmpty).
Proof.
  intros Hw Hg Hf. induction n as [|n IH]; intros r Hr Hn.
  - exists []. repeat split; auto; lia.
  - destruct (IH (r + 1) ltac:(lia) ltac:(lia)) as (lines & L1 & L2 & L3 & L4).
    destruct (row_back (row_of g r)) as (q & line & Q1 & Q2 & Q3 & Q4 & Q5 & Q6 & Q7).
    + intros E. apply (f_equal (@length _)) in E. unfold row_of in E. rewrite map_length, seq_length in E. cbn in E. lia.
    + apply Forall_forall. intros x Hx. apply in_map_iff in Hx as (k & <- & Hk). apply in_seq in Hk. apply Hg; lia.
    + apply Hf. lia.
    + exists (line :: lines). cbn [lines_from]. rewrite sheet_row_ok by lia. cbn [obind]. rewrite Q1. cbn [obind]. rewrite L1. cbn [obind]. rewrite Q2.
      split; [reflexivity|]. split; [cbn [length]; lia|]. split; [constructor; auto|]. intros [|i] Hi; cbn [map nth].
      * rewrite Z.add_0_r. split; [exact Q6|].
        assert (length (row_of g r) = Z.to_nat (g_cols g)) as Hlen by (unfold row_of; now rewrite map_length, seq_length).
        unfold zlen. destruct Q7 as [E|[E1 E2]]; [left; lia|right]. split; [lia|]. rewrite <- E2. f_equal.
        assert (forall A (l : list A) d, last l d = nth (pred (length l)) l d) as Hlast.
        { clear. induction l as [|x l IH]; intros d; [reflexivity|]. destruct l as [|y l]; [reflexivity|]. change (last (x :: y :: l) d) with (last (y :: l) d). rewrite IH. reflexivity. }
        rewrite Hlast, row_of_nth. replace (Z.of_nat (pred (length (row_of g r)))) with (g_cols g - 1) by lia.
        replace (g_cols g - 1 <? g_cols g) with true by lia. reflexivity.
      * replace (r + Z.of_nat (S i)) with (r + 1 + Z.of_nat i) by lia. apply L4. lia.
Qed.

Definition widest (data : list (list cell)) : Z := fold_left (fun m d => Z.max m (zlen d)) data 0.
Lemma widest_from data : forall m, m <= fold_left (fun m (d : list cell) => Z.max m (zlen d)) data m /\
  (forall d, In d data -> zlen d <= fold_left (fun m (d : list cell) => Z.max m (zlen d)) data m) /\
  (fold_left (fun m (d : list cell) => Z.max m (zlen d)) data m = m \/ exists d, In d data /\ zlen d = fold_left (fun m (d : list cell) => Z.max m (zlen d)) data m).
Proof.
  induction data as [|d data IH]; intros m; cbn [fold_left]; [repeat split; auto; try lia; intros ? []|].
  destruct (IH (Z.max m (zlen d))) as (I1 & I2 & I3). split; [lia|]. split.
  - intros e [->|He]; [lia|now apply I2].
  - destruct I3 as [E|(e & E1 & E2)]; [|right; exists e; split; [now right|exact E2]]. rewrite E. destruct (Z.max_spec m (zlen d)) as [[_ ->]|[_ ->]]; [right; exists d; split; [now left|reflexivity]|now left].
Qed.

Lemma sheet_back (g : grid) : 1 <= g_rows g -> 1 <= g_cols g -> (g_rows g + 1) * g_cols g <= 2147483647 -> cells_good g -> lines_fit g ->
  exists text g', save as_int show_double show_time g = Ok text /\ file_table value_of (Some text) = Ok g' /\ g_rows g' = g_rows g /\
    (g_cols g' = g_cols g \/ g_cols g' = g_cols g - 1 /\ forall r, 0 <= r < g_rows g -> load (at_ g r (g_cols g - 1)) = CEmpty) /\
    (forall r c, 0 <= r < g_rows g' -> 0 <= c < g_cols g' -> at_ g' r c = load (at_ g r c)) /\
    (0 < g_cols g' -> g_at g' (g_rows g' * g_cols g') = CEmpty).
Proof.
  intros Hh Hw Hfit Hg Hf. destruct (lines_back g Hw Hg Hf (Z.to_nat (g_rows g)) 0 ltac:(lia) ltac:(lia)) as (lines & L1 & L2 & L3 & L4).
  unfold save, to_string_lines. rewrite L1. cbn [obind]. exists (file_bytes lines). unfold file_table. rewrite (read_lines_ok lines L3).
  change (map (fun l => map (as_cell value_of) (split_line l)) lines) with (map read_row lines). set (data := map read_row lines) in *.
  assert (length data = Z.to_nat (g_rows g)) as Hlen by (unfold data; now rewrite map_length).
  destruct (widest_from data 0) as (W1 & W2 & W3). unfold table_of. fold (widest data) in *.
  assert (forall d, In d data -> exists i, (i < Z.to_nat (g_rows g))%nat /\ nth i data [] = d) as Hin.
  { intros d Hd. destruct (In_nth _ _ [] Hd) as (i & I1 & I2). exists i. split; [lia|exact I2]. }
  assert (widest data = g_cols g \/ widest data = g_cols g - 1 /\ forall r, 0 <= r < g_rows g -> load (at_ g r (g_cols g - 1)) = CEmpty) as Hww.
  { assert (widest data = g_cols g \/ widest data = g_cols g - 1) as Hc.
    { assert (In (nth O data []) data) as H0 by (apply nth_In; lia). destruct (L4 O ltac:(lia)) as [_ K0]. pose proof (W2 _ H0).
      destruct W3 as [E|(d & D1 & D2)].
      - destruct K0 as [K0|[K0 _]]; lia.
      - destruct (Hin d D1) as (i & I1 & <-). destruct (L4 i I1) as [_ [K|[K _]]]; [left; lia|right; lia]. }
    destruct Hc as [Hc|Hc]; [now left|right]. split; [exact Hc|]. intros r Hr. destruct (L4 (Z.to_nat r) ltac:(lia)) as [_ [K|[_ K]]].
    - assert (In (nth (Z.to_nat r) data []) data) as H0 by (apply nth_In; lia). pose proof (W2 _ H0). lia.
    - replace (0 + Z.of_nat (Z.to_nat r)) with r in K by lia. exact K. }
  set (w := widest data) in *. unfold new_grid, int32.
  assert (zlen data = g_rows g) as Hz by (unfold zlen; lia).
  replace ((-2147483648 <=? (zlen data + 1) * w) && ((zlen data + 1) * w <=? 2147483647)) with true
    by (symmetry; rewrite Hz; destruct Hww as [->|[-> _]]; rewrite andb_true_iff; split; nia).
  cbn [obind g_rows g_cols]. eexists. split; [reflexivity|]. split; [reflexivity|]. cbn [g_rows g_cols g_at]. split; [exact Hz|].
  split; [exact Hww|]. split.
  - intros r c Hr Hc. unfold at_. cbn [g_at g_cols]. replace ((r * w + c) mod w) with c by (rewrite Z.add_comm, Z.mod_add by lia; symmetry; apply Z.mod_small; lia).
    replace ((r * w + c) / w) with r by (rewrite Z.add_comm, Z.div_add by lia; rewrite Z.div_small by lia; lia).
    destruct (L4 (Z.to_nat r) ltac:(lia)) as [K _]. rewrite K. replace (0 + Z.of_nat (Z.to_nat r)) with r by lia. rewrite row_of_nth.
    replace (Z.of_nat (Z.to_nat c)) with c by lia. replace (c <? g_cols g) with true by lia. reflexivity.
  - intros Hp. rewrite Z.div_mul by lia. rewrite (nth_overflow data) by lia. match goal with |- nth ?k [] _ = _ => now destruct k end.
Qed.
End Sheet.
