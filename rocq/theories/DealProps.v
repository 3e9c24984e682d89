(** C80: making, printing and valuing products from the spreadsheet. *)
From Coq Require Import String Ascii ZArith List Bool Lia Arith.
From Verif Require Import Base DateModel StringModel StringSpec StringProofs HolidayModel OMap DictModel FlagModel ScriptModel EventModel RiskModel DebugModel StackSpec MatrixProofs DealModel DealSpec DealProofs.
Import ListNotations.
Open Scope Z_scope.
Open Scope list_scope.

(** Without sensitivities the table is the value. *)
Theorem C80_value_only {N : Num} {T} pv : exists m, value_map pv None = Ok m /\ value_table (T:=T) m = [[CStr (lit "PV"); CNum pv]].
Proof. eexists. split; reflexivity. Qed.
Print Assumptions C80_value_only.

(** With sensitivities: the value under "PV" and under "d_" and a name the risk to the parameter of that name, and nothing else; the rows are in
    order of their headings; there is a row for every parameter exactly if the names of the parameters all differ. *)
Theorem C80_table {N : Num} {T} pv names risks : length risks = length names ->
  exists m, value_map pv (Some (names, risks)) = Ok m /\ let table := value_table (T:=T) m in
    in_order table /\ (forall v, shows table (lit "PV") v <-> v = pv) /\ (forall n v, shows table (lit "d_" ++ n) v <-> last_risk names risks n v) /\
    (forall row, In row table -> heading_of row = lit "PV" \/ exists n, In n names /\ heading_of row = lit "d_" ++ n) /\
    (length table = S (length names) <-> all_differ names).
Proof.
  intros L. destruct (report_ok names risks L names (fun a H => H)) as (r & E & K & F). set (m0 := massign ci_compare [] (lit "PV") pv).
  assert (S0 : msorted ci_compare m0) by (constructor; constructor). exists (put_risks m0 r). split; [unfold value_map; rewrite E; reflexivity|]. pose proof (put_sorted r m0 S0) as S1. cbv zeta.
  assert (Lr : length r = length names) by (rewrite <- K, map_length; reflexivity).
  split; [now apply table_order|]. split; [|split; [|split]].
  - intros v. rewrite table_shows by exact S1. rewrite put_find_pv by exact S0. change (Some pv = Some v <-> v = pv). split; congruence.
  - intros n v. rewrite table_shows by exact S1. split.
    + intros H. pose proof H as H'. apply (mfind_in ci_compare) in H as (x & H & Ex). apply put_keys in H as [H|(n' & H & ->)]; [destruct H as [<-|[]]; discriminate|]. rewrite prefix_compare in Ex. apply ci_compare_eq in Ex.
      rewrite K in H. destruct (result_last names risks n n' L H Ex) as (w & Ew & Q). rewrite <- K in H. apply in_map_iff in H as ([a u] & Ea & H). cbn [fst] in Ea. subst a. pose proof (proj1 (Forall_forall _ _) F _ H) as Qu. cbn [fst snd] in Qu.
      assert (u = w) by (eapply last_unique; eauto). subst u. assert (v = w); [|subst; exact Q]. pose proof (put_find r m0 n' w S0 (last_consistent _ _ _ F) H) as P. apply (proj2 (table_shows (T:=T) _ _ _ S1)) in P. destruct P as (y & Hy & Sy).
      assert (P : shows (T:=T) (value_table (put_risks m0 r)) (lit "d_" ++ n) w). { exists y. split; [exact Hy|]. eapply same_trans; [exact Sy|]. apply ci_compare_eq. rewrite prefix_compare. now apply ci_compare_eq. }
      apply table_shows in P; [congruence|exact S1].
    + intros Q. pose proof Q as (i & a & Ha & Sa & Vi & _). assert (In a (map fst r)) as H by (rewrite K; eapply nth_error_In; eauto). apply in_map_iff in H as ([a' u] & Ea & H). cbn [fst] in Ea. subst a'. pose proof (proj1 (Forall_forall _ _) F _ H) as Qu. cbn [fst snd] in Qu.
      assert (u = v) by (eapply last_unique; eauto). subst u. pose proof (put_find r m0 a v S0 (last_consistent _ _ _ F) H) as P. apply (proj2 (table_shows (T:=T) _ _ _ S1)) in P. destruct P as (y & Hy & Sy).
      assert (P : shows (T:=T) (value_table (put_risks m0 r)) (lit "d_" ++ n) v). { exists y. split; [exact Hy|]. eapply same_trans; [exact Sy|]. apply ci_compare_eq. rewrite prefix_compare. now apply ci_compare_eq. }
      apply table_shows in P; [exact P|exact S1].
  - intros row H. unfold value_table in H. apply in_map_iff in H as ([k v] & <- & H). cbn [heading_of fst snd]. apply put_keys in H as [[<-|[]]|(n & H & ->)]; [now left|]. right. exists n. rewrite K in H. auto.
  - unfold value_table. rewrite map_length. split.
    + intros E2. assert (G : forall i j a b, (i < j)%nat -> nth_error names i = Some a -> nth_error names j = Some b -> same_up_to_case a b -> False).
      { intros i j a b H Ha Hb Q. pose proof (put_length_lt r m0 i j a b S0 H) as P. rewrite K in P. specialize (P Ha Hb Q). rewrite E2 in P. change (length m0) with 1%nat in P. unfold omap, str in *. lia. }
      intros i j a b Ha Hb Q. destruct (Nat.lt_trichotomy i j) as [H|[H|H]]; [exfalso; exact (G i j a b H Ha Hb Q)|exact H|exfalso; exact (G j i b a H Hb Ha (same_sym _ _ Q))].
    + intros D. rewrite put_length; [change (length m0) with 1%nat; unfold omap, str in *; lia|exact S0|rewrite K; exact D|]. intros a _. reflexivity.
Qed.
Print Assumptions C80_table.
(** The names of the Black-Scholes parameters all differ, so each has its row. *)
Theorem C80_black_scholes : all_differ bs_labels.
Proof.
  intros i j a b Hi Hj Q. apply ci_compare_eq in Q.
  do 4 (destruct i as [|i]; [cbn [bs_labels nth_error] in Hi; injection Hi as <-;
    do 4 (destruct j as [|j]; [cbn [bs_labels nth_error] in Hj; injection Hj as <-; vm_compute in Q; first [reflexivity|discriminate]|]); destruct j; discriminate|]).
  destruct i; discriminate.
Qed.
Print Assumptions C80_black_scholes.

(** * Local volatilities *)
(** The parameter for the i-th spot and j-th time is called after them. *)
Theorem C80_dupire {N} (fixed : N -> str) spots times nr nc : (nr <= length spots)%nat -> (nc <= length times)%nat ->
  exists labels, dupire_labels fixed spots times nr nc = Ok labels /\ length labels = (3 + nr * nc)%nat /\ firstn 3 labels = [lit "spot"; lit "rate"; lit "repo"] /\
    forall i j s t, (i < nr)%nat -> (j < nc)%nat -> nth_error spots i = Some s -> nth_error times j = Some t ->
      nth_error labels (3 + i * nc + j) = Some (lit "lvol " ++ fixed s ++ lit " " ++ fixed t).
Proof.
  intros Hr Hc. eexists. split; [unfold dupire_labels; rewrite all_labels by assumption; reflexivity|]. assert (Lc : length (firstn nc times) = nc) by (rewrite firstn_length; lia). split; [|split; [reflexivity|]].
  - cbn [length]. assert (G : forall l : list N, length (flat_map (fun s => map (lvol fixed s) (firstn nc times)) l) = (length l * nc)%nat) by (induction l as [|x l IH]; [reflexivity|]; cbn [flat_map length]; rewrite app_length, map_length, IH, Lc; reflexivity).
    rewrite G, firstn_length, Nat.min_l by exact Hr. reflexivity.
  - intros i j s t Hi Hj Hs Ht. change (3 + i * nc + j)%nat with (S (S (S (i * nc + j)))). cbn [nth_error]. replace (i * nc)%nat with (i * length (firstn nc times))%nat by (rewrite Lc; reflexivity). apply (grid_nth (lvol fixed)); [now rewrite nth_error_firstn_lt|now rewrite nth_error_firstn_lt].
Qed.
Print Assumptions C80_dupire.
(** If the texts (of two decimals, without spaces) tell the spots apart and the times apart, the names differ. *)
Theorem C80_dupire_names {N} (fixed : N -> str) spots times nr nc labels : (nr <= length spots)%nat -> (nc <= length times)%nat ->
  (forall x, ~ In " "%char (fixed x)) ->
  (forall i i' x x', (i < nr)%nat -> (i' < nr)%nat -> nth_error spots i = Some x -> nth_error spots i' = Some x' -> same_up_to_case (fixed x) (fixed x') -> i = i') ->
  (forall j j' x x', (j < nc)%nat -> (j' < nc)%nat -> nth_error times j = Some x -> nth_error times j' = Some x' -> same_up_to_case (fixed x) (fixed x') -> j = j') ->
  dupire_labels fixed spots times nr nc = Ok labels -> all_differ labels.
Proof.
  intros Hr Hc Sp Ds Dt E. unfold dupire_labels in E. rewrite all_labels in E by assumption. cbn [obind] in E.
  set (g := flat_map (fun s => map (lvol fixed s) (firstn nc times)) (firstn nr spots)) in E. assert (labels = lit "spot" :: lit "rate" :: lit "repo" :: g) as -> by congruence. clear E.
  assert (Fst : forall i a, (i < 3)%nat -> nth_error (lit "spot" :: lit "rate" :: lit "repo" :: g) i = Some a -> forall s t, ~ same_up_to_case a (lvol fixed s t)).
  { intros i a Hi Ha s t Q. apply ci_compare_eq in Q. destruct i as [|[|[|i]]]; [..|lia]; cbn [nth_error] in Ha; injection Ha as <-; vm_compute in Q; discriminate. }
  assert (Gi : forall k a, nth_error g k = Some a -> exists i j s t, (i < nr)%nat /\ (j < nc)%nat /\ nth_error spots i = Some s /\ nth_error times j = Some t /\ k = (i * nc + j)%nat /\ a = lvol fixed s t).
  { intros k a H. apply grid_inv in H as (i & j & s & t & Hs & Ht & -> & ->). assert (Lc : length (firstn nc times) = nc) by (rewrite firstn_length; lia). rewrite Lc.
    assert (i < nr)%nat by (assert (i < length (firstn nr spots))%nat by (apply nth_error_Some; congruence); rewrite firstn_length in *; lia).
    assert (j < nc)%nat by (assert (j < length (firstn nc times))%nat by (apply nth_error_Some; congruence); lia).
    rewrite nth_error_firstn_lt in Hs, Ht by assumption. exists i, j, s, t. auto 10. }
  intros i j a b Hi Hj Q. destruct (Nat.lt_ge_cases i 3) as [Li|Li], (Nat.lt_ge_cases j 3) as [Lj|Lj].
  - apply ci_compare_eq in Q. destruct i as [|[|[|i]]]; [..|lia]; cbn [nth_error] in Hi; injection Hi as <-;
      (destruct j as [|[|[|j]]]; [..|lia]; cbn [nth_error] in Hj; injection Hj as <-; vm_compute in Q; first [reflexivity|discriminate]).
  - exfalso. destruct j as [|[|[|j]]]; try lia. cbn [nth_error] in Hj. apply Gi in Hj as (? & ? & s & t & _ & _ & _ & _ & _ & ->). exact (Fst i a Li Hi s t Q).
  - exfalso. destruct i as [|[|[|i]]]; try lia. cbn [nth_error] in Hi. apply Gi in Hi as (? & ? & s & t & _ & _ & _ & _ & _ & ->). exact (Fst j b Lj Hj s t (same_sym _ _ Q)).
  - destruct i as [|[|[|i]]]; try lia. destruct j as [|[|[|j]]]; try lia. cbn [nth_error] in Hi, Hj. apply Gi in Hi as (i1 & j1 & s & t & Hi1 & Hj1 & Hs & Ht & -> & ->). apply Gi in Hj as (i2 & j2 & s' & t' & Hi2 & Hj2 & Hs' & Ht' & -> & ->).
    apply ci_compare_eq in Q. unfold lvol in Q. rewrite prefix_compare in Q. apply ci_compare_eq in Q. cbn [lit list_ascii_of_string app] in Q. apply space_split in Q as [Q1 Q2]; [|apply Sp|apply Sp].
    rewrite (Ds i1 i2 s s') by assumption. rewrite (Dt j1 j2 t t') by assumption. reflexivity.
Qed.
Print Assumptions C80_dupire_names.
(** Finding: two spots that agree to two decimals.  Then the table has fewer rows than there are parameters, and under the name of the volatility at
    the first of the spots it shows the risk to another parameter. *)
Theorem C80_close_spots_refuted {N : Num} {T} (fixed : num -> str) spots times nr nc labels risks pv m i1 i2 j s1 s2 t :
  (nr <= length spots)%nat -> (nc <= length times)%nat -> (i1 < i2 < nr)%nat -> (j < nc)%nat ->
  nth_error spots i1 = Some s1 -> nth_error spots i2 = Some s2 -> nth_error times j = Some t -> fixed s1 = fixed s2 ->
  dupire_labels fixed spots times nr nc = Ok labels -> length risks = length labels -> value_map pv (Some (labels, risks)) = Ok m ->
  length (value_table (T:=T) m) <> S (length labels) /\
  forall v, shows (value_table (T:=T) m) (lit "d_" ++ lit "lvol " ++ fixed s1 ++ lit " " ++ fixed t) v -> exists k, (3 + i2 * nc + j <= k)%nat /\ nth_error risks k = Some v.
Proof.
  intros Hr Hc Hi Hj Hs1 Hs2 Ht Ef El Lr Em. destruct (C80_dupire fixed spots times nr nc Hr Hc) as (labels' & El' & Len & _ & Nm). assert (labels' = labels) as -> by congruence.
  pose proof (Nm i1 j s1 t ltac:(lia) Hj Hs1 Ht) as N1. pose proof (Nm i2 j s2 t ltac:(lia) Hj Hs2 Ht) as N2. rewrite <- Ef in N2.
  destruct (C80_table (T:=T) pv labels risks Lr) as (m' & Em' & _ & _ & Sh & _ & Rows). assert (m' = m) as -> by congruence. split.
  - intros E. apply Rows in E. pose proof (E _ _ _ _ N1 N2 (same_refl _)) as Q. assert (i1 * nc < i2 * nc)%nat by (apply Nat.mul_lt_mono_pos_r; lia). lia.
  - intros v H. apply Sh in H as (k & a & Ha & Sa & Vk & Lk). exists k. split; [|exact Vk]. destruct (Nat.lt_ge_cases k (3 + i2 * nc + j)) as [H|H]; [|exact H]. exfalso. exact (Lk _ _ H N2 (same_refl _)).
Qed.
Print Assumptions C80_close_spots_refuted.

(** * Making a product *)
Section Made.
Context {N T : Type}.
Variables (as_int : N -> outcome Z) (equals_int : N -> Z -> bool) (show_double : N -> str) (show_time : T -> str).
(** A date may be given as the spreadsheet's number of it. *)
Theorem C80_dates name meant given events : Forall2 (entered (T:=T) as_int equals_int) meant given ->
  product_new as_int equals_int name given events = Ok (Data name meant events).
Proof. intros F. unfold product_new. now rewrite (entered_all as_int equals_int meant given F). Qed.
(** Another number than a whole one is refused. *)
Theorem C80_fraction name before meant x k after events : Forall2 (entered (T:=T) as_int equals_int) meant before -> as_int x = Ok k -> equals_int x k = false ->
  product_new as_int equals_int name (before ++ CNum x :: after) events = Throw.
Proof.
  intros F E Q. unfold product_new. enough (G : read_dates as_int equals_int (before ++ CNum x :: after) = Throw) by now rewrite G. induction F as [|c c' l l' H F IH]; cbn [app read_dates].
  - unfold read_date. cbn [is_double cell_to_int]. rewrite E. cbn [obind]. rewrite Q. reflexivity.
  - rewrite (entered_read as_int equals_int c c' H). cbn [obind]. rewrite IH. reflexivity.
Qed.
Section Use.
Variables (reg : hdata) (combos : list (str * center)).
Context {Number Stmt : Type}.
Variables (tokenize : str -> list str) (number : str -> option Number) (parse : omap str Number -> str -> outcome (list Stmt))
  (regex_replace : str -> str -> str -> outcome str) (fuel : nat).
Notation product_of := (product_of (N:=N) (T:=T) as_int equals_int show_double show_time reg combos tokenize number parse regex_replace fuel).
(** Finding: so may a whole number that is no date; the product is made, and its event is past whatever the day. *)
Theorem C80_bad_date_refuted name x k text p : as_int x = Ok k -> equals_int x k = true -> k <= EXCEL_OFFSET \/ EXCEL_OFFSET + 65536 <= k -> parse [] text = Ok p ->
  exists d, product_new as_int equals_int name [CNum x] [text] = Ok d /\ forall today, 0 < today -> product_of today d = Ok ([(0, p)], []).
Proof.
  intros E Q H P. exists (Data name [CDate 0] [text]). split.
  - unfold product_new. cbn [read_dates]. unfold read_date. cbn [is_double cell_to_int]. rewrite E. cbn [obind]. rewrite Q. cbn [obind]. replace (from_excel k) with 0; [reflexivity|]. unfold from_excel. destruct (Z.ltb_spec EXCEL_OFFSET k), (Z.ltb_spec k (EXCEL_OFFSET + 65536)); cbn [andb]; try reflexivity. lia.
  - intros today Ht. unfold DealModel.product_of, parse_events. cbn -[Z.leb]. rewrite P. cbn [obind]. destruct (Z.leb_spec today 0); [lia|reflexivity].
Qed.
(** Dates and events of unequal number are taken, and refused when the product is used. *)
Theorem C80_sizes name meant given events : Forall2 (entered (T:=T) as_int equals_int) meant given -> length given <> length events ->
  exists d, product_new as_int equals_int name given events = Ok d /\ forall today, product_of today d = Throw.
Proof.
  intros F L. exists (Data name meant events). split; [now apply C80_dates|]. intros today. unfold DealModel.product_of. cbn [d_dates d_events]. assert (E : length meant = length given) by (clear L; induction F; cbn [length]; congruence).
  rewrite E. apply Nat.eqb_neq in L. now rewrite L.
Qed.
(** The timeline of a product made from a table is the one of its rows (C20). *)
Theorem C80_events name given table events rows today : Forall2 (entered (T:=T) as_int equals_int) (map fst table) given -> events = map snd table -> Forall2 means table rows ->
  exists d, product_new as_int equals_int name given events = Ok d /\ product_of today d = parse_events reg combos tokenize number parse regex_replace fuel today rows.
Proof.
  intros F -> R. exists (Data name (map fst table) (map snd table)). split; [now apply C80_dates|]. unfold DealModel.product_of. cbn [d_dates d_events]. rewrite !map_length, Nat.eqb_refl.
  enough (E : rows_of as_int equals_int show_double show_time (map fst table) (map snd table) = Ok rows) by now rewrite E. clear F given. induction R as [|p r table rows M R IH]; [reflexivity|]. cbn [map rows_of]. rewrite IH. destruct M; reflexivity.
Qed.
(** As the evaluation date moves, the events only change side: whatever the day the same events are there in the same order, those before the day in the past. *)
Theorem C80_roll d today tomorrow past future : product_of today d = Ok (past, future) ->
  exists past' future', product_of tomorrow d = Ok (past', future') /\ past ++ future = past' ++ future' /\
    Forall (fun e => fst e < tomorrow) past' /\ Forall (fun e => tomorrow <= fst e) future'.
Proof.
  unfold DealModel.product_of. destruct (Nat.eqb _ _); [|discriminate]. destruct (rows_of _ _ _ _ (d_dates d) (d_events d)) as [rows| | |]; try discriminate. cbn [obind]. unfold parse_events. destruct (add_rows _ _ _ _ _ _ _ rows) as [a| | |] eqn:Ea; try discriminate. cbn [obind]. intros E.
  apply rows_sorted in Ea; [|constructor]. destruct (all_roll parse (consts a) today tomorrow (timeline a) past future Ea E) as (p' & f' & E' & Q). exists p', f'. split; [exact E'|]. split; [exact Q|].
  clear - E'. revert p' f' E'. induction (timeline a) as [|[e x] m IH]; intros p f E; cbn [parse_all] in E; [injection E as <- <-; auto|]. destruct (parse (consts a) x); cbn [obind] in E; try discriminate. destruct (parse_all parse tomorrow (consts a) m) as [[p1 f1]| | |]; cbn [obind] in E; try discriminate.
  destruct (IH p1 f1 eq_refl) as [A B]. destruct (Z.leb_spec tomorrow e); injection E as <- <-; auto.
Qed.
(** * Printing *)
Variable tree_of : Stmt -> tree.
Notation product_debug := (product_debug (N:=N) (T:=T) as_int equals_int show_double show_time reg combos tokenize number parse regex_replace fuel (fun s => text_of [] (tree_of s))).
Theorem C80_debug today d past future : product_of today d = Ok (past, future) -> future <> [] ->
  Forall (fun e => 1 <= fst e < 65536 /\ Forall (fun s => plain (tree_of s)) (snd e)) future ->
  product_debug today d = Ok (event_lines (fun s => tree_lines [] (tree_of s)) 1 future).
Proof.
  intros E H F. unfold DealModel.product_debug. rewrite E. cbn [obind snd print_vars app]. rewrite (events_lines _ (fun s => tree_lines [] (tree_of s)) (fun s => text_lines (tree_of s) [])).
  destruct (of_lines _) as [|c r] eqn:Et; [exfalso; destruct future as [|[e ss] future]; [congruence|discriminate]|]. rewrite <- Et. f_equal. apply split_lines. clear E H Et c r. generalize 1.
  induction F as [|[e ss] future [He Fs] F IH]; intros k; cbn [event_lines]; [constructor|]. cbn [fst snd] in He, Fs. constructor.
  - repeat apply free_app; try (now apply free_lit); [now apply date_free|]. intros [I0|I0]; [discriminate|]. revert I0. apply free_app; [now apply free_lit|apply show_free].
  - apply Forall_app. split; [|apply IH]. generalize 1. induction Fs as [|s ss P Fs IHs]; intros i; cbn [statement_lines]; [constructor|]. constructor; [apply free_app; [now apply free_lit|apply show_free]|]. apply Forall_app. split; [apply lines_free; [exact P|intros []]|].
    constructor; [intros []|apply IHs].
Qed.
(** Finding: a product with nothing left to come cannot be printed. *)
Theorem C80_all_past_refuted today d past : product_of today d = Ok (past, []) -> product_debug today d = Throw.
Proof. intros E. unfold DealModel.product_debug. rewrite E. reflexivity. Qed.
End Use.
End Made.
Print Assumptions C80_dates. Print Assumptions C80_fraction. Print Assumptions C80_bad_date_refuted. Print Assumptions C80_sizes. Print Assumptions C80_events. Print Assumptions C80_roll. Print Assumptions C80_debug. Print Assumptions C80_all_past_refuted.

(** * Cases *)
From Verif Require ScriptNum.
Definition znum : Num := ScriptNum.ZNum.
(** numbers in hundredths, shown without the hundredths *)
Definition dec (z : Z) : str := show_int (z / 100).
Example C80_case_table : exists m, value_map (N:=znum) 7 (Some ([lit "b"; lit "a"; lit "B"], [1; 2; 3])) = Ok m /\
  value_table (N:=znum) (T:=unit) m = [[CStr (lit "d_a"); CNum 2]; [CStr (lit "d_b"); CNum 3]; [CStr (lit "PV"); CNum 7]].
Proof. eexists. split; [vm_compute; reflexivity|vm_compute; reflexivity]. Qed.
(** spots 10000, 10050 and 20000 hundredths, of which the first two have one text *)
Example C80_case_close : exists labels m, dupire_labels dec [10000; 10050; 20000] [100; 200] 3 2 = Ok labels /\ value_map (N:=znum) 7 (Some (labels, [1; 2; 3; 4; 5; 6; 7; 8; 9])) = Ok m /\ dec 10000 = dec 10050 /\
  value_table (N:=znum) (T:=unit) m = [[CStr (lit "d_lvol 100 1"); CNum 6]; [CStr (lit "d_lvol 100 2"); CNum 7]; [CStr (lit "d_lvol 200 1"); CNum 8]; [CStr (lit "d_lvol 200 2"); CNum 9];
    [CStr (lit "d_rate"); CNum 2]; [CStr (lit "d_repo"); CNum 3]; [CStr (lit "d_spot"); CNum 1]; [CStr (lit "PV"); CNum 7]].
Proof. eexists. eexists. split; [vm_compute; reflexivity|]. split; [vm_compute; reflexivity|]. split; vm_compute; reflexivity. Qed.
Definition ex_parse (cs : omap str Z) (t : str) : outcome (list str) := Ok (split t EventModel.newline true).
Definition ex_of := product_of (N:=Z) (T:=unit) Ok Z.eqb show_int (fun _ => []) (HData [] []) [] (Stmt:=str) (fun _ => []) (fun _ => None) ex_parse (fun _ _ t => Ok t) 10.
Definition ex_debug := product_debug (N:=Z) (T:=unit) Ok Z.eqb show_int (fun _ => []) (HData [] []) [] (Stmt:=str) (fun _ => []) (fun _ => None) ex_parse (fun _ _ t => Ok t) 10 (fun s => text_of [] (Node s [Node (lit "X") []])).
Definition ex_given : list (DictModel.cell Z unit) := [CNum (to_excel 18322); CDate 18300; CNum (to_excel 18322)].
Example C80_case_events : Forall2 (means (N:=Z) (T:=unit)) [(CStr (lit "K"), lit "100"); (CDate 18322, lit "B")] [Named (lit "K") (lit "100"); Dated 18322 (lit "B")].
Proof. repeat constructor. Qed.
Example C80_case_product : exists d, Forall2 (entered Ok Z.eqb) [CDate 18322; CDate 18300; CDate 18322] ex_given /\ product_new Ok Z.eqb (lit "p") ex_given [lit "B"; lit "A"; lit "C"] = Ok d /\
  ex_of 18300 d = Ok ([], [(18300, [lit "A"]); (18322, [lit "B"; lit "C"])]) /\ ex_of 18301 d = Ok ([(18300, [lit "A"])], [(18322, [lit "B"; lit "C"])]) /\
  ex_debug 18301 d = Ok [lit "EventTime_: 2020-02-29" ++ "009"%char :: lit "Event_: 1"; lit "Statement_: 1"; lit "B("; "009"%char :: lit "X"; lit ")"; []; lit "Statement_: 2"; lit "C("; "009"%char :: lit "X"; lit ")"; []] /\
  ex_debug 18323 d = Throw.
Proof.
  eexists. split; [|split; [vm_compute; reflexivity|split; [vm_compute; reflexivity|split; [vm_compute; reflexivity|split; vm_compute; reflexivity]]]].
  constructor; [apply as_number; [lia|reflexivity|reflexivity]|]. constructor; [apply as_date|]. constructor; [apply as_number; [lia|reflexivity|reflexivity]|constructor].
Qed.
