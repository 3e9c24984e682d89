(** C83: what is put in the Excel report stays there. *)
From Coq Require Import List ZArith Bool Ascii String Lia.
From Verif Require Import Base StringModel SplatFileModel DriverModel DriverSpec DriverProofs.
Import ListNotations.
Open Scope Z_scope.

Section Props.
Context {D : Type}.
Variable legal : str -> bool.
Variable key : str -> str.
Variables max_row max_col : Z.
Notation session := (session (D := D) legal key max_row max_col).
Notation length := List.length.

(** a chart that was made shows its numbers under its labels, whatever is called before and after, and whether those calls throw or not *)
Theorem C83_charts : forall column0 before later x labels vs title xt yt b1 b2 b3,
  session before (new_driver column0) = Some b1 ->
  create_chart legal key max_row max_col x labels vs title xt yt b1 = Done b2 ->
  session later b2 = Some b3 ->
  Forall (fun v => length v = length x) vs ->
  exists ch, nth_error (charts b3) (length (charts b1)) = Some ch /\ c_name ch = Some (c_str title) /\
             c_title ch = c_str title /\ c_x ch = c_str xt /\ c_y ch = c_str yt /\ (length vs <= length labels)%nat /\
             shown key b3 ch = map (fun p => map Some (headed (fst p) (snd p))) (combine (xt :: labels) (x :: vs)).
Proof.
  intros column0 before later x labels vs title xt yt b1 b2 b3 H1 H2 H3 HF. destruct (session_ok _ _ _ _ _ _ _ (new_inv key column0) H1) as [I1 _].
  pose proof (chart_shape legal key max_row max_col x labels vs title xt yt b1 I1) as P. rewrite H2 in P. destruct P as (_ & Hf & Hl & E).
  assert (Hs : step legal key max_row max_col (MakeChart x labels vs title xt yt) b1 = Done b2) by exact H2.
  destruct (step_ok _ _ _ _ _ _ _ I1 (or_introl Hs)) as [I2 _]. destruct (session_ok _ _ _ _ _ _ _ I2 H3) as [I3 G]. rewrite E in G.
  eexists. split; [apply (g_charts _ _ G); unfold charted; cbn [charts]; rewrite nth_error_app2 by lia; rewrite Nat.sub_diag; reflexivity|].
  do 4 (split; [reflexivity|]). split; [exact Hl|].
  eapply (shown_ok key x (xt :: labels) (x :: vs)); [exact I1|exact I3|cbn; lia|discriminate| | |reflexivity| |exact G].
  - cbn [length]. lia.
  - constructor; [reflexivity|exact HF].
  - cbn [c_end length]. f_equal. lia.
Qed.

(** a table that was added is on the sheet of its name, with its labels and nothing else, whatever is called before and after *)
Theorem C83_tables : forall column0 before later m name rl cl r c b1 b2 b3,
  session before (new_driver column0) = Some b1 ->
  add_matrix legal key max_row max_col m name rl cl r c b1 = Done b2 ->
  session later b2 = Some b3 ->
  (length m <= length rl)%nat /\ forall i j, cell_of key b3 (c_str name) i j = labelled r c rl cl m i j.
Proof.
  intros column0 before later m name rl cl r c b1 b2 b3 H1 H2 H3. destruct (session_ok _ _ _ _ _ _ _ (new_inv key column0) H1) as [I1 _].
  pose proof (matrix_shape legal key max_row max_col m name rl cl r c b1) as P. rewrite H2 in P. destruct P as (_ & Hf & Hl & E).
  assert (Hs : step legal key max_row max_col (MakeTable m name rl cl r c) b1 = Done b2) by exact H2.
  destruct (step_ok _ _ _ _ _ _ _ I1 (or_introl Hs)) as [I2 _]. destruct (session_ok _ _ _ _ _ _ _ I2 H3) as [I3 G]. rewrite E in G.
  split; [exact Hl|]. intros i j. rewrite (ext_lasts key _ _ _ _ i j I1 Hf I3 G). rewrite rev_app_distr, look_app, look_table, look_head. unfold labelled. replace (j - (c + 1)) with (j - c - 1) by lia. destruct (Z.eqb_spec i r) as [->|].
  - unfold rows_cell. now rewrite (nthZ_neg rl) by lia.
  - now destruct (rows_cell (r + 1) c rl m i j).
Qed.
Theorem C83_plain_tables : forall column0 before later m name r c b1 b2 b3,
  session before (new_driver column0) = Some b1 ->
  add_plain legal key max_row max_col m name r c b1 = Done b2 ->
  session later b2 = Some b3 ->
  forall i j, cell_of key b3 (c_str name) i j = rows_cell r c (map (fun _ => []) m) m i j.
Proof.
  intros column0 before later m name r c b1 b2 b3 H1 H2 H3. destruct (session_ok _ _ _ _ _ _ _ (new_inv key column0) H1) as [I1 _].
  pose proof (plain_shape legal key max_row max_col m name r c b1) as P. rewrite H2 in P. destruct P as (_ & Hf & E).
  assert (Hs : step legal key max_row max_col (MakePlain m name r c) b1 = Done b2) by exact H2.
  destruct (step_ok _ _ _ _ _ _ _ I1 (or_introl Hs)) as [I2 _]. destruct (session_ok _ _ _ _ _ _ _ I2 H3) as [I3 G]. rewrite E in G.
  intros i j. rewrite (ext_lasts key _ _ _ _ i j I1 Hf I3 G). apply look_table.
Qed.
(** a vector is a table of one row *)
Theorem C83_vectors : forall column0 before later v name r c b1 b2 b3,
  session before (new_driver column0) = Some b1 ->
  add_vector legal key max_row max_col v name r c b1 = Done b2 ->
  session later b2 = Some b3 ->
  forall i j, cell_of key b3 (c_str name) i j = if i =? r then row_cell c [] v j else None.
Proof.
  intros column0 before later v name r c b1 b2 b3 H1 H2 H3 i j. rewrite (C83_plain_tables column0 before later [v] name r c b1 b2 b3 H1 H2 H3). unfold rows_cell. cbn [map]. rewrite !nthZ_cons. destruct (Z.eqb_spec i r), (Z.eqb_spec (i - r) 0); try lia; [reflexivity|]. now rewrite nthZ_nil.
Qed.
Theorem C83_labelled_vectors : forall column0 before later v name label cl r c b1 b2 b3,
  session before (new_driver column0) = Some b1 ->
  add_labelled legal key max_row max_col v name label cl r c b1 = Done b2 ->
  session later b2 = Some b3 ->
  forall i j, cell_of key b3 (c_str name) i j = labelled r c [label] cl [v] i j.
Proof. intros column0 before later v name label cl r c b1 b2 b3 H1 H2 H3. apply (C83_tables column0 before later [v] name [label] cl r c b1 b2 b3 H1 H2 H3). Qed.
(** a chart of one function shows it under the title *)
Theorem C83_one_function : forall column0 before later x y title xt yt b1 b2 b3,
  session before (new_driver column0) = Some b1 ->
  create_chart_one legal key max_row max_col x y title xt yt b1 = Done b2 ->
  session later b2 = Some b3 -> length y = length x ->
  exists ch, nth_error (charts b3) (length (charts b1)) = Some ch /\ c_name ch = Some (c_str title) /\ c_x ch = c_str xt /\ c_y ch = c_str yt /\
             shown key b3 ch = [map Some (headed xt x); map Some (headed title y)].
Proof.
  intros column0 before later x y title xt yt b1 b2 b3 H1 H2 H3 Hy. destruct (C83_charts column0 before later x [title] [y] title xt yt b1 b2 b3 H1 H2 H3) as (ch & A & B & _ & C & E & _ & F); [now constructor|]. exists ch. auto.
Qed.
(** texts that were printed are on the last sheet, one under the other *)
Theorem C83_texts : forall column0 before later l r c b1 b2 b3,
  session before (new_driver column0) = Some b1 ->
  print_strings max_row max_col l r c b1 = Done b2 ->
  session later b2 = Some b3 ->
  exists s, nth_error (sheets b3) (length (sheets b1)) = Some s /\
            forall i j, look (s_cells s) i j = if j =? c then option_map (fun t => Text (c_str t)) (nthZ l (i - r)) else None.
Proof.
  intros column0 before later l r c b1 b2 b3 H1 H2 H3. destruct (session_ok _ _ _ _ _ _ _ (new_inv key column0) H1) as [I1 _].
  pose proof (print_shape max_row max_col l r c b1) as P. rewrite H2 in P.
  assert (Hs : step legal key max_row max_col (Print l r c) b1 = Done b2) by exact H2.
  destruct (step_ok _ _ _ _ _ _ _ I1 (or_introl Hs)) as [I2 _]. destruct (session_ok _ _ _ _ _ _ _ I2 H3) as [I3 G]. rewrite P in G.
  eexists. split; [apply (g_sheets _ _ G)|].
  - destruct I1 as [(s & t & -> & _) _]. cbn. lia.
  - unfold ext. cbn [sheets]. rewrite nth_error_app2 by lia. now rewrite Nat.sub_diag.
  - intros i j. cbn [s_cells]. rewrite look_down. destruct (j =? c); [|reflexivity]. unfold nthZ. destruct (i - r <? 0); [reflexivity|]. apply nth_error_map.
Qed.
(** no two sheets or charts have the same name *)
Theorem C83_names : forall column0 calls b, session calls (new_driver column0) = Some b -> NoDup (named key b).
Proof. intros column0 calls b H. now destruct (session_ok _ _ _ _ _ _ _ (new_inv key column0) H) as [[_ N] _]. Qed.

(** a call ends well when there is a label for each row, the name is legal and new, and the sheet has room *)
Theorem C83_table_made : forall m name rl cl r c (b : book D),
  legal (c_str name) = true -> ~ In (key (c_str name)) (named key b) -> (length m <= length rl)%nat ->
  1 <= r -> 1 <= c -> r + Z.of_nat (length m) <= max_row -> c + Z.max (widest m) (Z.of_nat (length cl)) <= max_col ->
  exists b', add_matrix legal key max_row max_col m name rl cl r c b = Done b'.
Proof.
  intros m name rl cl r c b HL HN Hl Hr Hc Hr' Hc'. unfold add_matrix. rewrite name_eq, HL, (proj2 (taken_false key _ _) HN). cbn [andb negb after]. rewrite head_writes.
  rewrite writes_all; [|eapply room_fits with (r0 := 1) (r1 := max_row) (c0 := 1) (c1 := max_col); try lia; apply head_room; lia].
  cbn [after]. rewrite table_writes, writes_all; [|eapply room_fits with (r0 := 1) (r1 := max_row) (c0 := 1) (c1 := max_col); try lia; apply table_room; lia].
  cbn [after]. rewrite (proj2 (Nat.leb_le _ _) Hl). now eexists.
Qed.
Theorem C83_chart_made : forall column0 before x labels vs title xt yt b,
  session before (new_driver column0) = Some b ->
  legal (c_str title) = true -> ~ In (key (c_str title)) (named key b) -> (length vs <= length labels)%nat ->
  1 <= column b -> column b + Z.of_nat (length vs) <= max_col -> 1 + widest (x :: vs) <= max_row ->
  exists b', create_chart legal key max_row max_col x labels vs title xt yt b = Done b' /\ column b' = column b + Z.of_nat (length vs) + 2.
Proof.
  intros column0 before x labels vs title xt yt b H HL HN Hl Hc Hc' Hr. destruct (session_ok _ _ _ _ _ _ _ (new_inv key column0) H) as [I1 _].
  assert (W0 : 0 <= widest (x :: vs)) by (unfold widest; lia). assert (Hx := widest_cons x vs).
  destruct (outputs_room max_row max_col 0 (x :: vs) (xt :: labels) b) as [b2 E]; [cbn; lia|lia|cbn [length]; lia|lia|lia|].
  pose proof (outputs_ok max_row max_col 0 (x :: vs) (xt :: labels) b) as Q. rewrite E in Q. destruct Q as [_ Q].
  cbn [outputs] in E. unfold create_chart. rewrite (find_first key b I1). cbv zeta.
  destruct (to_vertical max_row max_col 0 1 (column b) xt x b) as [b1| |]; cbn [after] in *; [|discriminate|discriminate]. rewrite E. cbn [after].
  assert (F : (1 <=? Z.of_nat (length x) + 1) && (Z.of_nat (length x) + 1 <=? max_row) && (1 <=? column b + Z.of_nat (length vs)) && (column b + Z.of_nat (length vs) <=? max_col) = true) by (rewrite !andb_true_iff, !Z.leb_le; lia).
  rewrite F. unfold name_chart. rewrite HL. match goal with |- context [taken key (c_str title) ?b3] => assert (taken key (c_str title) b3 = taken key (c_str title) b) as -> end.
  { rewrite Q. unfold taken, names. cbn [sheets charts]. rewrite change_map by reflexivity. rewrite map_app, !existsb_app. cbn. now rewrite orb_false_r. }
  rewrite (proj2 (taken_false key _ _) HN). cbn [andb negb after]. eexists. split; [reflexivity|]. rewrite Q. unfold next_column. cbn [column length]. lia.
Qed.

(** The first chart has its data from the column on that the driver was made with, and a driver begins with nothing in its one sheet. *)
Theorem C83_first : forall column0 (x : list D) labels vs title xt yt b, create_chart legal key max_row max_col x labels vs title xt yt (new_driver column0) = Done b ->
  exists ch, nth_error (charts b) 0 = Some ch /\ c_begin ch = (1, column0).
Proof.
  intros column0 x labels vs title xt yt b H. pose proof (chart_shape legal key max_row max_col x labels vs title xt yt (new_driver column0) (new_inv key column0)) as S0. rewrite H in S0. destruct S0 as (_ & _ & _ & ->).
  eexists. split; reflexivity.
Qed.
(** with fewer labels than rows, a table with room for its rows reads past the end of the labels *)
Theorem C83_labels_refuted : forall m name rl cl r c (b : book D),
  legal (c_str name) = true -> ~ In (key (c_str name)) (named key b) -> (length rl < length m)%nat ->
  1 <= r -> 1 <= c -> r + Z.of_nat (length m) <= max_row -> c + Z.max (widest m) (Z.of_nat (length cl)) <= max_col ->
  add_matrix legal key max_row max_col m name rl cl r c b = Undefined.
Proof.
  intros m name rl cl r c b HL HN Hl Hr Hc Hr' Hc'. unfold add_matrix. rewrite name_eq, HL, (proj2 (taken_false key _ _) HN). cbn [andb negb after]. rewrite head_writes.
  rewrite writes_all; [|eapply room_fits with (r0 := 1) (r1 := max_row) (c0 := 1) (c1 := max_col); try lia; apply head_room; lia].
  cbn [after]. rewrite table_writes, writes_all; [|eapply room_fits with (r0 := 1) (r1 := max_row) (c0 := 1) (c1 := max_col); try lia; apply table_room; lia].
  cbn [after]. now rewrite (proj2 (Nat.leb_gt _ _) Hl).
Qed.
(** so does a chart with fewer labels than outputs *)
Theorem C83_chart_labels_refuted : forall column0 before x labels vs title xt yt b,
  session before (new_driver column0) = Some b -> (length labels < length vs)%nat ->
  1 <= column b -> column b + Z.of_nat (length vs) <= max_col -> 1 + widest (x :: vs) <= max_row ->
  create_chart legal key max_row max_col x labels vs title xt yt b = Undefined.
Proof.
  intros column0 before x labels vs title xt yt b H Hl Hc Hc' Hr. destruct (session_ok _ _ _ _ _ _ _ (new_inv key column0) H) as [I1 _].
  assert (U := outputs_short max_row max_col 0 (x :: vs) (xt :: labels) b). cbn [length] in U. assert (W0 : 0 <= widest (x :: vs)) by (unfold widest; lia). specialize (U ltac:(lia) ltac:(lia) ltac:(lia) ltac:(lia) ltac:(lia)).
  unfold create_chart. rewrite (find_first key b I1). cbv zeta. cbn [outputs] in U.
  destruct (to_vertical max_row max_col 0 1 (column b) xt x b) as [b1| |]; cbn [after] in *; [|discriminate|reflexivity]. now rewrite U.
Qed.
(** a table whose name is taken throws, but leaves a sheet behind *)
Theorem C83_taken_refuted : forall m name rl cl r c (b : book D),
  In (key (c_str name)) (named key b) -> exists b', add_matrix legal key max_row max_col m name rl cl r c b = Thrown b' /\ length (sheets b') = Datatypes.S (length (sheets b)).
Proof.
  intros m name rl cl r c b HI. unfold add_matrix. rewrite name_eq. destruct (taken key (c_str name) b) eqn:T; [|apply taken_false in T; contradiction]. rewrite andb_false_r. cbn [after]. eexists. split; [reflexivity|]. unfold ext. cbn [sheets]. rewrite app_length. cbn. lia.
Qed.
End Props.
Print Assumptions C83_charts.
Print Assumptions C83_tables.
Print Assumptions C83_plain_tables.
Print Assumptions C83_texts.
Print Assumptions C83_vectors.
Print Assumptions C83_labelled_vectors.
Print Assumptions C83_one_function.
Print Assumptions C83_chart_labels_refuted.
Print Assumptions C83_names.
Print Assumptions C83_table_made.
Print Assumptions C83_chart_made.
Print Assumptions C83_first.
Print Assumptions C83_labels_refuted.
Print Assumptions C83_taken_refuted.

(** a report: any name that is not empty, names compared as they are, a sheet of 100 by 20 *)
Definition any_name (s : str) : bool := match s with [] => false | _ => true end.
Notation run := (session (D := Z) any_name (fun s => s) 100 20).
Notation chart_of := (create_chart (D := Z) any_name (fun s => s) 100 20).
(** an output longer than the inputs is written, but the chart's range leaves its end out *)
Theorem C83_longer_refuted : exists b ch,
  chart_of [1; 2] [lit "y"] [[10; 20; 30]] (lit "T") (lit "X") (lit "Y") (new_driver 1) = Done b /\ nth_error (charts b) 0 = Some ch /\
  shown (fun s => s) b ch = map (map Some) [headed (lit "X") [1; 2]; headed (lit "y") [10; 20]] /\ cell_of (fun s => s) b chart_data 4 2 = Some (Real 30).
Proof. eexists _, _. split; [vm_compute; reflexivity|]. split; [vm_compute; reflexivity|]. split; vm_compute; reflexivity. Qed.
Print Assumptions C83_longer_refuted.
(** a chart whose title is taken throws, but its numbers and a chart without a name stay *)
Theorem C83_title_refuted : exists b1 b2 ch,
  chart_of [1; 2] [lit "y"] [[10; 20]] (lit "T") (lit "X") (lit "Y") (new_driver 1) = Done b1 /\
  chart_of [3; 4] [lit "y"] [[30; 40]] (lit "T") (lit "X") (lit "Y") b1 = Thrown b2 /\
  nth_error (charts b2) 1 = Some ch /\ c_name ch = None /\ shown (fun s => s) b2 ch = map (map Some) [headed (lit "X") [3; 4]; headed (lit "y") [30; 40]].
Proof. eexists _, _, _. do 3 (split; [vm_compute; reflexivity|]). split; vm_compute; reflexivity. Qed.
Print Assumptions C83_title_refuted.

(** a chart, a failed chart, a table, a failed table, texts, a vector and a chart again *)
Definition calls : list (call Z) :=
  [MakeChart [1; 2] [lit "y"] [[10; 20]] (lit "T") (lit "X") (lit "Y");
   MakeChart [3; 4] [lit "y"] [[30; 40]] (lit "T") (lit "X") (lit "Y");
   MakeTable [[1; 2; 3]; [4; 5; 6]] (lit "M") [lit "a"; lit "b"] [lit "p"; lit "q"; lit "r"] 2 3;
   MakePlain [[7]] (lit "M") 1 1; Print [lit "hello"] 1 1; MakePlain [[8; 9]] (lit "V") 1 1;
   MakeChart [5] [lit "u"; lit "v"] [[6]; [7]] (lit "U") (lit "X") (lit "Y")].
Example C83_case : exists b ch ch',
  run calls (new_driver 1) = Some b /\ nth_error (charts b) 0 = Some ch /\ nth_error (charts b) 2 = Some ch' /\
  shown (fun s => s) b ch = map (map Some) [headed (lit "X") [1; 2]; headed (lit "y") [10; 20]] /\
  shown (fun s => s) b ch' = map (map Some) [headed (lit "X") [5]; headed (lit "u") [6]; headed (lit "v") [7]] /\
  cell_of (fun s => s) b (lit "M") 2 4 = Some (Text (lit "p")) /\ cell_of (fun s => s) b (lit "M") 4 6 = Some (Real 6) /\ cell_of (fun s => s) b (lit "M") 2 3 = None /\ cell_of (fun s => s) b (lit "V") 1 3 = Some (Real 9) /\
  (exists b1, run (firstn 6 calls) (new_driver 1) = Some b1 /\ ~ In (lit "U") (named (fun s => s) b1) /\ In (lit "M") (named (fun s => s) b1) /\ 1 <= column b1 /\ column b1 + 2 <= 20 /\ 1 + widest [[5]; [6]; [7]] <= 100).
Proof.
  eexists _, _, _. do 9 (split; [vm_compute; reflexivity|]). eexists. split; [vm_compute; reflexivity|]. split; [vm_compute; intuition discriminate|]. split; [vm_compute; intuition|]. repeat split; vm_compute; discriminate.
Qed.
Print Assumptions C83_case.
