(** Property C64: header tables of a report. *)
From Coq Require Import ZArith Ascii String List Arith Bool Lia.
From Verif Require Import Base Vec OMap StringModel StringProofs NdModel NdSpec NdProofs HeaderModel HeaderSpec HeaderProofs.
Import ListNotations.
Local Open Scope nat_scope.
Section Tables.
Context {A C : Type}.
Variable zero : A.
Variable blank : C.
(** Rows added to the tables of a report, in any number and order: under each name, in upper or lower case, stands the table
    with the labels given, as long as the axis or as the rows need, each row as added last or blank; the values of the report
    are as they were. *)
Theorem C64_tables names n0 ns ls adds : distinct names -> length names = S (length ns) -> Forall (fun n => 0 < n) ns -> length ls = length names -> fitting names ls adds ->
  exists (f0 f : full A C), new_full zero blank (combine (combine names (n0 :: ns)) ls) = Ok f0 /\ add_all blank f0 adds = Ok f /\ body f = body f0 /\
    forall i name, i < length names -> ci_compare (nth i names []) name = Eq ->
      exists h, header_of f name = Ok h /\ labels h = nth i ls [] /\ length (table h) = rows_needed (nth i (n0 :: ns) 0) adds (nth i names []) /\
        forall k, k < length (table h) -> get (table h) k = Ok (latest_row adds (nth i names []) k (repeat blank (length (nth i ls [])))).
Proof.
  intros HD HL HP Hl HF. destruct (new_full_ok zero blank names n0 ns ls HD HL HP Hl) as (f0 & E0 & Eb & Wb & W0 & T0). destruct (add_all_ok blank names ls adds f0 W0 HF) as (f & E & B & W & H).
  exists f0, f. split; [exact E0|]. split; [exact E|]. split; [exact B|]. intros i name Hi Hn. destruct (H i Hi) as [L N]. exists (nth i (heads f) no_head).
  split; [unfold header_of; rewrite (proj1 (proj2 (proj2 (proj1 W))) i name Hi Hn); apply get_ok; rewrite (heads_length _ _ _ W); exact Hi|].
  split; [exact (labels_nth _ _ _ i W)|]. fold (tab f i). rewrite T0, repeat_length in L by exact Hi. split; [exact L|]. intros k Hk. rewrite (get_ok _ _ (empty_row blank ls i)) by exact Hk. f_equal.
  rewrite N, T0 by exact Hi. f_equal. apply nth_repeat.
Qed.
(** An axis that does not exist has no table. *)
Theorem C64_unknown names n0 ns ls adds (f0 f : full A C) axis offset values : distinct names -> length names = S (length ns) -> Forall (fun n => 0 < n) ns -> length ls = length names -> fitting names ls adds ->
  new_full zero blank (combine (combine names (n0 :: ns)) ls) = Ok f0 -> add_all blank f0 adds = Ok f -> (forall n, In n names -> ci_compare n axis <> Eq) ->
  add_header_row blank f axis offset values = Throw /\ header_of f axis = Throw.
Proof.
  intros HD HL HP Hl HF E0 E1 H. destruct (new_full_ok zero blank names n0 ns ls HD HL HP Hl) as (f0' & E0' & _ & _ & W0 & _). rewrite E0 in E0'. injection E0' as <-.
  destruct (add_all_ok blank names ls adds f0 W0 HF) as (f' & E' & _ & W & _). rewrite E1 in E'. injection E' as <-.
  unfold add_header_row, header_of. rewrite (proj1 (proj2 (proj2 (proj2 (proj1 W)))) axis H). split; reflexivity.
Qed.
(** Stored and read again: the labels are the same, and the tables too, except that a table shorter than its axis - the first
    axis grows with the values written - is filled up with blank rows; the values are the same. *)
Theorem C64_store names n0 ns ls adds ws f0 f1 r : distinct names -> length names = S (length ns) -> Forall (fun n => 0 < n) ns -> length ls = length names -> fitting names ls adds ->
  Forall (fun w => exists x0 l, fst w = x0 :: l /\ in_range ns l) ws ->
  new_full zero blank (combine (combine names (n0 :: ns)) ls) = Ok f0 -> add_all blank f0 adds = Ok f1 -> write_all zero (body f0) ws = (r, Ok tt) ->
  exists stored f', store_full (Full r (heads f1)) = Ok stored /\ build_full zero blank stored = Ok f' /\ rvals (body f') = rvals r /\
    forall i name, i < length names -> ci_compare (nth i names []) name = Eq ->
      size_of (body f') name = size_of r name /\ exists h h', header_of (Full r (heads f1)) name = Ok h /\ header_of f' name = Ok h' /\ labels h' = labels h /\
        table h' = table h ++ repeat (repeat blank (length (labels h))) (nth i (grown n0 ws :: ns) 0 - length (table h)).
Proof.
  intros HD HL HP Hl HF Hws E0 E1 Er. destruct (new_full_ok zero blank names n0 ns ls HD HL HP Hl) as (f0' & E0' & _ & Wb & W0 & T0). rewrite E0 in E0'. injection E0' as <-.
  destruct (add_all_ok blank names ls adds f0 W0 HF) as (f1' & E1' & B1 & W1 & H1). rewrite E1 in E1'. injection E1' as <-.
  destruct (write_all_ok zero names ns ws Hws n0 (body f0) Wb) as (r' & Er' & Wr & Ar & _). rewrite Er in Er'. injection Er' as <-.
  assert (Wf : hwf names ls (Full r (heads f1))) by (destruct W1 as (N & L & E & F); split; [exact (proj1 Wr)|]; split; [exact L|]; split; [exact E|exact F]).
  unfold store_full. cbn [body heads]. rewrite (store_ok names _ ns r Wr). cbn [obind]. set (m := grown n0 ws) in *. set (ts := map table (heads f1)). rewrite (proj1 (proj2 (proj2 W1))).
  assert (Lt : length ts = length names) by (unfold ts; rewrite map_length; exact (heads_length _ _ _ W1)).
  assert (Nt : forall i, nth i ts [] = tab f1 i) by (intros i; unfold ts; change (@nil (list C)) with (table (no_head (C := C))); apply map_nth).
  destruct (new_full_ok zero blank names m ns ls HD HL HP Hl) as (g0 & G0 & _ & Wg & WG & TG).
  assert (R1 : forall i, Forall (fun r0 => length r0 = wide ls i) (nth i ts [])) by (intros i; rewrite Nt; apply W1).
  assert (R2 : forall i, i < length names -> ci_compare (nth i names []) (nth i names []) = Eq) by (intros i _; apply (cmp_refl ci_compare ci_compare_antisym)).
  destruct (add_tables_ok (A := A) blank names ls ts Lt R1 R2 [] names g0 eq_refl WG) as (g & Eg & Bg & Wg' & _ & Qg).
  cbn [length skipn] in *. assert (Hv : length (rvals r) = m * cells ns) by apply Wr. destruct (set_all_ok names m ns (body g0) m (rvals r) Wg (le_n _) Hv) as [Es Ws].
  assert (Ewl : with_labels (combine names (m :: ns)) ls = Ok (combine (combine names (m :: ns)) ls)).
  { assert (Lx : length (combine names (m :: ns)) = length ls) by (rewrite combine_length; cbn [length]; lia). revert Lx. generalize (combine names (m :: ns)) as ax. clear. intros ax. revert ls. induction ax as [|a ax IH]; intros [|l ls] H; cbn in *; try lia; [reflexivity|]. rewrite IH by lia. reflexivity. }
  eexists. exists (Full (Report (axes (body g0)) (rstrides (body g0)) (rvals r)) (heads g)). split; [reflexivity|]. split.
  - unfold build_full. rewrite Ewl. cbn [obind]. rewrite G0. cbn [obind]. rewrite (combine_fst names (m :: ns)) by exact HL. rewrite Eg. cbn [obind]. rewrite Bg, Es. cbn [obind]. reflexivity.
  - split; [reflexivity|]. intros i name Hi Hn. cbn [body]. split; [rewrite (size_ok names _ ns _ Ws i name Hi Hn), (size_ok names _ ns r Wr i name Hi Hn); reflexivity|].
    assert (Wg2 : hwf names ls (Full (Report (axes (body g0)) (rstrides (body g0)) (rvals r)) (heads g))) by (destruct Wg' as (N & L & E & F); rewrite Bg in N; split; [exact N|]; split; [exact L|]; split; [exact E|exact F]).
    exists (nth i (heads f1) no_head), (nth i (heads g) no_head).
    split; [unfold header_of; rewrite (proj1 (proj2 (proj2 (proj1 Wf))) i name Hi Hn); apply get_ok; cbn [heads]; rewrite (heads_length _ _ _ W1); exact Hi|].
    split; [unfold header_of; rewrite (proj1 (proj2 (proj2 (proj1 Wg2))) i name Hi Hn); apply get_ok; cbn [heads]; rewrite (heads_length _ _ _ Wg'); exact Hi|].
    rewrite (labels_nth _ _ _ i W1), (labels_nth _ _ _ i Wg'). split; [reflexivity|]. fold (tab g i) (tab f1 i). destruct (Qg i (conj (Nat.le_0_l _) Hi)) as [Q1 Q2]. rewrite Nt in *. rewrite TG, repeat_length in Q1 by exact Hi.
    apply (nth_ext _ _ (empty_row blank ls i) (empty_row blank ls i)); [rewrite app_length, repeat_length; refine (eq_trans Q1 _); generalize (length (tab f1 i)) (nth i (m :: ns) 0); clear; intros; lia|]. intros q _. rewrite Q2. change (repeat blank (length (nth i ls []))) with (empty_row blank ls i). rewrite nth_grown.
    destruct (Nat.ltb_spec q (length (tab f1 i))) as [G|G]; [reflexivity|]. rewrite (nth_overflow (tab f1 i)) by exact G. rewrite TG by exact Hi. apply nth_repeat.
Qed.
End Tables.
Print Assumptions C64_tables.
Print Assumptions C64_unknown.
Print Assumptions C64_store.
Definition small : list (str * nat * list str) := [(lit "TRADE", 1, [lit "id"; lit "book"]); (lit "VIEW", 1, [lit "ccy"])].
Definition after {X} (o : outcome X) (p : X -> bool) : bool := match o with Ok x => p x | _ => false end.
(** Refuted: the table is the same after storing: writing a value in a new row leaves the table alone, and reading the report
    adds a blank row to it. *)
Theorem C64_same_refuted : exists (f0 : full nat nat) r stored f', new_full 0 0 small = Ok f0 /\ write_cell 0 (body f0) [1; 0] 5 = (r, Ok tt) /\
  store_full (Full r (heads f0)) = Ok stored /\ build_full 0 0 stored = Ok f' /\
  option_map table (nth_error (heads f0) 0) = Some [[0; 0]] /\ option_map table (nth_error (heads f') 0) = Some [[0; 0]; [0; 0]].
Proof. do 4 eexists. split; [reflexivity|]. split; [reflexivity|]. split; [reflexivity|]. split; [reflexivity|]. split; reflexivity. Qed.
Print Assumptions C64_same_refuted.
(** Refuted: a row of the wrong width, or before the first, is refused: both are undefined. *)
Theorem C64_refused_refuted : exists (f0 : full nat nat), new_full 0 0 small = Ok f0 /\ add_header_row 0 f0 (lit "TRADE") 0 [7] = UB /\ add_header_row 0 f0 (lit "TRADE") (-1) [7; 8] = UB.
Proof. eexists. split; [reflexivity|]. split; reflexivity. Qed.
Print Assumptions C64_refused_refuted.
Example C64_case : distinct [lit "TRADE"; lit "VIEW"] /\ fitting (C := nat) [lit "TRADE"; lit "VIEW"] [[lit "id"; lit "book"]; [lit "ccy"]] [(lit "trade", 2, [7; 8])] /\
  exists f0 f : full nat nat, new_full 0 0 small = Ok f0 /\ add_all 0 f0 [(lit "trade", 2, [7; 8])] = Ok f /\ option_map table (nth_error (heads f) 0) = Some [[0; 0]; [0; 0]; [7; 8]].
Proof.
  split; [constructor; [constructor; [discriminate|constructor]|constructor; [constructor|constructor]]|]. split; [constructor; [exists 0; repeat split; cbn; lia|constructor]|].
  do 2 eexists. split; [reflexivity|]. split; reflexivity.
Qed.
