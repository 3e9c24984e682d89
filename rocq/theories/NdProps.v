(** Property C42: cells of n-dimensional arrays and of risk reports. *)
From Coq Require Import Ascii String List Arith Bool Lia.
From Verif Require Import Base Vec OMap StringModel StringProofs MatrixModel MatrixProofs NdModel NdSpec NdProofs.
Import ListNotations.

Section Arrays.
Context {A : Type}.
Variable d : A.
Implicit Types b : arr A.
Lemma made_array_wf sizes b : sizes <> [] -> made_array sizes b -> awf sizes b.
Proof.
  intros Hne H. induction H as [v b E|b loc x b' H IH Hr E].
  - destruct (new_array_ok sizes v Hne) as (b2 & E2 & W & _). congruence.
  - destruct (arr_put_ok x sizes b loc x IH Hr) as (b2 & E2 & W & _). congruence.
Qed.
(** A new array holds the fill value at every address. *)
Theorem C42_array_new sizes v : sizes <> [] -> exists b, new_array sizes v = Ok b /\ asizes b = sizes /\ forall loc, in_range sizes loc -> arr_at b loc = Ok v.
Proof.
  intros H. destruct (new_array_ok sizes v H) as (b & E & W & N). exists b. split; [exact E|]. split; [apply W|]. intros loc Hl. rewrite (arr_at_ok v sizes b loc W Hl). now rewrite N.
Qed.
(** Writing to an address changes what is read there and nowhere else: no two addresses share a cell. *)
Theorem C42_array_write sizes b : sizes <> [] -> made_array sizes b -> forall loc x, in_range sizes loc -> exists b', arr_put b loc x = Ok b' /\ arr_at b' loc = Ok x /\
  forall q, in_range sizes q -> q <> loc -> exists y, arr_at b q = Ok y /\ arr_at b' q = Ok y.
Proof using.
  intros Hne H loc x Hl. apply made_array_wf in H; [|exact Hne]. destruct (arr_put_ok x sizes b loc x H Hl) as (b' & E & W & N). exists b'. split; [exact E|]. split.
  - rewrite (arr_at_ok x sizes b' loc W Hl), N by exact Hl. now destruct (list_eq_dec Nat.eq_dec loc loc).
  - intros q Hq Hne'. exists (nth (index sizes q) (avals b) x). rewrite (arr_at_ok x sizes b q H Hq), (arr_at_ok x sizes b' q W Hq), N by exact Hq. destruct (list_eq_dec Nat.eq_dec q loc); [congruence|]. now split.
Qed.
(** Every cell has exactly one address. *)
Theorem C42_array_cells sizes b : sizes <> [] -> made_array sizes b -> length (avals b) = cells sizes /\
  forall k, k < length (avals b) -> exists! loc, in_range sizes loc /\ inner loc (astrides b) = Ok k.
Proof using.
  intros Hne H. apply made_array_wf in H as (S1 & S2 & L); [|exact Hne]. split; [exact L|]. intros k Hk. rewrite L in Hk. destruct (index_onto sizes k Hk) as (loc & Hl & El). exists loc. split; [split; [exact Hl|]; rewrite S2, inner_index by (now apply in_range_length); now rewrite El|].
  intros q [Hq Eq]. rewrite S2, inner_index in Eq by now apply in_range_length. injection Eq as Eq. apply (index_injective sizes); congruence.
Qed.
(** Three-dimensional arrays: the same cells, and a slice runs along the last axis. *)
Theorem C42_cube n0 n1 n2 b : made_array [n0; n1; n2] b -> forall i j k, i < n0 -> j < n1 -> k < n2 ->
  cube_at b i j k = arr_at b [i; j; k] /\ exists xs, cube_slice b i j = Ok xs /\ length xs = n2 /\ forall k', k' < n2 -> get xs k' = arr_at b [i; j; k'].
Proof.
  intros H i j k Hi Hj Hk. apply made_array_wf in H as W; [|discriminate]. pose proof W as (S1 & S2 & L).
  assert (forall k', k' < n2 -> in_range [n0; n1; n2] [i; j; k']) as Hr by (intros; repeat constructor; assumption). assert (forall k', index [n0; n1; n2] [i; j; k'] = i * (n1 * n2) + j * n2 + k') as Hx by (intros; cbn; lia).
  assert (strides [n0; n1; n2] = [n1 * n2; n2; 1]) as Es by (rewrite !strides_cells; unfold cells; cbn [fold_right strides]; now rewrite !Nat.mul_1_r).
  assert (forall k', k' < n2 -> cube_at b i j k' = arr_at b [i; j; k']) as Hc.
  { intros k' Hk'. unfold cube_at, arr_at. rewrite S2. rewrite (inner_index [n0; n1; n2]) by reflexivity. rewrite Es. cbn [get nth_error obind length Nat.eqb]. rewrite Hx. f_equal. lia. }
  split; [now apply Hc|]. unfold cube_slice. rewrite (Hc 0) by lia. rewrite (arr_at_ok d [n0; n1; n2] b [i; j; 0] W) by (apply Hr; lia). cbn [obind]. rewrite S2, Es. cbn [get nth_error obind].
  assert (cells [n0; n1; n2] = n0 * (n1 * n2)) as Ec by (cbn; lia). destruct (read_run_ok d (avals b) 1 n2 (i * (n1 * n2) + j * n2)) as (xs & E & Lx & N); [right; rewrite L, Ec; assert (i * (n1 * n2) + n1 * n2 <= n0 * (n1 * n2)) by nia; assert (j * n2 + n2 <= n1 * n2) by nia; lia|].
  exists xs. split; [exact E|]. split; [exact Lx|]. intros k' Hk'. rewrite (get_ok xs k' d) by lia. rewrite (arr_at_ok d [n0; n1; n2] b [i; j; k'] W) by now apply Hr. rewrite N by exact Hk'. rewrite Hx. do 2 f_equal. lia.
Qed.
(** Resizing, as far as it is right: when no axis grows, every value whose address is still in range is kept, except the
    one at the origin.  The rest of the property is refuted below. *)
Theorem C42_array_resize_partial sizes b : sizes <> [] -> made_array sizes b -> forall new, Forall (fun n => 0 < n) new -> Forall2 le new sizes ->
  exists b', arr_resize d b new = Ok b' /\ asizes b' = new /\ forall loc, in_range new loc -> (exists x, In x loc /\ x <> 0) -> exists y, arr_at b loc = Ok y /\ arr_at b' loc = Ok y.
Proof.
  intros Hne H new Hpos Hle. apply made_array_wf in H as W; [|exact Hne]. destruct (resize_shrink d sizes b new W Hne Hpos Hle) as (b' & E & S1 & S2 & L & N). exists b'. split; [exact E|]. split; [exact S1|]. intros loc Hl (x & Hx & Hx0).
  exists (nth (index sizes loc) (avals b) d). split; [apply arr_at_ok; [exact W|now apply (in_range_le new)]|]. unfold arr_at. rewrite S2, inner_index by now apply in_range_length. cbn [obind]. rewrite (get_ok _ _ d) by (rewrite L; pose proof (index_lt _ _ Hl); pose proof (cells_le _ _ Hle); lia). rewrite N by exact Hl.
  destruct (list_eq_dec Nat.eq_dec loc (repeat 0 (length new))) as [->|]; [apply repeat_spec in Hx; congruence|reflexivity].
Qed.
End Arrays.
Print Assumptions C42_array_new.
Print Assumptions C42_array_write.
Print Assumptions C42_array_cells.
Print Assumptions C42_cube.
(** Refutation: any resize, even to the same sizes, loses the value at the origin. *)
Theorem C42_origin_refuted : exists b, made_array [2; 2] b /\ arr_at b [0; 0] = Ok 7 /\ exists b', arr_resize 0 b [2; 2] = Ok b' /\ arr_at b' [0; 0] = Ok 0.
Proof. exists (Arr [2; 2] [2; 1] [7; 7; 7; 7]). split; [apply (made_new_array _ 7); reflexivity|]. split; [reflexivity|]. eexists. split; reflexivity. Qed.
Print Assumptions C42_origin_refuted.
(** Refutation: growing an axis writes outside the storage, or leaves it too small. *)
Theorem C42_grow_refuted : exists b, made_array [2; 2] b /\ arr_resize 0 b [2; 3] = UB /\ exists b', arr_resize 0 b [3; 2] = Ok b' /\ arr_at b' [2; 0] = UB.
Proof. exists (Arr [2; 2] [2; 1] [7; 7; 7; 7]). split; [apply (made_new_array _ 7); reflexivity|]. split; [reflexivity|]. eexists. split; reflexivity. Qed.
Print Assumptions C42_grow_refuted.
(** Refutation: an array without axes and a resize from an empty array are undefined behaviour. *)
Theorem C42_empty_refuted : new_array [] 0 = UB /\ exists b, made_array [0; 2] b /\ arr_resize 0 b [2; 2] = UB.
Proof. split; [reflexivity|]. exists (Arr [0; 2] [2; 1] []). split; [apply (made_new_array _ 0); reflexivity|reflexivity]. Qed.
Print Assumptions C42_empty_refuted.

Section Reports.
Context {A : Type}.
Variable zero : A.
(** A report with axes of different names, written to any number of times at any addresses that are in range except
    perhaps on the first axis, holds at every address what was written there last, zero elsewhere; the first axis is as
    long as the writes need, the other axes are as given, and each is found under its name in upper or lower case. *)
Theorem C42_report names n0 ns ws : distinct names -> length names = S (length ns) -> Forall (fun n => 0 < n) ns ->
  Forall (fun w => exists x0 l, fst w = x0 :: l /\ in_range ns l) ws ->
  exists r0 r, new_report zero (combine names (n0 :: ns)) = Ok r0 /\ write_all zero r0 ws = (r, Ok tt) /\
    (forall loc, in_range (grown n0 ws :: ns) loc -> read_cell r loc = Ok (latest zero ws loc)) /\
    (forall i name, i < length names -> ci_compare (nth i names []) name = Eq -> size_of r name = Ok (nth i (grown n0 ws :: ns) 0)).
Proof.
  intros HD HL HP Hws. destruct (new_report_ok zero names n0 ns HD HL HP) as (r0 & E0 & W0 & V0). destruct (write_all_ok zero names ns ws Hws n0 r0 W0) as (r & E & W & _ & N). exists r0, r. split; [exact E0|]. split; [exact E|]. split; [|exact (size_ok names _ ns r W)].
  intros loc Hl. rewrite (read_ok zero names _ ns r loc W Hl). f_equal. specialize (N loc Hl). replace (index (grown n0 ws :: ns) loc) with (index (n0 :: ns) loc) by (destruct loc; reflexivity). rewrite N. unfold latest. f_equal. rewrite V0. destruct (hd 0 loc <? n0); [|reflexivity].
  match goal with |- nth ?i ?l _ = _ => destruct (nth_in_or_default i l zero) as [H|H] end; [now apply repeat_spec in H|exact H].
Qed.
(** The coordinate of an axis is set by its name. *)
Theorem C42_report_names names n0 ns ws r0 r : distinct names -> length names = S (length ns) -> Forall (fun n => 0 < n) ns ->
  Forall (fun w => exists x0 l, fst w = x0 :: l /\ in_range ns l) ws -> new_report zero (combine names (n0 :: ns)) = Ok r0 -> write_all zero r0 ws = (r, Ok tt) ->
  make_address r = repeat 0 (length names) /\
  forall loc i name x, length loc = length names -> i < length names -> ci_compare (nth i names []) name = Eq -> set_axis r loc name x = Ok (set_nth loc i x).
Proof.
  intros HD HL HP Hws E0 E. destruct (new_report_ok zero names n0 ns HD HL HP) as (r0' & E0' & W0 & _). rewrite E0 in E0'. injection E0' as <-. destruct (write_all_ok zero names ns ws Hws n0 r0 W0) as (r' & E' & W & _). rewrite E in E'. injection E' as <-.
  destruct W as ((_ & LA & F & _) & _). split; [unfold make_address; now rewrite LA|]. intros loc i name x Hl Hi Hn. unfold set_axis. rewrite (F i name Hi Hn). apply put_ok. lia.
Qed.
(** Every cell of the report has exactly one address. *)
Theorem C42_report_cells names n0 ns ws r0 r : distinct names -> length names = S (length ns) -> Forall (fun n => 0 < n) ns ->
  Forall (fun w => exists x0 l, fst w = x0 :: l /\ in_range ns l) ws -> new_report zero (combine names (n0 :: ns)) = Ok r0 -> write_all zero r0 ws = (r, Ok tt) ->
  forall k, k < length (rvals r) -> exists! loc, in_range (grown n0 ws :: ns) loc /\ place zero r loc = (r, Ok k).
Proof.
  intros HD HL HP Hws E0 E k Hk. destruct (new_report_ok zero names n0 ns HD HL HP) as (r0' & E0' & W0 & _). rewrite E0 in E0'. injection E0' as <-. destruct (write_all_ok zero names ns ws Hws n0 r0 W0) as (r' & E' & W & _). rewrite E in E'. injection E' as <-.
  destruct W as (_ & _ & HS & HV & _). assert (forall loc, in_range (grown n0 ws :: ns) loc -> place zero r loc = (r, Ok (index (grown n0 ws :: ns) loc))) as Hpl.
  { intros loc Hl. unfold place. rewrite HS, inner_index by now apply in_range_length. pose proof (index_lt _ _ Hl) as Hlt. change (cells (grown n0 ws :: ns)) with (grown n0 ws * cells ns) in Hlt. rewrite HV. destruct (Nat.ltb_spec (index (grown n0 ws :: ns) loc) (grown n0 ws * cells ns)); [reflexivity|lia]. }
  rewrite HV in Hk. destruct (index_onto (grown n0 ws :: ns) k Hk) as (loc & Hl & El). exists loc. split; [split; [exact Hl|]; rewrite Hpl by exact Hl; now rewrite El|]. intros q [Hq Eq]. rewrite Hpl in Eq by exact Hq. assert (index (grown n0 ws :: ns) q = k) as Eq' by congruence. apply (index_injective (grown n0 ws :: ns)); [exact Hl|exact Hq|congruence].
Qed.
(** Setting all values: accepted for any number of whole slices of the first axis that loses nothing, refused otherwise. *)
Theorem C42_set_all names n0 ns r0 : distinct names -> length names = S (length ns) -> Forall (fun n => 0 < n) ns -> new_report zero (combine names (n0 :: ns)) = Ok r0 ->
  forall vals, (forall n, n0 <= n -> length vals = n * cells ns -> exists r, set_all r0 vals = Ok r /\ rvals r = vals /\ forall loc, in_range (n :: ns) loc -> exists k, inner loc (strides (n :: ns)) = Ok k /\ read_cell r loc = get vals k) /\
    ((forall n, n0 <= n -> length vals <> n * cells ns) -> set_all r0 vals = Throw).
Proof.
  intros HD HL HP E0 vals. destruct (new_report_ok zero names n0 ns HD HL HP) as (r0' & E0' & W0 & _). rewrite E0 in E0'. injection E0' as <-. split; [|now apply (set_all_refused names)].
  intros n Hn Hv. destruct (set_all_ok names n0 ns r0 n vals W0 Hn Hv) as [E W]. eexists. split; [exact E|]. split; [reflexivity|]. intros loc Hl. exists (index (n :: ns) loc). split; [apply inner_index; now apply in_range_length|]. rewrite (read_ok zero names n ns _ loc W Hl). cbn [rvals]. symmetry. apply get_ok. rewrite Hv. exact (index_lt _ _ Hl).
Qed.
(** A report that was stored and read again has the same axes and the same value at every address. *)
Theorem C42_store names n0 ns ws r0 r : distinct names -> length names = S (length ns) -> Forall (fun n => 0 < n) ns ->
  Forall (fun w => exists x0 l, fst w = x0 :: l /\ in_range ns l) ws -> new_report zero (combine names (n0 :: ns)) = Ok r0 -> write_all zero r0 ws = (r, Ok tt) ->
  exists stored r', store r = Ok stored /\ build zero stored = Ok r' /\
    (forall i name, i < length names -> ci_compare (nth i names []) name = Eq -> size_of r' name = Ok (nth i (grown n0 ws :: ns) 0)) /\
    (forall loc, in_range (grown n0 ws :: ns) loc -> read_cell r' loc = Ok (latest zero ws loc)).
Proof.
  intros HD HL HP Hws E0 E. destruct (C42_report names n0 ns ws HD HL HP Hws) as (r0'' & r'' & E0'' & E'' & HR & _). destruct (new_report_ok zero names n0 ns HD HL HP) as (r0' & E0' & W0 & _). rewrite E0 in E0', E0''. injection E0' as <-. injection E0'' as <-. destruct (write_all_ok zero names ns ws Hws n0 r0 W0) as (r' & E' & W & _). rewrite E in E', E''. injection E' as <-. injection E'' as <-.
  destruct (build_ok zero names _ ns r W HD) as (b & Eb & Wb & Vb). eexists. exists b. split; [exact (store_ok names _ ns r W)|]. split; [exact Eb|]. split; [exact (size_ok names _ ns b Wb)|]. intros loc Hl. rewrite <- HR by exact Hl. rewrite (read_ok zero names _ ns b loc Wb Hl), (read_ok zero names _ ns r loc W Hl). now rewrite Vb.
Qed.
End Reports.
Print Assumptions C42_report_names.
Print Assumptions C42_report_cells.
Print Assumptions C42_set_all.
Print Assumptions C42_store.
(** Refutation: coordinates are not checked axis by axis: a wrong second coordinate reaches another cell. *)
Definition two_by_two : report nat := Report [(lit "TRADE", 0); (lit "VIEW", 1)] [2; 1] [1; 2; 3; 4].
Theorem C42_alias_refuted : ~ in_range [2; 2] [0; 3] /\ read_cell two_by_two [0; 3] = read_cell two_by_two [1; 1].
Proof. split; [|reflexivity]. intros H. inversion H as [|? ? ? ? _ H']. inversion H'. lia. Qed.
Print Assumptions C42_alias_refuted.
(** Refutation: a wrong address in a writable report is refused, but first the values behind its first coordinate are lost. *)
Theorem C42_lost_refuted : read_cell two_by_two [1; 0] = Ok 3 /\ exists r, place 0 two_by_two [0; 5] = (r, Throw) /\ read_cell r [1; 0] = Throw.
Proof. split; [reflexivity|]. eexists. split; reflexivity. Qed.
Print Assumptions C42_lost_refuted.
(** Refutation: two axes of one name are accepted; then one of the coordinates cannot be set any more. *)
Theorem C42_same_name_refuted : exists r : report nat, new_report 0 [(lit "VIEW", 2); (lit "view", 3)] = Ok r /\ length (rvals r) = 6 /\ make_address r = [0] /\ set_axis r (make_address r) (lit "VIEW") 1 = UB.
Proof. eexists. split; [reflexivity|]. repeat split. Qed.
Print Assumptions C42_same_name_refuted.

Example axes0 : list str := [lit "Trade"; lit "View"; lit "Bucket"].
Example axes0_distinct : distinct axes0. Proof. repeat constructor; discriminate. Qed.
Example writes0 : list (list nat * nat) := [([0; 1; 2], 5); ([3; 0; 0], 6); ([0; 1; 2], 7)].
Example writes0_in_range : Forall (fun w => exists x0 l, fst w = x0 :: l /\ in_range [2; 3] l) writes0.
Proof. unfold writes0. repeat (apply Forall_cons; [eexists; eexists; split; [reflexivity|]; repeat constructor|]). constructor. Qed.
Example writes0_grow : grown 1 writes0 = 4. Proof. reflexivity. Qed.
Example shrink0 : exists b' : arr nat, arr_resize 0 (Arr [3; 2] [2; 1] [1; 2; 3; 4; 5; 6]) [2; 1] = Ok b' /\ arr_at b' [1; 0] = Ok 3. Proof. eexists. split; reflexivity. Qed.
Print Assumptions C42_report.
Print Assumptions C42_array_resize_partial.
