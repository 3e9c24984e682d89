From Coq Require Import Reals ZArith List Arith Bool Sorted Lra Lia.
From Verif Require InterpSpec.
From Verif Require Import Base Vec DateTimeModel InterpModel InterpProofs FillModel FillSpec FillProofs FillProps BsModel BsSpec BsProofs DupireModel DupireSpec.
Import ListNotations.
Local Open Scope R_scope.

Notation SS := (StronglySorted Rlt).
Lemma steps_SS l : steps Rlt l -> SS l.
Proof.
  intros H. apply Sorted_StronglySorted; [exact Rlt_trans|].
  induction H as [|x|x y l Hxy _ IH]; [constructor|repeat constructor|constructor; [exact IH|constructor; exact Hxy]].
Qed.
Lemma later_SS : forall l t, later t l -> SS (t :: l).
Proof.
  intros l t H. apply Sorted_StronglySorted; [exact Rlt_trans|]. revert t H.
  induction l as [|x l IH]; intros t H; [repeat constructor|]. destruct H as [H1 H2].
  constructor; [apply IH; exact H2|constructor; exact H1].
Qed.
Lemma SS_steps l : SS l -> steps Rlt l.
Proof.
  induction 1 as [|x l Hl IH Hx]; [constructor|]. destruct l as [|y l]; constructor; [|exact IH].
  inversion Hx; assumption.
Qed.
Lemma SS_nth l : SS l -> forall k, (S k < length l)%nat -> nth k l 0 < nth (S k) l 0.
Proof.
  induction 1 as [|x l Hl IH Hx]; intros k Hk; [cbn in Hk; lia|].
  destruct k as [|k]; cbn in *.
  - rewrite Forall_forall in Hx. apply Hx. apply nth_In. lia.
  - apply IH. lia.
Qed.
Lemma SS_same : forall a b, SS a -> SS b -> (forall x, In x a <-> In x b) -> a = b.
Proof.
  induction a as [|x a IH]; intros b Ha Hb H.
  - destruct b as [|y b]; [reflexivity|]. destruct (proj2 (H y) (or_introl eq_refl)).
  - destruct b as [|y b]; [destruct (proj1 (H x) (or_introl eq_refl))|].
    inversion Ha as [|? ? Ha1 Ha2]; subst. inversion Hb as [|? ? Hb1 Hb2]; subst. rewrite Forall_forall in Ha2, Hb2.
    assert (x = y) as ->.
    { destruct (proj1 (H x) (or_introl eq_refl)) as [E|Hin]; [auto|].
      destruct (proj2 (H y) (or_introl eq_refl)) as [E|Hin2]; [auto|].
      pose proof (Hb2 x Hin). pose proof (Ha2 y Hin2). lra. }
    f_equal. apply IH; try assumption. intros z. split; intros Hz.
    + destruct (proj1 (H z) (or_intror Hz)) as [E|Hin]; [|exact Hin]. subst z. pose proof (Ha2 y Hz). lra.
    + destruct (proj2 (H z) (or_intror Hz)) as [E|Hin]; [|exact Hin]. subst z. pose proof (Hb2 y Hz). lra.
Qed.
Lemma SS_filter f l : SS l -> SS (filter f l).
Proof.
  induction 1 as [|x l Hl IH Hx]; [constructor|]. cbn. destruct (f x); [|exact IH].
  constructor; [exact IH|]. rewrite Forall_forall in *. intros y Hy. apply filter_In in Hy. apply Hx. apply Hy.
Qed.

Lemma binary_search_in l t : SS l -> (binary_search l t = true <-> In t l).
Proof.
  unfold binary_search. induction 1 as [|x l Hl IH Hx]; cbn.
  - split; [discriminate|tauto].
  - destruct (Rlt_dec x t) as [H|H]; cbn.
    + rewrite IH. split; [auto|]. intros [E|Hin]; [lra|exact Hin].
    + destruct (Rlt_dec t x) as [H2|H2].
      * split; [discriminate|]. intros [E|Hin]; [lra|]. rewrite Forall_forall in Hx. pose proof (Hx t Hin). lra.
      * split; [intros _; left; lra|reflexivity].
Qed.

Lemma common_times times T : SS times -> SS T -> incl times T -> filter (binary_search times) T = times.
Proof.
  intros H1 H2 H3. apply SS_same; [apply SS_filter; exact H2|exact H1|].
  intros x. rewrite filter_In, binary_search_in by exact H1. split; [tauto|]. intros H. split; [apply H3; exact H|exact H].
Qed.

Lemma fill_data_hd {A : Arith} fuel o mx mn ad out : fill_data fuel o mx mn ad = Ok out -> exists x r l, sequence mn o ad = x :: r /\ out = x :: l.
Proof.
  unfold fill_data. destruct (sequence mn o ad) as [|x r]; [discriminate|].
  destruct (fill fuel mx mn x r) as [l| | |]; cbn [obind]; try discriminate.
  intros E. exists x, r, l. split; [reflexivity|congruence].
Qed.

Lemma later_in : forall l t x, later t l -> In x l -> t < x.
Proof. intros l t x H Hx. apply later_SS in H. inversion H as [|? ? _ Hf]; subst. rewrite Forall_forall in Hf. apply Hf. exact Hx. Qed.

Lemma half_pos : 0 < half_day.
Proof. unfold half_day. lra. Qed.

Lemma timeline_filled fuel times max_dt : timeline_ok times -> (nth 0 times 0 = 0 \/ half_day < nth 0 times 0) ->
  2 * half_day <= max_dt -> (forall t, In t times -> t < max_dt * 2147483647) -> (2 ^ 31 <= Z.of_nat fuel)%Z ->
  exists T, fill_data (A := RealArith) fuel times max_dt half_day [0] = Ok T /\ FillSpec.increasing T /\
    steps_at_most (max_dt / (1 - 2 / 10 ^ 14)) T /\ incl times T /\ nth_error T 0 = Some 0.
Proof.
  intros Hok H0 Hm Hr Hf. pose proof half_pos as Hh.
  destruct times as [|t r]; [easy|]. destruct Hok as [Ht Hl].
  assert (Hbig : 0 < max_dt * 2147483647) by nra.
  destruct (C51_fill fuel (t :: r) [0] max_dt half_day) as (T & E & H1 & H2 & H3 & _); try (exact Hf); try lra; try discriminate.
  - apply SS_steps. apply later_SS. exact Hl.
  - constructor.
  - intros x y Hx Hy.
    assert (Hb : forall z, In z ((t :: r) ++ [0]) -> 0 <= z < max_dt * 2147483647).
    { intros z Hz. apply in_app_or in Hz as [Hz|Hz].
      - split; [|apply Hr; exact Hz]. destruct Hz as [<-|Hz]; [exact Ht|]. pose proof (later_in r t z Hl Hz). lra.
      - destruct Hz as [<-|[]]. lra. }
    pose proof (Hb x Hx). pose proof (Hb y Hy). lra.
  - exists T. split; [exact E|]. split; [exact H1|]. split; [exact H2|]. split; [exact H3|].
    destruct (fill_data_hd (A := RealArith) _ _ _ _ _ _ E) as (x & r' & l & Es & ->).
    cbn [nth_error]. f_equal. unfold sequence in Es.
    change (union (A := RealArith) half_day (t :: r) [0] = x :: r') in Es. rewrite union_cons in Es.
    replace (before (A := RealArith) half_day t 0) with false in Es by (symmetry; apply before_R_false; lra).
    cbn [nth] in H0. destruct H0 as [-> |H0].
    + replace (before (A := RealArith) half_day 0 0) with false in Es by (symmetry; apply before_R_false; lra). congruence.
    + replace (before (A := RealArith) half_day 0 t) with true in Es by (symmetry; apply before_R; lra). congruence.
Qed.

Lemma mapm_ok {A B} (f : A -> outcome B) (g : A -> B) : forall l, (forall x, In x l -> f x = Ok (g x)) -> mapm f l = Ok (map g l).
Proof.
  induction l as [|x l IH]; intros H; [reflexivity|]. cbn. rewrite H by (left; reflexivity). cbn [obind].
  rewrite IH by (intros; apply H; right; assumption). reflexivity.
Qed.

Lemma nth_scale c y k : nth0 (map (fun v => c * v) y) k = c * nth0 y k.
Proof.
  replace 0 with (c * 0) at 1 by ring. apply (map_nth (fun v => c * v) y 0 k).
Qed.
Lemma value_scale c x y x0 : interp_value x (map (fun v => c * v) y) x0 = c * interp_value x y x0.
Proof.
  unfold interp_value. cbv zeta. rewrite map_length, !nth_scale.
  destruct (_ =? _)%nat; [reflexivity|]. destruct (_ || _); [reflexivity|]. unfold InterpSpec.chord. ring.
Qed.

Section Path.
Variable m : dupire.
Hypothesis Hm : surface_ok m.
Definition column (t : R) : list R := map (fun r => interp_value (u_times m) r t) (u_vols m).
Definition lv (t l : R) : R := interp_value (map ln (u_spots m)) (column t) l.
Lemma logs_shape t : length (map ln (u_spots m)) = length (column t) /\ map ln (u_spots m) <> [].
Proof.
  destruct Hm as (H1 & H2 & H3 & H4). unfold column. rewrite !map_length. split; [symmetry; exact H3|].
  destruct (u_spots m); [contradiction|discriminate].
Qed.
Lemma surface_value t l : surface m t l = Ok (lv t l).
Proof.
  unfold surface. rewrite (mapm_ok _ (fun r => interp_value (u_times m) r t)).
  - cbn [obind]. apply interp_ok; apply (logs_shape t).
  - intros r Hr. destruct Hm as (H1 & H2 & H3 & H4). apply interp_ok; [symmetry; apply H4; exact Hr|exact H2].
Qed.
Lemma init_rows_ok : forall T, exists ds vs, init_rows m T = Ok (ds, vs) /\ length ds = (length T - 1)%nat /\ length vs = (length T - 1)%nat /\
  forall k, (S k < length T)%nat -> let dt := nth (S k) T 0 - nth k T 0 in
    nth k ds 0 = dt * (u_r m - u_q m) /\ nth k vs [] = map (fun v => sqrt dt * v) (column (nth k T 0)).
Proof.
  induction T as [|t0 T IH].
  - exists [], []. repeat split; cbn in *; lia.
  - destruct T as [|t1 T].
    + exists [], []. repeat split; cbn in *; lia.
    + destruct IH as (ds & vs & E & L1 & L2 & H).
      cbn [init_rows]. rewrite (mapm_ok _ (fun r => sqrt (t1 - t0) * interp_value (u_times m) r t0)).
      2:{ intros r Hr. destruct Hm as (H1 & H2 & H3 & H4). rewrite interp_ok; [reflexivity|symmetry; apply H4; exact Hr|exact H2]. }
      cbn [obind].
      replace (match T with | [] => Ok ([], []) | _ => _ end) with (init_rows m (t1 :: T)) by reflexivity.
      rewrite E. cbn [obind fst snd]. eexists _, _. split; [reflexivity|]. cbn [length] in *. split; [lia|]. split; [lia|].
      intros k Hk. destruct k as [|k].
      * cbn [nth]. split; [reflexivity|]. unfold column. rewrite map_map. reflexivity.
      * specialize (H k ltac:(lia)). exact H.
Qed.
Variables (times : list R) (defs : list ddef).
Definition ddummy := {| d_spot := 0; d_numeraire := 0; d_discounts := []; d_forwards := [] |}.

(** what Init leaves behind *)
Definition dready (T : list R) (st : dstate) : Prop :=
  v_timeline st = T /\ v_common st = map (binary_search times) T /\
  length (v_drifts st) = (length T - 1)%nat /\ length (v_vols st) = (length T - 1)%nat /\ length (v_numeraires st) = length times /\
  (forall k, (S k < length T)%nat -> let dt := nth (S k) T 0 - nth k T 0 in
    nth k (v_drifts st) 0 = dt * (u_r m - u_q m) /\ nth k (v_vols st) [] = map (fun v => sqrt dt * v) (column (nth k T 0))) /\
  (forall i d, nth_error defs i = Some d -> w_numeraire d = true -> nth i (v_numeraires st) 0 = exp (u_r m * nth i times 0)) /\
  (forall i d, nth_error defs i = Some d -> nth_error (v_discounts st) i = Some (map (fun M => exp (- u_r m * (M - nth i times 0))) (w_discounts d))).

Lemma combine_nth_error {A B} : forall (l : list A) (r : list B) i a b, nth_error l i = Some a -> nth_error r i = Some b -> nth_error (combine l r) i = Some (a, b).
Proof.
  induction l as [|x l IH]; intros [|y r] [|i] a b H1 H2; cbn in *; try discriminate.
  - congruence.
  - apply IH; assumption.
Qed.

Lemma dinit_ready fuel st T : length defs = length times -> fill_data (A := RealArith) fuel times (u_max_dt m) half_day [0] = Ok T ->
  exists st2, (do s1 <- dallocate fuel m st times; dinit m times defs s1) = Ok st2 /\ dready T st2.
Proof.
  intros Hd ET. unfold dallocate. rewrite ET. cbn [obind]. unfold dinit. cbn [v_timeline v_common v_numeraires].
  destruct (init_rows_ok T) as (ds & vs & Er & L1 & L2 & Hrow). rewrite Er. cbn [obind].
  destruct (loop_inv (fun i ns => length ns = length times /\
     forall j, (j < i)%nat -> nth j (map w_numeraire defs) false = true -> nth j ns 0 = exp (u_r m * nth j times 0))
     (init_numeraire (u_r m) times (map w_numeraire defs)) (length times) 0 (resize (v_numeraires st) (length times))) as (ns & En & N1 & N2).
  - intros i ns Hi (N1 & N2). unfold init_numeraire. rewrite (get_ok _ i false) by (rewrite map_length; lia). cbn [obind].
    destruct (nth i (map w_numeraire defs) false) eqn:Ed.
    + rewrite (get_ok times i 0) by lia. cbn [obind]. rewrite put_ok by lia.
      eexists. split; [reflexivity|]. rewrite set_nth_length. split; [exact N1|]. intros j Hj Hdj.
      destruct (Nat.eq_dec j i) as [->|Hne']; [rewrite nth_set_same by lia; reflexivity|].
      rewrite nth_set_other by lia. apply N2; [lia|exact Hdj].
    + eexists. split; [reflexivity|]. split; [exact N1|]. intros j Hj Hdj.
      destruct (Nat.eq_dec j i) as [->|Hne']; [congruence|]. apply N2; [lia|exact Hdj].
  - split; [apply resize_length|]. intros j Hj. lia.
  - rewrite En. cbn [obind]. eexists. split; [reflexivity|].
    unfold dready. cbn [v_timeline v_common v_drifts v_vols v_numeraires v_discounts fst snd].
    split; [reflexivity|]. split; [reflexivity|]. split; [exact L1|]. split; [exact L2|]. split; [exact N1|]. split; [exact Hrow|]. split.
    + intros i d Hi Hw. assert (i < length defs)%nat by (apply nth_error_Some; congruence).
      apply N2; [lia|]. rewrite (nth_indep _ _ (w_numeraire d)) by (rewrite map_length; lia). rewrite map_nth.
      rewrite (nth_error_nth _ _ d Hi). exact Hw.
    + intros i d Hi. assert (i < length defs)%nat by (apply nth_error_Some; congruence).
      assert (Et : nth_error times i = Some (nth i times 0)) by (apply nth_error_nth'; lia).
      rewrite nth_error_map, (combine_nth_error times defs i _ _ Et Hi). reflexivity.
Qed.

(** the sample a path must have for a product date *)
Definition right (spot t : R) (d : ddef) (old s : dsample) : Prop :=
  d_spot s = spot /\ d_numeraire s = (if w_numeraire d then exp (u_r m * t) else d_numeraire old) /\
  d_discounts s = map (fun M => exp (- u_r m * (M - t))) (w_discounts d) /\
  (forall f, hd_error (d_forwards s) = Some f -> forall x, In x f -> x = spot).

Lemma dfill_ok T st idx spot path d old : dready T st -> length defs = length times ->
  nth_error path idx = Some old -> nth_error defs idx = Some d -> d_forwards old <> [] -> length (d_discounts old) = length (w_discounts d) ->
  exists s, dfill st defs idx spot path = Ok (set_nth path idx s) /\ right spot (nth idx times 0) d old s.
Proof.
  intros (R1 & R2 & R3 & R4 & R5 & R6 & R7 & R8) Hd Ho Hdf Hf Hl.
  assert (idx < length path)%nat by (apply nth_error_Some; congruence).
  assert (idx < length defs)%nat by (apply nth_error_Some; congruence).
  unfold dfill. unfold get at 1. rewrite Ho. cbn [obind]. unfold get at 1. rewrite Hdf. cbn [obind].
  specialize (R8 idx d Hdf).
  assert (En : (if w_numeraire d then get (v_numeraires st) idx else Ok (d_numeraire old)) = Ok (if w_numeraire d then exp (u_r m * nth idx times 0) else d_numeraire old)).
  { destruct (w_numeraire d) eqn:Ew; [|reflexivity]. rewrite (get_ok _ idx 0) by lia. rewrite (R7 idx d Hdf Ew). reflexivity. }
  rewrite En. cbn [obind]. destruct (d_forwards old) as [|f fs]; [contradiction|].
  unfold get. rewrite R8. cbn [obind]. rewrite map_length, <- Hl, Nat.eqb_refl. rewrite put_ok by lia.
  eexists. split; [reflexivity|]. unfold right. cbn [d_spot d_numeraire d_discounts d_forwards].
  split; [reflexivity|]. split; [reflexivity|]. split; [reflexivity|].
  intros g Eg x Hx. cbn in Eg. injection Eg as <-. apply in_map_iff in Hx as (? & <- & _). reflexivity.
Qed.

Fixpoint logs (T gauss : list R) (k : nat) : R :=
  match k with
  | O => ln (u_spot m)
  | S j => let dt := nth (S j) T 0 - nth j T 0 in
           let v := sqrt dt * lv (nth j T 0) (logs T gauss j) in
           logs T gauss j + (dt * (u_r m - u_q m) + v * (- (1/2) * v + nth j gauss 0))
  end.

Lemma skipn_step {A} (l : list A) : forall k x, nth_error l k = Some x -> skipn k l = x :: skipn (S k) l.
Proof. induction l as [|y l IH]; intros [|k] x H; cbn in *; try discriminate; [congruence|]. apply IH. exact H. Qed.

Lemma dgenerate_ok T st gauss path : dready T st -> length defs = length times -> SS times -> SS T -> incl times T -> T <> [] ->
  (length T - 1 <= length gauss)%nat -> allocated defs path ->
  exists p, dgenerate m defs st gauss path = Ok p /\ length p = length times /\
    forall i d old s, nth_error defs i = Some d -> nth_error path i = Some old -> nth_error p i = Some s ->
      exists k, nth_error T k = Some (nth i times 0) /\ right (exp (logs T gauss k)) (nth i times 0) d old s.
Proof.
  intros Hr Hd Hts HTs Hincl HT Hg Hal. pose proof Hr as (R1 & R2 & R3 & R4 & R5 & R6 & R7 & R8).
  assert (Hlp : length defs = length path) by (clear -Hal; induction Hal; cbn; congruence).
  assert (Hcf := common_times times T Hts HTs Hincl).
  assert (HT1 : (0 < length T)%nat) by (destruct T; [contradiction|cbn; lia]).
  (* the condition after time k has been dealt with *)
  pose (Inv := fun (k : nat) (s : nat * R * list dsample) => let '(idx, l, p) := s in
     l = logs T gauss k /\ length p = length times /\ filter (binary_search times) (skipn (S k) T) = skipn idx times /\ (idx <= length times)%nat /\
     (forall i d old s, (i < idx)%nat -> nth_error defs i = Some d -> nth_error path i = Some old -> nth_error p i = Some s ->
        exists k, nth_error T k = Some (nth i times 0) /\ right (exp (logs T gauss k)) (nth i times 0) d old s) /\
     (forall i, (idx <= i)%nat -> nth_error p i = nth_error path i)).
  assert (Hset : forall (p : list dsample) i j s, (i < length p)%nat -> nth_error (set_nth p i s) j = if (j =? i)%nat then Some s else nth_error p j).
  { induction p as [|x p IH]; intros i j s Hi; [cbn in Hi; lia|]. destruct i, j; cbn in *; try reflexivity. apply IH. lia. }
  assert (Hal' : forall i d old, nth_error defs i = Some d -> nth_error path i = Some old -> d_forwards old <> [] /\ length (d_discounts old) = length (w_discounts d)).
  { clear -Hal. induction Hal as [|a b la lb Hab _ IH]; intros [|i] d old H1 H2; cbn in *; try discriminate.
    - injection H1 as ->. injection H2 as ->. exact Hab.
    - eapply IH; eassumption. }
  (* one sample *)
  assert (Hone : forall k idx p, binary_search times (nth k T 0) = true -> (k < length T)%nat ->
     filter (binary_search times) (skipn k T) = skipn idx times -> length p = length times -> (idx <= length times)%nat ->
     (forall i d old s, (i < idx)%nat -> nth_error defs i = Some d -> nth_error path i = Some old -> nth_error p i = Some s ->
        exists k, nth_error T k = Some (nth i times 0) /\ right (exp (logs T gauss k)) (nth i times 0) d old s) ->
     (forall i, (idx <= i)%nat -> nth_error p i = nth_error path i) ->
     exists p', dfill st defs idx (exp (logs T gauss k)) p = Ok p' /\ Inv k (S idx, logs T gauss k, p')).
  { intros k idx p Hc Hk Hf Hlen Hidx Hdone Hrest.
    assert (Ek : nth_error T k = Some (nth k T 0)) by (apply nth_error_nth'; exact Hk).
    rewrite (skipn_step T k _ Ek) in Hf. cbn [filter] in Hf. rewrite Hc in Hf.
    assert (Hlt : (idx < length times)%nat).
    { destruct (le_lt_dec (length times) idx) as [H|H]; [|exact H]. rewrite (skipn_all2 times) in Hf by exact H. discriminate. }
    assert (Et : nth_error times idx = Some (nth idx times 0)) by (apply nth_error_nth'; exact Hlt).
    rewrite (skipn_step times idx _ Et) in Hf. injection Hf as E1 E2.
    destruct (nth_error defs idx) as [d|] eqn:Edf; [|apply nth_error_None in Edf; lia].
    destruct (nth_error path idx) as [old|] eqn:Eo; [|apply nth_error_None in Eo; lia].
    destruct (Hal' idx d old Edf Eo) as [A1 A2].
    destruct (dfill_ok T st idx (exp (logs T gauss k)) p d old Hr Hd) as (s & Es & Hs); try assumption.
    { rewrite Hrest by lia. exact Eo. }
    exists (set_nth p idx s). split; [exact Es|]. unfold Inv.
    split; [reflexivity|]. rewrite set_nth_length. split; [exact Hlen|]. split; [exact E2|]. split; [lia|]. split.
    - intros i d' old' s' Hi Hd' Ho' Hs'. rewrite Hset in Hs' by lia. destruct (Nat.eqb_spec i idx) as [->|Hne].
      + injection Hs' as <-. assert (d' = d) by congruence. assert (old' = old) by congruence. subst d' old'.
        exists k. split; [rewrite Ek; f_equal; exact E1|exact Hs].
      + apply Hdone; try assumption. lia.
    - intros i Hi. rewrite Hset by lia. destruct (Nat.eqb_spec i idx); [lia|]. apply Hrest. lia. }
  unfold dgenerate. rewrite R2.
  assert (E0 : get (map (binary_search times) T) 0 = Ok (binary_search times (nth 0 T 0))).
  { rewrite (get_ok _ 0 (binary_search times 0)) by (rewrite map_length; exact HT1). rewrite map_nth. reflexivity. }
  rewrite E0. cbn [obind].
  assert (Hstart : exists idx p, (if binary_search times (nth 0 T 0) then do p <- dfill st defs 0 (exp (ln (u_spot m))) path; Ok (1%nat, p) else Ok (O, path)) = Ok (idx, p) /\ Inv O (idx, ln (u_spot m), p)).
  { destruct (binary_search times (nth 0 T 0)) eqn:Eb.
    - destruct (Hone O O path Eb HT1) as (p' & Ep & Hi); try lia; try (exact Hcf); try (intros; lia); try (intros; reflexivity).
      change (logs T gauss 0) with (ln (u_spot m)) in Ep, Hi. rewrite Ep. cbn [obind]. exists 1%nat, p'. split; [reflexivity|exact Hi].
    - exists O, path. split; [reflexivity|]. unfold Inv. split; [reflexivity|]. split; [lia|]. split.
      + assert (Ek : nth_error T 0 = Some (nth 0 T 0)) by (apply nth_error_nth'; exact HT1).
        rewrite <- Hcf at 2. change (filter (binary_search times) T) with (filter (binary_search times) (skipn 0 T)).
        rewrite (skipn_step T 0 _ Ek). cbn [filter]. rewrite Eb. reflexivity.
      + split; [lia|]. split; [intros; lia|reflexivity]. }
  destruct Hstart as (idx0 & p0 & Es0 & I0). rewrite Es0. cbn [obind fst snd]. rewrite R1.
  destruct (loop_inv Inv (dpath_step m defs st gauss) (length T - 1) 0 (idx0, ln (u_spot m), p0)) as ([[idx l] p] & El & I1).
  - intros i [[idx l] p] Hi (H1 & H2 & H3 & H4 & H5 & H6). unfold dpath_step.
    destruct (R6 i ltac:(lia)) as [Edr Evl].
    rewrite (get_ok (v_vols st) i []) by lia. cbn [obind]. rewrite Evl.
    destruct (logs_shape (nth i T 0)) as [Ls1 Ls2].
    rewrite interp_ok by (rewrite ?map_length in *; assumption). cbn [obind]. rewrite value_scale. fold (lv (nth i T 0) l).
    rewrite (get_ok (v_drifts st) i 0) by lia. cbn [obind]. rewrite Edr. rewrite (get_ok gauss i 0) by lia. cbn [obind].
    rewrite R2. rewrite (get_ok _ (S i) (binary_search times 0)) by (rewrite map_length; lia). rewrite map_nth. cbn [obind].
    rewrite H1. change (logs T gauss i + _) with (logs T gauss (S i)).
    destruct (binary_search times (nth (S i) T 0)) eqn:Eb.
    + destruct (Hone (S i) idx p Eb) as (p' & Ep & Hi'); try assumption; try lia.
      rewrite Ep. cbn [obind]. eexists. split; [reflexivity|exact Hi'].
    + eexists. split; [reflexivity|]. unfold Inv. split; [reflexivity|]. split; [exact H2|]. split.
      * assert (Ek : nth_error T (S i) = Some (nth (S i) T 0)) by (apply nth_error_nth'; lia).
        rewrite (skipn_step T (S i) _ Ek) in H3. cbn [filter] in H3. rewrite Eb in H3. exact H3.
      * split; [exact H4|]. split; [exact H5|exact H6].
  - exact I0.
  - rewrite El. cbn [obind snd]. exists p. split; [reflexivity|]. unfold Inv in I1. destruct I1 as (H1 & H2 & H3 & H4 & H5 & H6).
    split; [exact H2|].
    assert (Hend : idx = length times).
    { rewrite (skipn_all2 T) in H3 by lia. cbn in H3. destruct (le_lt_dec (length times) idx) as [H|H]; [lia|].
      assert (Et : nth_error times idx = Some (nth idx times 0)) by (apply nth_error_nth'; exact H).
      rewrite (skipn_step times idx _ Et) in H3. discriminate. }
    intros i d old s E1 E2 E3. apply H5; try assumption. assert (i < length p)%nat by (apply nth_error_Some; congruence). lia.
Qed.

Lemma logs_diffuses T gauss : SS T -> diffuses m T gauss (logs T gauss).
Proof.
  intros HT. split; [reflexivity|]. intros k Hk. exists (lv (nth k T 0) (logs T gauss k)). split; [apply surface_value|].
  cbv zeta. cbn [logs]. pose proof (SS_nth T HT k Hk) as Hdt.
  set (dt := nth (S k) T 0 - nth k T 0) in *. assert (Hq : sqrt dt * sqrt dt = dt) by (apply sqrt_def; unfold dt; lra).
  set (v := lv (nth k T 0) (logs T gauss k)). set (g := nth k gauss 0).
  replace (sqrt dt * v * (- (1 / 2) * (sqrt dt * v) + g)) with (- (1/2) * v * v * (sqrt dt * sqrt dt) + v * sqrt dt * g) by ring.
  rewrite Hq. ring.
Qed.
End Path.
