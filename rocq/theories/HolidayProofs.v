From Coq Require Import String Ascii ZArith List Bool Lia ZifyBool Sorted.
From Verif Require Import Base DateModel DateSpec DateCivil DateProofs StringModel StringSpec StringProofs HolidayModel HolidaySpec.
Import ListNotations.
Open Scope Z_scope.
Ltac Zify.zify_post_hook ::= Z.div_mod_to_equations.

Lemma weekend_iff d : 0 <= d < 65536 -> (Z.rem (day_of_week d) 6 =? 0) = true <-> weekend d.
Proof.
  intros H. unfold weekend, weekday, day_of_week, to_excel, EXCEL_OFFSET.
  rewrite (Z.rem_mod_nonneg (d + 25568 - 974) 7) by lia. rewrite Z.rem_mod_nonneg by lia. lia.
Qed.
Lemma is_weekend_iff d : 0 <= d < 65536 -> is_weekend d = true <-> weekend d.
Proof. apply weekend_iff. Qed.

(** * Sorted lists *)
Definition mem (d : Z) (l : list Z) : bool := existsb (Z.eqb d) l.
Lemma mem_iff d l : mem d l = true <-> In d l.
Proof.
  unfold mem. rewrite existsb_exists. split.
  - intros (x & H1 & H2). apply Z.eqb_eq in H2. now subst.
  - intros H. exists d. split; [assumption | apply Z.eqb_refl].
Qed.
Lemma monotonic_iff l : is_monotonic Z.ltb l = true <-> StronglySorted Z.lt l.
Proof.
  split.
  - intros H. apply Sorted_StronglySorted; [intros x y z; lia|].
    induction l as [|x l IH]; [constructor|]. destruct l as [|y l]; [repeat constructor|].
    cbn [is_monotonic] in H. apply andb_true_iff in H as [H1 H2]. constructor; [auto|]. constructor. lia.
  - induction 1 as [|x l Hl IH Hf]; [reflexivity|]. destruct l as [|y l]; [reflexivity|].
    cbn [is_monotonic]. inversion Hf; subst. apply andb_true_iff. split; [lia | exact IH].
Qed.
Lemma lb_zero l x : Forall (fun y => x <= y) l -> lower_bound Z.ltb l x = O.
Proof. destruct 1; cbn; [reflexivity|]. now replace (x0 <? x) with false by lia. Qed.
Lemma mem_gt l x : Forall (fun y => x < y) l -> mem x l = false.
Proof.
  intros H. destruct (mem x l) eqn:E; [|reflexivity]. apply mem_iff in E. rewrite Forall_forall in H. specialize (H _ E). lia.
Qed.
Lemma binary_search_mem l x : StronglySorted Z.lt l -> binary_search Z.ltb l x = mem x l.
Proof.
  unfold binary_search. induction 1 as [|y l Hl IH Hf]; [reflexivity|]. cbn [lower_bound mem existsb].
  destruct (y <? x) eqn:E.
  - cbn [nth_error]. replace (x =? y) with false by lia. exact IH.
  - cbn [nth_error]. destruct (x <? y) eqn:E2; cbn [negb].
    + replace (x =? y) with false by lia. cbn [orb]. symmetry. apply mem_gt. eapply Forall_impl; [|exact Hf]. cbn; lia.
    + replace (x =? y) with true by lia. reflexivity.
Qed.
Definition b2z (b : bool) : Z := if b then 1 else 0.
Lemma lb_succ l x : StronglySorted Z.lt l -> lower_bound Z.ltb l (x + 1) = (lower_bound Z.ltb l x + if mem x l then 1 else 0)%nat.
Proof.
  induction 1 as [|y l Hl IH Hf]; [reflexivity|]. cbn [lower_bound mem existsb].
  destruct (y <? x) eqn:E.
  - replace (y <? x + 1) with true by lia. replace (x =? y) with false by lia. cbn [orb]. rewrite IH. unfold mem. lia.
  - destruct (x =? y) eqn:E2; cbn [orb].
    + replace (y <? x + 1) with true by lia. rewrite lb_zero; [reflexivity|]. eapply Forall_impl; [|exact Hf]. cbn; lia.
    + replace (y <? x + 1) with false by lia. fold (mem x l). rewrite mem_gt; [reflexivity|]. eapply Forall_impl; [|exact Hf]. cbn; lia.
Qed.
Lemma lb_suffix l x : StronglySorted Z.lt l ->
  skipn (lower_bound Z.ltb l x) l = if mem x l then x :: skipn (lower_bound Z.ltb l (x + 1)) l else skipn (lower_bound Z.ltb l (x + 1)) l.
Proof.
  intros Hs. rewrite lb_succ by assumption. induction Hs as [|y l Hl IH Hf]; [reflexivity|]. cbn [lower_bound mem existsb].
  destruct (y <? x) eqn:E.
  - replace (x =? y) with false by lia. cbn [orb]. cbn [skipn Nat.add]. exact IH.
  - destruct (x =? y) eqn:E2; cbn [orb].
    + replace x with y by lia. reflexivity.
    + fold (mem x l). rewrite mem_gt; [reflexivity|]. eapply Forall_impl; [|exact Hf]. cbn; lia.
Qed.
Lemma skip_head_ge l x : StronglySorted Z.lt l -> Forall (fun y => x <= y) (skipn (lower_bound Z.ltb l x) l).
Proof.
  induction 1 as [|y l Hl IH Hf]; [constructor|]. cbn [lower_bound]. destruct (y <? x) eqn:E; [exact IH|].
  cbn [skipn]. constructor; [lia|]. eapply Forall_impl; [|exact Hf]. cbn; lia.
Qed.

(** * Business test *)
Lemma is_holiday_iff h d : good h -> (is_holiday h d = true <-> closed h d).
Proof.
  intros Hg. unfold is_holiday, closed. rewrite existsb_exists. unfold good in Hg. rewrite Forall_forall in Hg.
  split; intros (c & Hc & H); exists c; split; auto; destruct (Hg _ Hc) as (Hs & _).
  - rewrite binary_search_mem in H by assumption. now apply mem_iff.
  - rewrite binary_search_mem by assumption. now apply mem_iff.
Qed.
Lemma is_ww_iff h d : good h -> (is_work_weekend h d = true <-> opened h d).
Proof.
  intros Hg. unfold is_work_weekend, opened. rewrite existsb_exists. unfold good in Hg. rewrite Forall_forall in Hg.
  split; intros (c & Hc & H); exists c; split; auto; destruct (Hg _ Hc) as (_ & Hs & _).
  - rewrite binary_search_mem in H by assumption. now apply mem_iff.
  - rewrite binary_search_mem by assumption. now apply mem_iff.
Qed.
Lemma opened_weekend h d : good h -> opened h d -> weekend d.
Proof.
  intros Hg (c & Hc & Hd). unfold good in Hg. rewrite Forall_forall in Hg. destruct (Hg _ Hc) as (_ & _ & _ & H).
  rewrite Forall_forall in H. now apply H.
Qed.
Lemma closed_weekday h d : good h -> closed h d -> ~ weekend d.
Proof.
  intros Hg (c & Hc & Hd). unfold good in Hg. rewrite Forall_forall in Hg. destruct (Hg _ Hc) as (_ & _ & H & _).
  rewrite Forall_forall in H. now apply H.
Qed.
Lemma bus_test_iff h d : good h -> 0 <= d < 65536 -> (bus_test h d = true <-> business h d).
Proof.
  intros Hg Hd. unfold bus_test, business. rewrite orb_true_iff, andb_true_iff, !negb_true_iff.
  rewrite <- !not_true_iff_false. rewrite is_holiday_iff, is_ww_iff, is_weekend_iff by assumption.
  pose proof (opened_weekend h d Hg). pose proof (closed_weekend_dec := closed_weekday h d Hg).
  assert (Hw : weekend d \/ ~ weekend d) by (unfold weekend; lia). tauto.
Qed.

(** * NextBus / PrevBus *)
Lemma cycle_Z : Z.of_nat cycle = 65536.
Proof. unfold cycle. rewrite Z2Nat.id; lia. Qed.
Global Opaque cycle.
Lemma next_fuel_found h : forall f d k, 0 <= d < 65536 -> 0 <= k < Z.of_nat f ->
  (forall j, 0 <= j < k -> bus_test h (u16 (d + j)) = false) -> bus_test h (u16 (d + k)) = true ->
  next_bus_fuel f h d = Ok (u16 (d + k)).
Proof.
  induction f as [|f IH]; intros d k Hd Hk Hn Hy; [lia|]. cbn [next_bus_fuel].
  destruct (Z.eq_dec k 0) as [->|Hk0].
  - assert (E : u16 (d + 0) = d) by (unfold u16; lia). rewrite E in *. now rewrite Hy.
  - assert (E : u16 (d + 0) = d) by (unfold u16; lia). pose proof (Hn 0 ltac:(lia)) as H0. rewrite E in H0. rewrite H0.
    assert (Es : forall j, u16 (incr d + j) = u16 (d + (j + 1))) by (intros j; unfold incr, u16; lia).
    rewrite (IH (incr d) (k - 1)).
    + rewrite Es. do 2 f_equal. lia.
    + unfold incr, u16. lia.
    + lia.
    + intros j Hj. rewrite Es. apply Hn. lia.
    + rewrite Es. now replace (d + (k - 1 + 1)) with (d + k) by lia.
Qed.
Lemma next_fuel_none h : forall f d, 0 <= d < 65536 ->
  (forall j, 0 <= j < Z.of_nat f -> bus_test h (u16 (d + j)) = false) -> next_bus_fuel f h d = OutOfFuel.
Proof.
  induction f as [|f IH]; intros d Hd Hn; [reflexivity|]. cbn [next_bus_fuel].
  assert (E : u16 (d + 0) = d) by (unfold u16; lia). pose proof (Hn 0 ltac:(lia)) as H0. rewrite E in H0. rewrite H0.
  apply IH; [unfold incr, u16; lia|]. intros j Hj.
  replace (u16 (incr d + j)) with (u16 (d + (j + 1))) by (unfold incr, u16; lia). apply Hn. lia.
Qed.
Lemma prev_fuel_found h : forall f d k, 0 <= d < 65536 -> 0 <= k < Z.of_nat f ->
  (forall j, 0 <= j < k -> bus_test h (u16 (d - j)) = false) -> bus_test h (u16 (d - k)) = true ->
  prev_bus_fuel f h d = Ok (u16 (d - k)).
Proof.
  induction f as [|f IH]; intros d k Hd Hk Hn Hy; [lia|]. cbn [prev_bus_fuel].
  destruct (Z.eq_dec k 0) as [->|Hk0].
  - assert (E : u16 (d - 0) = d) by (unfold u16; lia). rewrite E in *. now rewrite Hy.
  - assert (E : u16 (d - 0) = d) by (unfold u16; lia). pose proof (Hn 0 ltac:(lia)) as H0. rewrite E in H0. rewrite H0.
    assert (Es : forall j, u16 (decr d - j) = u16 (d - (j + 1))) by (intros j; unfold decr, u16; lia).
    rewrite (IH (decr d) (k - 1)).
    + rewrite Es. do 2 f_equal. lia.
    + unfold decr, u16. lia.
    + lia.
    + intros j Hj. rewrite Es. apply Hn. lia.
    + rewrite Es. now replace (d - (k - 1 + 1)) with (d - k) by lia.
Qed.
Lemma prev_fuel_none h : forall f d, 0 <= d < 65536 ->
  (forall j, 0 <= j < Z.of_nat f -> bus_test h (u16 (d - j)) = false) -> prev_bus_fuel f h d = OutOfFuel.
Proof.
  induction f as [|f IH]; intros d Hd Hn; [reflexivity|]. cbn [prev_bus_fuel].
  assert (E : u16 (d - 0) = d) by (unfold u16; lia). pose proof (Hn 0 ltac:(lia)) as H0. rewrite E in H0. rewrite H0.
  apply IH; [unfold decr, u16; lia|]. intros j Hj.
  replace (u16 (decr d - j)) with (u16 (d - (j + 1))) by (unfold decr, u16; lia). apply Hn. lia.
Qed.

(** least element of a decidable set of integers in an interval *)
Lemma least_in (f : Z -> bool) a n : 0 <= n -> f (a + n) = true ->
  exists k, 0 <= k <= n /\ f (a + k) = true /\ forall j, 0 <= j < k -> f (a + j) = false.
Proof.
  intros Hn. revert a. apply (natlike_ind (fun n => forall a, f (a + n) = true -> exists k, 0 <= k <= n /\ f (a + k) = true /\
    forall j, 0 <= j < k -> f (a + j) = false)); [| |assumption].
  - intros a H. exists 0. repeat split; auto; lia.
  - intros m Hm IH a H. destruct (f a) eqn:E.
    + exists 0. rewrite Z.add_0_r. repeat split; auto; try lia.
    + destruct (IH (a + 1)) as (k & Hk & H1 & H2); [now replace (a + 1 + m) with (a + Z.succ m) by lia|].
      exists (k + 1). replace (a + (k + 1)) with (a + 1 + k) by lia. repeat split; auto; try lia.
      intros j Hj. destruct (Z.eq_dec j 0) as [->|Hj0]; [now rewrite Z.add_0_r|].
      replace (a + j) with (a + 1 + (j - 1)) by lia. apply H2. lia.
Qed.

Lemma next_bus_spec h from : good h -> 0 <= from < 65536 -> (exists d, from <= d < 65536 /\ business h d) ->
  exists r, next_bus h from = Ok r /\ from <= r < 65536 /\ business h r /\ (forall d, from <= d < r -> ~ business h d).
Proof.
  intros Hg Hf (d & Hd & Hb). destruct (least_in (bus_test h) from (d - from)) as (k & Hk & H1 & H2); [lia| |].
  { replace (from + (d - from)) with d by lia. apply bus_test_iff; [assumption|lia|assumption]. }
  exists (from + k). assert (E : u16 (from + k) = from + k) by (unfold u16; lia). split; [|split; [lia|split]].
  - unfold next_bus. rewrite <- E. apply next_fuel_found; [lia | rewrite cycle_Z; lia | | now rewrite E].
    intros j Hj. replace (u16 (from + j)) with (from + j) by (unfold u16; lia). auto.
  - apply bus_test_iff; [assumption | lia | assumption].
  - intros x Hx Hbx. apply bus_test_iff in Hbx; [|assumption|lia]. specialize (H2 (x - from) ltac:(lia)).
    replace (from + (x - from)) with x in H2 by lia. congruence.
Qed.
Lemma prev_bus_spec h from : good h -> 0 <= from < 65536 -> (exists d, 0 <= d <= from /\ business h d) ->
  exists r, prev_bus h from = Ok r /\ 0 <= r <= from /\ business h r /\ (forall d, r < d <= from -> ~ business h d).
Proof.
  intros Hg Hf (d & Hd & Hb).
  destruct (least_in (fun x => bus_test h (from - x)) 0 (from - d)) as (k & Hk & H1 & H2); [lia| |].
  { replace (from - (0 + (from - d))) with d by lia. apply bus_test_iff; [assumption|lia|assumption]. }
  rewrite Z.add_0_l in H1.
  exists (from - k). assert (E : u16 (from - k) = from - k) by (unfold u16; lia). split; [|split; [lia|split]].
  - unfold prev_bus. rewrite <- E. apply prev_fuel_found; [lia | rewrite cycle_Z; lia | | now rewrite E].
    intros j Hj. replace (u16 (from - j)) with (from - j) by (unfold u16; lia). specialize (H2 j Hj). now rewrite Z.add_0_l in H2.
  - apply bus_test_iff; [assumption | lia | assumption].
  - intros x Hx Hbx. apply bus_test_iff in Hbx; [|assumption|lia]. specialize (H2 (from - x) ltac:(lia)). cbv beta in H2.
    replace (from - (0 + (from - x))) with x in H2 by lia. congruence.
Qed.
Lemma next_bus_unique h from r : good h -> 0 <= from -> from <= r < 65536 -> business h r ->
  (forall d, from <= d < r -> ~ business h d) -> next_bus h from = Ok r.
Proof.
  intros Hg H0 Hr Hb Hn. destruct (next_bus_spec h from Hg ltac:(lia)) as (r' & H1 & H2 & H3 & H4); [exists r; auto|].
  rewrite H1. f_equal. destruct (Z.lt_trichotomy r r') as [H|[H|H]]; [|auto|].
  - exfalso. apply (H4 r); [lia|assumption].
  - exfalso. apply (Hn r'); [lia|assumption].
Qed.
Lemma prev_bus_unique h from r : good h -> from < 65536 -> 0 <= r <= from -> business h r ->
  (forall d, r < d <= from -> ~ business h d) -> prev_bus h from = Ok r.
Proof.
  intros Hg H0 Hr Hb Hn. destruct (prev_bus_spec h from Hg ltac:(lia)) as (r' & H1 & H2 & H3 & H4); [exists r; auto|].
  rewrite H1. f_equal. destruct (Z.lt_trichotomy r r') as [H|[H|H]]; [|auto|].
  - exfalso. apply (Hn r'); [lia|assumption].
  - exfalso. apply (H4 r); [lia|assumption].
Qed.
(** the loop ends iff the calendar has any business day at all *)
Lemma next_bus_terminates h from : good h -> 0 <= from < 65536 ->
  (next_bus h from <> OutOfFuel <-> exists d, 0 <= d < 65536 /\ business h d).
Proof.
  intros Hg Hf. split.
  - intros Hn. destruct (existsb (bus_test h) (map (fun j => u16 (from + j)) (zrange 0 cycle))) eqn:E.
    + apply existsb_exists in E as (d & Hin & Hb). apply in_map_iff in Hin as (j & <- & _).
      exists (u16 (from + j)). assert (0 <= u16 (from + j) < 65536) by (unfold u16; lia). split; [assumption|]. now apply bus_test_iff.
    + exfalso. apply Hn. apply next_fuel_none; [assumption|]. intros j Hj.
      destruct (bus_test h (u16 (from + j))) eqn:Eb; [|reflexivity].
      rewrite <- E. symmetry. apply existsb_exists. exists (u16 (from + j)). split; [|assumption].
      apply in_map_iff. exists j. split; [reflexivity|]. apply zrange_In. lia.
  - intros (d & Hd & Hb).
    destruct (least_in (fun x => bus_test h (u16 x)) from ((d - from) mod 65536)) as (k & Hk & H1 & H2); [lia| |].
    + apply bus_test_iff; [assumption | unfold u16; lia |].
      replace (u16 (from + (d - from) mod 65536)) with d by (unfold u16; lia). assumption.
    + unfold next_bus. rewrite (next_fuel_found h cycle from k); auto; [discriminate | rewrite cycle_Z; lia].
Qed.
Lemma prev_bus_terminates h from : good h -> 0 <= from < 65536 ->
  (prev_bus h from <> OutOfFuel <-> exists d, 0 <= d < 65536 /\ business h d).
Proof.
  intros Hg Hf. split.
  - intros Hn. destruct (existsb (bus_test h) (map (fun j => u16 (from - j)) (zrange 0 cycle))) eqn:E.
    + apply existsb_exists in E as (d & Hin & Hb). apply in_map_iff in Hin as (j & <- & _).
      exists (u16 (from - j)). assert (0 <= u16 (from - j) < 65536) by (unfold u16; lia). split; [assumption|]. now apply bus_test_iff.
    + exfalso. apply Hn. apply prev_fuel_none; [assumption|]. intros j Hj.
      destruct (bus_test h (u16 (from - j))) eqn:Eb; [|reflexivity].
      rewrite <- E. symmetry. apply existsb_exists. exists (u16 (from - j)). split; [|assumption].
      apply in_map_iff. exists j. split; [reflexivity|]. apply zrange_In. lia.
  - intros (d & Hd & Hb).
    destruct (least_in (fun x => bus_test h (u16 (from - x))) 0 ((from - d) mod 65536)) as (k & Hk & H1 & H2); [lia| |].
    + apply bus_test_iff; [assumption | unfold u16; lia |].
      replace (u16 (from - (0 + (from - d) mod 65536))) with d by (unfold u16; lia). assumption.
    + unfold prev_bus. rewrite (prev_fuel_found h cycle from k); auto; [discriminate | rewrite cycle_Z; lia].
Qed.
Lemma next_bus_fix h d : good h -> 0 <= d < 65536 -> business h d -> next_bus h d = Ok d /\ prev_bus h d = Ok d.
Proof.
  intros Hg Hd Hb. split; [apply next_bus_unique | apply prev_bus_unique]; auto; try lia; intros; lia.
Qed.
Lemma next_bus_monotone h a b ra rb : good h -> 0 <= a <= b -> b < 65536 -> (exists d, b <= d < 65536 /\ business h d) ->
  next_bus h a = Ok ra -> next_bus h b = Ok rb -> ra <= rb.
Proof.
  intros Hg Ha Hb (d & Hd & Hbd) H1 H2.
  destruct (next_bus_spec h a Hg ltac:(lia)) as (r & E1 & H3 & H4 & H5); [exists d; split; [lia|assumption]|].
  destruct (next_bus_spec h b Hg ltac:(lia)) as (r' & E2 & H6 & H7 & H8); [exists d; split; [lia|assumption]|].
  rewrite H1 in E1; rewrite H2 in E2. injection E1 as <-. injection E2 as <-.
  destruct (Z_le_gt_dec ra rb) as [?|Hgt]; [assumption|]. exfalso. apply (H5 rb); [lia|assumption].
Qed.
Lemma prev_bus_monotone h a b ra rb : good h -> 0 <= a <= b -> b < 65536 -> (exists d, 0 <= d <= a /\ business h d) ->
  prev_bus h a = Ok ra -> prev_bus h b = Ok rb -> ra <= rb.
Proof.
  intros Hg Ha Hb (d & Hd & Hbd) H1 H2.
  destruct (prev_bus_spec h a Hg ltac:(lia)) as (r & E1 & H3 & H4 & H5); [exists d; split; [lia|assumption]|].
  destruct (prev_bus_spec h b Hg ltac:(lia)) as (r' & E2 & H6 & H7 & H8); [exists d; split; [lia|assumption]|].
  rewrite H1 in E1; rewrite H2 in E2. injection E1 as <-. injection E2 as <-.
  destruct (Z_le_gt_dec ra rb) as [?|Hgt]; [assumption|]. exfalso. apply (H8 ra); [lia|assumption].
Qed.

(** * Counting *)
Fixpoint cnt (f : Z -> bool) (a : Z) (n : nat) : Z := match n with O => 0 | S k => b2z (f a) + cnt f (a + 1) k end.
Lemma cnt_app f : forall n m a, cnt f a (n + m) = cnt f a n + cnt f (a + Z.of_nat n) m.
Proof.
  induction n as [|n IH]; intros m a; cbn [cnt Nat.add]; [rewrite Z.add_0_r; lia|].
  rewrite IH. replace (a + 1 + Z.of_nat n) with (a + Z.of_nat (S n)) by lia. lia.
Qed.
Lemma cnt_snoc f a n : cnt f a (S n) = cnt f a n + b2z (f (a + Z.of_nat n)).
Proof. replace (S n) with (n + 1)%nat by lia. rewrite cnt_app. cbn [cnt]. lia. Qed.
Lemma cnt_ext f g : forall n a, (forall d, a <= d < a + Z.of_nat n -> f d = g d) -> cnt f a n = cnt g a n.
Proof.
  induction n as [|n IH]; intros a H; [reflexivity|]. cbn [cnt]. rewrite (H a) by lia. rewrite IH; [reflexivity|].
  intros d Hd. apply H. lia.
Qed.
Lemma tally_cnt (P : Z -> Prop) f a : forall n, (forall d, a <= d < a + Z.of_nat n -> (f d = true <-> P d)) ->
  tally P a (a + Z.of_nat n) (cnt f a n).
Proof.
  induction n as [|n IH]; intros H.
  - cbn. rewrite Z.add_0_r. constructor.
  - rewrite cnt_snoc. replace (a + Z.of_nat (S n)) with (a + Z.of_nat n + 1) by lia.
    assert (IH' : tally P a (a + Z.of_nat n) (cnt f a n)) by (apply IH; intros d Hd; apply H; lia).
    destruct (f (a + Z.of_nat n)) eqn:E; cbn [b2z].
    + apply tally_yes; [assumption|]. apply H; [lia|assumption].
    + rewrite Z.add_0_r. apply tally_no; [assumption|]. rewrite <- H by lia. congruence.
Qed.
Lemma tally_range P a b n : tally P a b n -> a <= b /\ 0 <= n <= b - a.
Proof. induction 1; lia. Qed.
Lemma tally_fun P a b n : tally P a b n -> forall m, tally P a b m -> m = n.
Proof.
  induction 1 as [|b n H IH Hp|b n H IH Hp]; intros m Hm.
  - inversion Hm as [|b' n' H' Hp'|b' n' H' Hp']; subst; [reflexivity| |]; apply tally_range in H'; lia.
  - apply tally_range in H. inversion Hm as [|b' n' H' Hp'|b' n' H' Hp']; subst; [lia| |].
    + assert (b' = b) by lia. subst. now rewrite (IH _ H').
    + assert (b' = b) by lia. subst. contradiction.
  - apply tally_range in H. inversion Hm as [|b' n' H' Hp'|b' n' H' Hp']; subst; [lia| |].
    + assert (b' = b) by lia. subst. contradiction.
    + assert (b' = b) by lia. subst. now apply IH.
Qed.

Definition weekday_b (d : Z) : bool := negb (is_weekend d).
Lemma b2z_weekday d : 0 <= d < 65536 -> b2z (weekday_b d) = if ((d + 3) mod 7 =? 0) || ((d + 3) mod 7 =? 6) then 0 else 1.
Proof.
  intros H. unfold weekday_b. pose proof (is_weekend_iff d H) as Hw. unfold weekend, weekday in Hw.
  destruct (is_weekend d); cbn [negb b2z]; destruct (((d + 3) mod 7 =? 0) || ((d + 3) mod 7 =? 6)) eqn:E; try reflexivity; exfalso.
  - assert ((d + 3) mod 7 = 0 \/ (d + 3) mod 7 = 6) by (now apply Hw). lia.
  - assert (false = true) by (apply Hw; lia). discriminate.
Qed.
Lemma week_has_five a : 0 <= a -> a + 7 <= 65536 -> cnt weekday_b a 7 = 5.
Proof.
  intros H0 H1. cbn [cnt]. rewrite !b2z_weekday by lia.
  assert (Hr : (a + 3) mod 7 = 0 \/ (a + 3) mod 7 = 1 \/ (a + 3) mod 7 = 2 \/ (a + 3) mod 7 = 3 \/ (a + 3) mod 7 = 4 \/
    (a + 3) mod 7 = 5 \/ (a + 3) mod 7 = 6) by lia.
  assert (Hs : forall k, 0 <= k <= 6 -> (a + k + 3) mod 7 = if (a + 3) mod 7 + k <? 7 then (a + 3) mod 7 + k else (a + 3) mod 7 + k - 7).
  { intros k Hk. destruct ((a + 3) mod 7 + k <? 7) eqn:E; lia. }
  replace (a + 1 + 1 + 1 + 1 + 1 + 1) with (a + 6) by lia. replace (a + 1 + 1 + 1 + 1 + 1) with (a + 5) by lia.
  replace (a + 1 + 1 + 1 + 1) with (a + 4) by lia. replace (a + 1 + 1 + 1) with (a + 3) by lia. replace (a + 1 + 1) with (a + 2) by lia.
  rewrite !Hs by lia. destruct Hr as [->|[->|[->|[->|[->|[->| ->]]]]]]; reflexivity.
Qed.
Lemma weeks_have_five w : forall a, 0 <= a -> a + 7 * Z.of_nat w <= 65536 -> cnt weekday_b a (7 * w) = 5 * Z.of_nat w.
Proof.
  induction w as [|w IH]; intros a H0 H1; [reflexivity|].
  replace (7 * S w)%nat with (7 + 7 * w)%nat by lia. rewrite cnt_app, week_has_five by lia. rewrite IH by lia. lia.
Qed.
Lemma lb_diff l a : StronglySorted Z.lt l -> forall n,
  Z.of_nat (lower_bound Z.ltb l (a + Z.of_nat n)) - Z.of_nat (lower_bound Z.ltb l a) = cnt (fun d => mem d l) a n.
Proof.
  intros Hs. induction n as [|n IH]; [rewrite Z.add_0_r; cbn; lia|].
  rewrite cnt_snoc, <- IH. replace (a + Z.of_nat (S n)) with (a + Z.of_nat n + 1) by lia. rewrite lb_succ by assumption.
  unfold b2z. destruct (mem (a + Z.of_nat n) l); lia.
Qed.
Definition bus_c (c : center) (d : Z) : bool := mem d (c_wws c) || (weekday_b d && negb (mem d (c_hols c))).
Lemma good_center_mem c d : good_center c -> 0 <= d < 65536 ->
  (mem d (c_hols c) = true -> weekday_b d = true) /\ (mem d (c_wws c) = true -> weekday_b d = false).
Proof.
  intros (_ & _ & H1 & H2) Hd. rewrite Forall_forall in H1, H2. unfold weekday_b. split; intros H; apply mem_iff in H.
  - apply H1 in H as [_ H]. apply negb_true_iff. apply not_true_iff_false. now rewrite is_weekend_iff.
  - apply H2 in H as [_ H]. apply negb_false_iff. now apply is_weekend_iff.
Qed.
Lemma cnt_bus c : good_center c -> forall n a, 0 <= a -> a + Z.of_nat n <= 65536 ->
  cnt (bus_c c) a n = cnt weekday_b a n - cnt (fun d => mem d (c_hols c)) a n + cnt (fun d => mem d (c_wws c)) a n.
Proof.
  intros Hg. induction n as [|n IH]; intros a H0 H1; [reflexivity|]. cbn [cnt]. rewrite IH by lia.
  destruct (good_center_mem c a Hg ltac:(lia)) as [Hh Hw]. unfold bus_c at 1.
  destruct (mem a (c_hols c)); destruct (mem a (c_wws c)); destruct (weekday_b a); cbn [orb andb negb b2z]; try lia;
    try (specialize (Hh eq_refl); discriminate); try (specialize (Hw eq_refl); discriminate).
Qed.
Lemma count_tail_spec c : good_center c -> forall n d ret, 0 <= d -> d + Z.of_nat n < 65536 ->
  count_tail n d (skipn (lower_bound Z.ltb (c_hols c) d) (c_hols c)) (skipn (lower_bound Z.ltb (c_wws c) d) (c_wws c)) ret =
  ret + cnt (bus_c c) d n.
Proof.
  intros Hg. pose proof Hg as (Hsh & Hsw & _). induction n as [|n IH]; intros d ret H0 H1; [cbn; lia|].
  cbn [cnt]. rewrite Z.add_assoc. rewrite <- IH by lia. cbn [count_tail].
  assert (Hi : incr d = d + 1) by (unfold incr, u16; lia). rewrite Hi.
  destruct (good_center_mem c d Hg ltac:(lia)) as [Hh Hw]. unfold bus_c. fold (weekday_b d).
  pose proof (skip_head_ge (c_hols c) (d + 1) Hsh) as Hge1. pose proof (skip_head_ge (c_wws c) (d + 1) Hsw) as Hge2.
  rewrite (lb_suffix (c_hols c) d Hsh), (lb_suffix (c_wws c) d Hsw).
  assert (Hskip : forall (l : list Z) (r : Z), Forall (fun y => d + 1 <= y) l ->
     match l with [] => (l, r) | x :: t => if x =? d then (t, r + 1) else (l, r) end = (l, r)).
  { intros l r Hl. destruct Hl as [|z t Hz Ht]; [reflexivity|]. replace (z =? d) with false by lia. reflexivity. }
  assert (Hskip1 : forall (l : list Z) (r : Z), Forall (fun y => d + 1 <= y) l ->
     match l with [] => (l, r + 1) | x :: t => if x =? d then (t, r) else (l, r + 1) end = (l, r + 1)).
  { intros l r Hl. destruct Hl as [|z t Hz Ht]; [reflexivity|]. replace (z =? d) with false by lia. reflexivity. }
  destruct (mem d (c_hols c)) eqn:E1; destruct (mem d (c_wws c)) eqn:E2; destruct (weekday_b d) eqn:E3; cbn [orb andb negb b2z];
    try (specialize (Hh eq_refl); discriminate); try (specialize (Hw eq_refl); discriminate).
  - rewrite Z.eqb_refl. rewrite (Hskip _ _ Hge2). f_equal. lia.
  - rewrite Z.eqb_refl. reflexivity.
  - rewrite (Hskip1 _ _ Hge1). rewrite (Hskip _ _ Hge2). reflexivity.
  - rewrite (Hskip _ _ Hge2). f_equal. lia.
Qed.
Lemma count_bus_days_cnt c b e : good_center c -> 0 <= b < 65536 -> 0 <= e < 65536 ->
  count_bus_days c b e = cnt (bus_c c) b (Z.to_nat (e - b)).
Proof.
  intros Hg Hb He. unfold count_bus_days. destruct (e <=? b) eqn:E.
  - replace (Z.to_nat (e - b)) with O by lia. reflexivity.
  - assert (Hdd : date_diff e b = e - b) by (unfold date_diff, to_excel; lia). rewrite Hdd.
    rewrite Z.quot_div_nonneg by lia. set (w := (e - b) / 7). cbv zeta.
    assert (Hw : 0 <= 7 * w <= e - b /\ e - b < 7 * w + 7) by (unfold w; lia). clearbody w.
    rewrite add_days_in by lia. rewrite count_tail_spec by (auto; lia).
    pose proof (lb_diff (c_hols c) b (proj1 Hg) (7 * Z.to_nat w)) as L1.
    pose proof (lb_diff (c_wws c) b (proj1 (proj2 Hg)) (7 * Z.to_nat w)) as L2.
    replace (b + Z.of_nat (7 * Z.to_nat w)) with (b + 7 * w) in * by lia. rewrite L1, L2.
    replace (Z.to_nat (e - b)) with (7 * Z.to_nat w + Z.to_nat (e - (b + 7 * w)))%nat by lia.
    rewrite cnt_app. replace (b + Z.of_nat (7 * Z.to_nat w)) with (b + 7 * w) by lia.
    rewrite (cnt_bus c Hg (7 * Z.to_nat w)) by lia. rewrite weeks_have_five by lia. lia.
Qed.
Lemma bus_c_iff c d : good_center c -> 0 <= d < 65536 -> (bus_c c d = true <-> business [c] d).
Proof.
  intros Hg Hd. rewrite <- bus_test_iff by (repeat constructor; assumption || apply Hg || lia).
  unfold bus_test, bus_c, is_work_weekend, is_holiday, weekday_b. cbn [existsb].
  rewrite !binary_search_mem by apply Hg. rewrite !orb_false_r. reflexivity.
Qed.
Lemma count_bus_days_tally c b e : good_center c -> 0 <= b <= e -> e < 65536 -> tally (business [c]) b e (count_bus_days c b e).
Proof.
  intros Hg Hb He. rewrite count_bus_days_cnt by (auto; lia).
  replace e with (b + Z.of_nat (Z.to_nat (e - b))) at 1 by lia. apply tally_cnt. intros d Hd. apply bus_c_iff; [assumption|lia].
Qed.

(** * Sorting and merging *)
Lemma insert_In (x : Z) l y : In y (insert Z.ltb x l) <-> y = x \/ In y l.
Proof.
  induction l as [|z l IH]; cbn [insert]; [cbn; intuition congruence|].
  destruct (z <? x); cbn [In]; [rewrite IH|]; intuition congruence.
Qed.
Lemma sort_In l y : In y (sort Z.ltb l) <-> In y l.
Proof. induction l as [|x l IH]; cbn [sort]; [tauto|]. rewrite insert_In, IH. cbn. intuition congruence. Qed.
Lemma insert_sorted x l : StronglySorted Z.le l -> StronglySorted Z.le (insert Z.ltb x l).
Proof.
  induction 1 as [|y l Hl IH Hf]; cbn [insert]; [repeat constructor|]. destruct (y <? x) eqn:E.
  - constructor; [assumption|]. apply Forall_forall. intros z Hz. rewrite insert_In in Hz; destruct Hz as [->|Hz]; [lia|].
    rewrite Forall_forall in Hf. now apply Hf.
  - constructor; [now constructor|]. constructor; [lia|]. eapply Forall_impl; [|exact Hf]. cbn; lia.
Qed.
Lemma sort_sorted l : StronglySorted Z.le (sort Z.ltb l).
Proof. induction l; cbn; [constructor | now apply insert_sorted]. Qed.
Lemma dedup_In l y : In y (dedup Z.eqb l) <-> In y l.
Proof.
  induction l as [|x l IH]; cbn [dedup]; [tauto|]. destruct (dedup Z.eqb l) as [|z r]; cbn [In] in *.
  - intuition.
  - destruct (x =? z) eqn:E; cbn [In]; [assert (x = z) by lia; subst|]; intuition congruence.
Qed.
Lemma dedup_sorted l : StronglySorted Z.le l -> StronglySorted Z.lt (dedup Z.eqb l).
Proof.
  induction 1 as [|x l Hl IH Hf]; cbn [dedup]; [constructor|].
  assert (Hx : Forall (fun y => x <= y) (dedup Z.eqb l)).
  { apply Forall_forall. intros y Hy. rewrite dedup_In in Hy. rewrite Forall_forall in Hf. now apply Hf. }
  destruct (dedup Z.eqb l) as [|z r]; [repeat constructor|]. inversion IH as [|? ? Hr Hz]; subst. inversion Hx; subst.
  destruct (x =? z) eqn:E.
  - constructor; [assumption|]. eapply Forall_impl; [|exact Hz]. cbn; lia.
  - constructor; [assumption|]. constructor; [lia|]. eapply Forall_impl; [|exact Hz]. cbn; lia.
Qed.
Lemma uniqueZ_In l y : In y (uniqueZ l) <-> In y l.
Proof. unfold uniqueZ, unique. now rewrite dedup_In, sort_In. Qed.
Lemma uniqueZ_sorted l : StronglySorted Z.lt (uniqueZ l).
Proof. apply dedup_sorted, sort_sorted. Qed.
Lemma merged_good h : good h -> good_center (merged h).
Proof.
  intros Hg. unfold good in Hg. rewrite Forall_forall in Hg. repeat split; try apply uniqueZ_sorted; cbn [merged c_hols c_wws];
  apply Forall_forall; intros d Hd; rewrite uniqueZ_In in Hd; apply in_flat_map in Hd as (c & Hc & Hd); destruct (Hg _ Hc) as (_ & _ & H1 & H2);
  rewrite Forall_forall in H1, H2; auto.
Qed.
Lemma merged_closed h d : closed [merged h] d <-> closed h d.
Proof.
  unfold closed. split.
  - intros (c & [<-|[]] & Hd). cbn in Hd. rewrite uniqueZ_In in Hd. apply in_flat_map in Hd as (c & Hc & Hd). eauto.
  - intros (c & Hc & Hd). exists (merged h). split; [now left|]. cbn. apply uniqueZ_In. apply in_flat_map. eauto.
Qed.
Lemma merged_opened h d : opened [merged h] d <-> opened h d.
Proof.
  unfold opened. split.
  - intros (c & [<-|[]] & Hd). cbn in Hd. rewrite uniqueZ_In in Hd. apply in_flat_map in Hd as (c & Hc & Hd). eauto.
  - intros (c & Hc & Hd). exists (merged h). split; [now left|]. cbn. apply uniqueZ_In. apply in_flat_map. eauto.
Qed.
Lemma tally_iff P Q a b n : (forall d, P d <-> Q d) -> tally P a b n -> tally Q a b n.
Proof.
  intros H. induction 1; [constructor | apply tally_yes; [assumption | now apply H] | apply tally_no; [assumption | now rewrite <- H]].
Qed.
