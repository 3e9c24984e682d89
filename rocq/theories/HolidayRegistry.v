(** Proofs about the registry, the merged-calendar cache and business-day increments. *)
From Coq Require Import String Ascii ZArith List Bool Lia ZifyBool Sorted.
From Verif Require Import Base DateModel DateSpec DateCivil DateProofs StringModel StringSpec StringProofs HolidayModel HolidaySpec HolidayProofs.
Import ListNotations.
Open Scope Z_scope.
Ltac Zify.zify_post_hook ::= Z.div_mod_to_equations.

(** * C06 *)
Lemma tally_bus h a b n : good h -> 0 <= a <= b -> b <= 65536 ->
  (tally (business h) a b n <-> n = cnt (bus_test h) a (Z.to_nat (b - a))).
Proof.
  intros Hg Ha Hb.
  assert (T : tally (business h) a b (cnt (bus_test h) a (Z.to_nat (b - a)))).
  { replace b with (a + Z.of_nat (Z.to_nat (b - a))) at 1 by lia. apply tally_cnt. intros d Hd. apply bus_test_iff; [assumption|lia]. }
  split; [intros H; eapply tally_fun; eassumption | intros ->; exact T].
Qed.
Lemma cnt_split f a b c : a <= b <= c -> cnt f a (Z.to_nat (c - a)) = cnt f a (Z.to_nat (b - a)) + cnt f b (Z.to_nat (c - b)).
Proof.
  intros H. replace (Z.to_nat (c - a)) with (Z.to_nat (b - a) + Z.to_nat (c - b))%nat by lia. rewrite cnt_app.
  replace (a + Z.of_nat (Z.to_nat (b - a))) with b by lia. reflexivity.
Qed.
Lemma cnt_nonneg f : forall n a, 0 <= cnt f a n.
Proof. induction n; intros a; cbn [cnt]; [lia|]. specialize (IHn (a + 1)). unfold b2z. destruct (f a); lia. Qed.
Lemma cnt_one f a : cnt f a (Z.to_nat 1) = b2z (f a).
Proof. change (Z.to_nat 1) with 1%nat. cbn [cnt]. lia. Qed.
Lemma cnt_zero f : forall n a, (forall d, a <= d < a + Z.of_nat n -> f d = false) -> cnt f a n = 0.
Proof.
  induction n; intros a H; cbn [cnt]; [reflexivity|]. rewrite H by lia. rewrite IHn; [reflexivity|]. intros; apply H; lia.
Qed.

Lemma bd_fwd h : good h -> forall n d r, 0 <= d -> r < 65536 -> nth_after h d (Z.of_nat (S n)) r ->
  bd_steps (S n) true h d = Ok r.
Proof.
  intros Hg. induction n as [|n IH]; intros d r Hd Hr (Hlt & Hb & Ht); cbn [bd_steps].
  - rewrite add_days_in by lia. rewrite (next_bus_unique h (d + 1) r); auto; try lia.
    intros x Hx Hbx. apply (tally_bus h) in Ht; [|assumption|lia|lia].
    rewrite (cnt_split _ _ x) in Ht by lia. rewrite (cnt_split _ x (x + 1)) in Ht by lia. rewrite (cnt_split _ (x + 1) r) in Ht by lia.
    replace (x + 1 - x) with 1 in Ht by lia. replace (r + 1 - r) with 1 in Ht by lia. rewrite !cnt_one in Ht.
    assert (bus_test h x = true) by (apply bus_test_iff; [assumption|lia|assumption]).
    assert (bus_test h r = true) by (apply bus_test_iff; [assumption|lia|assumption]).
    pose proof (cnt_nonneg (bus_test h) (Z.to_nat (x - (d + 1))) (d + 1)). pose proof (cnt_nonneg (bus_test h) (Z.to_nat (r - (x + 1))) (x + 1)).
    rewrite H, H0 in Ht. cbn [b2z] in Ht. lia.
  - rewrite add_days_in by lia.
    destruct (next_bus_spec h (d + 1) Hg ltac:(lia)) as (d1 & E1 & Hd1 & Hb1 & Hn1); [exists r; split; [lia|assumption]|].
    rewrite E1. cbn [obind]. fold (bd_steps (S n) true h d1).
    assert (Hle : d1 <= r). { destruct (Z_le_gt_dec d1 r); [assumption|]. exfalso. apply (Hn1 r); [lia|assumption]. }
    apply (tally_bus h) in Ht; [|assumption|lia|lia].
    rewrite (cnt_split _ _ (d1 + 1)) in Ht by lia.
    assert (C1 : cnt (bus_test h) (d + 1) (Z.to_nat (d1 + 1 - (d + 1))) = 1).
    { rewrite (cnt_split _ _ d1) by lia. replace (d1 + 1 - d1) with 1 by lia. rewrite cnt_one.
      rewrite cnt_zero.
      - assert (bus_test h d1 = true) by (apply bus_test_iff; [assumption|lia|assumption]). rewrite H. reflexivity.
      - intros x Hx. destruct (bus_test h x) eqn:E; [|reflexivity]. exfalso. apply (Hn1 x); [lia|]. apply bus_test_iff in E; [assumption|assumption|lia]. }
    rewrite C1 in Ht. apply IH; [lia|lia|].
    split; [|split; [assumption|]].
    + destruct (Z.eq_dec d1 r) as [->|]; [|lia]. replace (r + 1 - (r + 1)) with 0 in Ht by lia. cbn in Ht. lia.
    + apply (tally_bus h); [assumption|lia|lia|]. lia.
Qed.
Lemma bd_back h : good h -> forall n d r, d < 65536 -> 0 <= r -> nth_before h d (Z.of_nat (S n)) r ->
  bd_steps (S n) false h d = Ok r.
Proof.
  intros Hg. induction n as [|n IH]; intros d r Hd Hr (Hlt & Hb & Ht); cbn [bd_steps].
  - rewrite add_days_in by lia. rewrite (prev_bus_unique h (d + -1) r); auto; try lia.
    intros x Hx Hbx. apply (tally_bus h) in Ht; [|assumption|lia|lia].
    rewrite (cnt_split _ _ (r + 1)) in Ht by lia. rewrite (cnt_split _ (r + 1) x) in Ht by lia. rewrite (cnt_split _ x (x + 1)) in Ht by lia.
    replace (x + 1 - x) with 1 in Ht by lia. replace (r + 1 - r) with 1 in Ht by lia. rewrite !cnt_one in Ht.
    assert (bus_test h x = true) by (apply bus_test_iff; [assumption|lia|assumption]).
    assert (bus_test h r = true) by (apply bus_test_iff; [assumption|lia|assumption]).
    pose proof (cnt_nonneg (bus_test h) (Z.to_nat (x - (r + 1))) (r + 1)). pose proof (cnt_nonneg (bus_test h) (Z.to_nat (d - (x + 1))) (x + 1)).
    rewrite H, H0 in Ht. cbn [b2z] in Ht. lia.
  - rewrite add_days_in by lia.
    destruct (prev_bus_spec h (d + -1) Hg ltac:(lia)) as (d1 & E1 & Hd1 & Hb1 & Hn1); [exists r; split; [lia|assumption]|].
    rewrite E1. cbn [obind]. fold (bd_steps (S n) false h d1).
    assert (Hle : r <= d1). { destruct (Z_le_gt_dec r d1); [assumption|]. exfalso. apply (Hn1 r); [lia|assumption]. }
    apply (tally_bus h) in Ht; [|assumption|lia|lia].
    rewrite (cnt_split _ _ d1) in Ht by lia.
    assert (C1 : cnt (bus_test h) d1 (Z.to_nat (d - d1)) = 1).
    { rewrite (cnt_split _ _ (d1 + 1)) by lia. replace (d1 + 1 - d1) with 1 by lia. rewrite cnt_one.
      rewrite cnt_zero.
      - assert (bus_test h d1 = true) by (apply bus_test_iff; [assumption|lia|assumption]). rewrite H. reflexivity.
      - intros x Hx. destruct (bus_test h x) eqn:E; [|reflexivity]. exfalso. apply (Hn1 x); [lia|]. apply bus_test_iff in E; [assumption|assumption|lia]. }
    rewrite C1 in Ht. apply IH; [lia|lia|].
    split; [|split; [assumption|]].
    + destruct (Z.eq_dec d1 r) as [->|]; [|lia]. replace (r - r) with 0 in Ht by lia. cbn in Ht. lia.
    + apply (tally_bus h); [assumption|lia|lia|]. lia.
Qed.
Lemma n_bus_fwd h n d r : good h -> 0 <= d -> r < 65536 -> 1 <= n -> nth_after h d n r ->
  n_bus_days_fwd n h d = Ok r /\ start_from_fix h n d = Ok r.
Proof.
  intros Hg Hd Hr Hn Ha. assert (Hb : bd_steps (Z.to_nat n) true h d = Ok r).
  { replace (Z.to_nat n) with (S (Z.to_nat (n - 1))) by lia. apply bd_fwd; auto.
    now replace (Z.of_nat (S (Z.to_nat (n - 1)))) with n by lia. }
  split.
  - unfold n_bus_days_fwd, step. rewrite Hb. cbn [obind]. destruct (hols_neqb h hols_none); [|reflexivity].
    destruct (next_bus_fix h r) as [E _]; [assumption | destruct Ha as (? & _); lia | apply Ha | exact E].
  - unfold start_from_fix. replace (n =? 0) with false by lia. exact Hb.
Qed.
Lemma n_bus_back h n d r : good h -> d < 65536 -> 0 <= r -> 1 <= n -> nth_before h d n r ->
  n_bus_days_back n h d = Ok r /\ fix_date_from_start h n d = Ok r.
Proof.
  intros Hg Hd Hr Hn Ha. assert (Hb : bd_steps (Z.to_nat n) false h d = Ok r).
  { replace (Z.to_nat n) with (S (Z.to_nat (n - 1))) by lia. apply bd_back; auto.
    now replace (Z.of_nat (S (Z.to_nat (n - 1)))) with n by lia. }
  split.
  - unfold n_bus_days_back, step. rewrite Hb. cbn [obind]. destruct (hols_neqb h hols_none); [|reflexivity].
    destruct (next_bus_fix h r) as [_ E]; [assumption | destruct Ha as (? & _); lia | apply Ha | exact E].
  - unfold fix_date_from_start. replace (n =? 0) with false by lia. exact Hb.
Qed.
Lemma zero_bus_days h d : good h ->
  n_bus_days_fwd 0 h d = (if hols_neqb h hols_none then next_bus h d else Ok d) /\
  n_bus_days_back 0 h d = (if hols_neqb h hols_none then prev_bus h d else Ok d) /\
  start_from_fix h 0 d = next_bus h d /\ fix_date_from_start h 0 d = prev_bus h d.
Proof. intros _. repeat split. Qed.
Lemma after_before h d n r : good h -> 0 <= d -> r < 65536 -> business h d -> nth_after h d n r -> nth_before h r n d.
Proof.
  intros Hg Hd Hr Hb (Hlt & Hbr & Ht). split; [assumption|]. split; [assumption|].
  apply (tally_bus h) in Ht; [|assumption|lia|lia]. apply (tally_bus h); [assumption|lia|lia|].
  rewrite (cnt_split _ _ r) in Ht by lia. rewrite (cnt_split _ _ (d + 1)) by lia.
  replace (r + 1 - r) with 1 in Ht by lia. replace (d + 1 - d) with 1 by lia. rewrite cnt_one in *.
  assert (bus_test h d = true) by (apply bus_test_iff; [assumption|lia|assumption]).
  assert (bus_test h r = true) by (apply bus_test_iff; [assumption|lia|assumption]).
  rewrite H, H0 in *. lia.
Qed.
Lemma fwd_back h n d r : good h -> 0 <= d -> r < 65536 -> 1 <= n -> business h d -> nth_after h d n r ->
  (do x <- n_bus_days_fwd n h d; n_bus_days_back n h x) = Ok d /\
  (do x <- start_from_fix h n d; fix_date_from_start h n x) = Ok d.
Proof.
  intros Hg Hd Hr Hn Hb Ha. destruct (n_bus_fwd h n d r) as [E1 E2]; auto.
  destruct (n_bus_back h n r d) as [E3 E4]; auto; try lia; [eapply after_before; eauto|].
  rewrite E1, E2. cbn [obind]. now rewrite E3, E4.
Qed.

(** * C10 *)
Definition distinct (l : list center) : Prop := forall i j a b,
  nth_error l i = Some a -> nth_error l j = Some b -> same_up_to_case (c_name a) (c_name b) -> i = j.
Definition index_of (l : list center) : list (str * Z) := combine (map c_name l) (zrange 0 (length l)).
Definition reg_inv (h : hdata) : Prop := hd_index h = index_of (hd_list h) /\ distinct (hd_list h) /\ good (hd_list h).

Lemma zrange_app a n m : zrange a (n + m) = zrange a n ++ zrange (a + Z.of_nat n) m.
Proof.
  revert a. induction n as [|n IH]; intros a; cbn [zrange Nat.add app]; [now rewrite Z.add_0_r|].
  rewrite IH. replace (a + 1 + Z.of_nat n) with (a + Z.of_nat (S n)) by lia. reflexivity.
Qed.
Lemma zrange_length a n : length (zrange a n) = n.
Proof. revert a. induction n; intros; cbn; auto. Qed.
Lemma combine_app {A B} (a a' : list A) (b b' : list B) : length a = length b -> combine (a ++ a') (b ++ b') = combine a b ++ combine a' b'.
Proof.
  revert b. induction a as [|x a IH]; intros [|y b] H; cbn in *; try discriminate; [reflexivity|]. f_equal. apply IH. lia.
Qed.
Lemma index_of_snoc l c : index_of (l ++ [c]) = index_of l ++ [(c_name c, Z.of_nat (length l))].
Proof.
  unfold index_of. rewrite map_app, app_length. cbn [length]. rewrite zrange_app, combine_app by (rewrite map_length, zrange_length; reflexivity).
  reflexivity.
Qed.
Lemma index_of_length l : length (index_of l) = length l.
Proof. unfold index_of. rewrite combine_length, map_length, zrange_length. lia. Qed.
Lemma in_index l k i : In (k, i) (index_of l) -> 0 <= i < Z.of_nat (length l) /\ exists c, nth_error l (Z.to_nat i) = Some c /\ k = c_name c.
Proof.
  unfold index_of. assert (G : forall l a, In (k, i) (combine (map c_name l) (zrange a (length l))) ->
    a <= i < a + Z.of_nat (length l) /\ exists c, nth_error l (Z.to_nat (i - a)) = Some c /\ k = c_name c).
  { clear l. induction l as [|c l IH]; intros a H; cbn [map length zrange combine In] in H; [contradiction|]. destruct H as [H|H].
    - injection H as <- <-. split; [cbn [length]; lia|]. exists c. rewrite Z.sub_diag. auto.
    - apply IH in H as [H1 (c' & H2 & H3)]. split; [cbn [length]; lia|]. exists c'. split; [|assumption].
      replace (Z.to_nat (i - a)) with (S (Z.to_nat (i - (a + 1)))) by lia. exact H2. }
  intros H. apply G in H. rewrite Z.sub_0_r in H. exact H.
Qed.
Lemma map_find_in {T} (m : list (str * T)) k v : map_find m k = Some v -> exists k', In (k', v) m /\ ci_eqb k' k = true.
Proof.
  induction m as [|[k' v'] m IH]; cbn [map_find]; [discriminate|]. destruct (ci_eqb k' k) eqn:E.
  - intros H; injection H as <-. exists k'. split; [now left|assumption].
  - intros H. apply IH in H as (k2 & H1 & H2). exists k2. split; [now right|assumption].
Qed.
Lemma map_find_none {T} (m : list (str * T)) k : map_find m k = None -> forall k' v, In (k', v) m -> ci_eqb k' k = false.
Proof.
  induction m as [|[k0 v0] m IH]; cbn [map_find]; [intros _ ? ? []|]. destruct (ci_eqb k0 k) eqn:E; [discriminate|].
  intros H k' v [Hi|Hi]; [injection Hi as <- <-; assumption | eauto].
Qed.
Lemma nth_in_index l i c : nth_error l i = Some c -> In (c_name c, Z.of_nat i) (index_of l).
Proof.
  intros H. unfold index_of. assert (G : forall l i a, nth_error l i = Some c -> In (c_name c, a + Z.of_nat i) (combine (map c_name l) (zrange a (length l)))).
  { clear. induction l as [|x l IH]; intros [|i] a H; cbn [nth_error] in H; try discriminate; cbn [map length zrange combine In].
    - injection H as ->. left. f_equal. lia.
    - right. replace (a + Z.of_nat (S i)) with (a + 1 + Z.of_nat i) by lia. now apply IH. }
  apply (G l i 0 H).
Qed.
Lemma map_find_index l k i : distinct l -> (map_find (index_of l) k = Some i <->
  0 <= i /\ exists c, nth_error l (Z.to_nat i) = Some c /\ same_up_to_case (c_name c) k).
Proof.
  intros Hd. split.
  - intros H. apply map_find_in in H as (k' & H1 & H2). apply in_index in H1 as [H1 (c & H3 & ->)].
    split; [lia|]. exists c. split; [assumption|]. now apply ci_eqb_iff.
  - intros (Hi & c & H1 & H2). destruct (map_find (index_of l) k) as [j|] eqn:E.
    + apply map_find_in in E as (k' & H3 & H4). apply in_index in H3 as [H3 (c' & H5 & ->)]. apply ci_eqb_iff in H4.
      assert (Z.to_nat i = Z.to_nat j). { eapply Hd; [exact H1 | exact H5 |]. eapply same_trans; [exact H2 | now apply same_sym]. }
      f_equal. lia.
    + exfalso. pose proof (map_find_none _ _ E _ _ (nth_in_index _ _ _ H1)) as Hn. apply ci_eqb_iff in H2. congruence.
Qed.
Lemma reg_inv_valid h : reg_inv h -> hd_valid h = true.
Proof.
  intros (Hi & Hd & _). unfold hd_valid. rewrite Hi, index_of_length, Z.eqb_refl. cbn [andb]. apply forallb_forall.
  intros [k i] Hin. apply in_index in Hin as [H1 (c & H2 & ->)].
  replace ((Z.of_nat (length (hd_list h)) <=? i) || (i <? 0)) with false by lia. rewrite H2. apply ci_eqb_refl.
Qed.
Lemma no_weekends_iff l : Forall (fun d => 0 <= d < 65536) l -> (contains_no_weekends l = true <-> forall d, In d l -> ~ weekend d).
Proof.
  intros H. unfold contains_no_weekends. rewrite forallb_forall. rewrite Forall_forall in H. split; intros Hx d Hd; specialize (Hx d Hd).
  - rewrite <- weekend_iff by auto. apply negb_true_iff in Hx. congruence.
  - rewrite <- weekend_iff in Hx by auto. apply negb_true_iff. now apply not_true_iff_false.
Qed.
Lemma only_weekends_iff l : Forall (fun d => 0 <= d < 65536) l -> (contains_only_weekends l = true <-> forall d, In d l -> weekend d).
Proof.
  intros H. unfold contains_only_weekends. rewrite forallb_forall. rewrite Forall_forall in H. split; intros Hx d Hd; specialize (Hx d Hd);
  apply weekend_iff; auto.
Qed.
Lemma map_find_absent l k : distinct l -> (map_find (index_of l) k = None <-> forall c, In c l -> ~ same_up_to_case (c_name c) k).
Proof.
  intros Hd. split.
  - intros E c Hc Hs. apply In_nth_error in Hc as (i & Hi).
    pose proof (map_find_none _ _ E _ _ (nth_in_index _ _ _ Hi)) as Hn. apply ci_eqb_iff in Hs. congruence.
  - intros H. destruct (map_find (index_of l) k) as [i|] eqn:E; [|reflexivity]. exfalso.
    apply map_find_index in E as (_ & c & H1 & H2); [|assumption]. apply nth_error_In in H1. exact (H _ H1 H2).
Qed.
Lemma distinct_snoc l c : distinct l -> (forall x, In x l -> ~ same_up_to_case (c_name x) (c_name c)) -> distinct (l ++ [c]).
Proof.
  intros Hd Hn i j a b Ha Hb Hs.
  assert (Hcase : forall i a, nth_error (l ++ [c]) i = Some a -> (i < length l)%nat /\ nth_error l i = Some a \/ i = length l /\ a = c).
  { clear. intros i a H. destruct (Nat.lt_ge_cases i (length l)) as [Hl|Hl].
    - left. rewrite nth_error_app1 in H by assumption. auto.
    - right. rewrite nth_error_app2 in H by assumption. destruct (i - length l)%nat eqn:E; cbn in H.
      + injection H as <-. split; [lia|reflexivity].
      + destruct n; discriminate. }
  apply Hcase in Ha. apply Hcase in Hb. destruct Ha as [[? Ha]|[? ->]]; destruct Hb as [[? Hb]|[? ->]]; try lia.
  - eapply Hd; eassumption.
  - exfalso. apply nth_error_In in Ha. exact (Hn _ Ha Hs).
  - exfalso. apply nth_error_In in Hb. apply same_sym in Hs. exact (Hn _ Hb Hs).
Qed.
Lemma add_center_spec h city hols wws : reg_inv h -> Forall (fun d => 0 <= d < 65536) hols -> Forall (fun d => 0 <= d < 65536) wws ->
  (acceptable (hd_list h) city hols wws /\
     snd (add_center h city hols wws) = Ok tt /\ hd_list (fst (add_center h city hols wws)) = hd_list h ++ [Center city hols wws] /\
     reg_inv (fst (add_center h city hols wws))) \/
  (~ acceptable (hd_list h) city hols wws /\ add_center h city hols wws = (h, Throw)).
Proof.
  intros Hi Hh Hw. unfold add_center. rewrite (reg_inv_valid h Hi). cbn [negb]. destruct Hi as (Hix & Hd & Hg). unfold acceptable.
  pose proof (no_weekends_iff hols Hh) as N1. pose proof (only_weekends_iff wws Hw) as N2.
  pose proof (monotonic_iff hols) as N3. pose proof (monotonic_iff wws) as N4.
  destruct (contains_no_weekends hols) eqn:E1; cbn [negb].
  2:{ right. split; [|reflexivity]. intros (_ & _ & H & _). apply N1 in H. discriminate. }
  destruct (contains_only_weekends wws) eqn:E2; cbn [negb].
  2:{ right. split; [|reflexivity]. intros (_ & _ & _ & H & _). apply N2 in H. discriminate. }
  destruct (is_monotonic Z.ltb hols) eqn:E3; cbn [negb].
  2:{ right. split; [|reflexivity]. intros (H & _). apply N3 in H. discriminate. }
  destruct (is_monotonic Z.ltb wws) eqn:E4; cbn [negb].
  2:{ right. split; [|reflexivity]. intros (_ & H & _). apply N4 in H. discriminate. }
  rewrite Hix. pose proof (map_find_absent (hd_list h) city Hd) as N5.
  destruct (map_find (index_of (hd_list h)) city) as [i|] eqn:E5.
  - right. split; [|reflexivity]. intros (_ & _ & _ & _ & H). apply N5 in H. discriminate.
  - left. destruct N1 as [N1 _], N2 as [N2 _], N3 as [N3 _], N4 as [N4 _], N5 as [N5 _]. specialize (N1 eq_refl); specialize (N2 eq_refl);
    specialize (N3 eq_refl); specialize (N4 eq_refl); specialize (N5 eq_refl).
    assert (Hr : reg_inv (HData (hd_list h ++ [Center city hols wws]) (index_of (hd_list h) ++ [(city, Z.of_nat (length (hd_list h)))]))).
    { split; [|split]; cbn [hd_list hd_index].
      - now rewrite index_of_snoc.
      - apply distinct_snoc; assumption.
      - apply Forall_app. split; [assumption|]. constructor; [|constructor]. repeat split; try assumption; cbn [c_hols c_wws];
        apply Forall_forall; intros d Hdd; rewrite Forall_forall in Hh, Hw; auto. }
    split; [repeat split; assumption|]. cbn [fst snd]. rewrite (reg_inv_valid _ Hr). split; [reflexivity|]. split; [reflexivity|assumption].
Qed.

Definition run_one (h : hdata) (o : str * list Z * list Z) : hdata := fst (add_center h (fst (fst o)) (snd (fst o)) (snd o)).
Definition run (ops : list (str * list Z * list Z)) : hdata := fold_left run_one ops hd_empty.
Lemma run_snoc ops o : run (ops ++ [o]) = run_one (run ops) o.
Proof. unfold run. now rewrite fold_left_app. Qed.
Lemma reg_inv_empty : reg_inv hd_empty.
Proof. split; [reflexivity|]. split; [|constructor]. intros i j a b H. destruct i; discriminate. Qed.
Lemma run_inv ops : dates_ok ops -> reg_inv (run ops).
Proof.
  induction ops as [|[[city hols] wws] ops IH] using rev_ind; intros H; [apply reg_inv_empty|].
  apply Forall_app in H as [H1 H2]. inversion H2 as [|? ? [Hh Hw] _]; subst. cbn in Hh, Hw. rewrite run_snoc. unfold run_one. cbn [fst snd].
  destruct (add_center_spec (run ops) city hols wws (IH H1) Hh Hw) as [(_ & _ & _ & H)|[_ E]]; [assumption|].
  rewrite E. cbn [fst]. auto.
Qed.
Lemma run_registered ops reg : dates_ok ops -> registered ops reg -> hd_list (run ops) = reg.
Proof.
  intros Hok Hr. induction Hr as [|ops reg city hols wws Hr IH Ha|ops reg city hols wws Hr IH Ha]; [reflexivity| |];
  apply Forall_app in Hok as [H1 H2]; inversion H2 as [|? ? [Hh Hw] _]; subst; cbn in Hh, Hw; specialize (IH H1); rewrite run_snoc; unfold run_one; cbn [fst snd];
  destruct (add_center_spec (run ops) city hols wws (run_inv ops H1) Hh Hw) as [(Ha' & _ & E & _)|[Ha' E]]; rewrite IH in *.
  - exact E.
  - contradiction.
  - contradiction.
  - rewrite E. exact IH.
Qed.
Lemma registered_total ops : dates_ok ops -> registered ops (hd_list (run ops)).
Proof.
  induction ops as [|[[city hols] wws] ops IH] using rev_ind; intros H; [constructor|].
  apply Forall_app in H as [H1 H2]. inversion H2 as [|? ? [Hh Hw] _]; subst. cbn in Hh, Hw. rewrite run_snoc. unfold run_one. cbn [fst snd].
  destruct (add_center_spec (run ops) city hols wws (run_inv ops H1) Hh Hw) as [(Ha & _ & E & _)|[Ha E]]; rewrite E.
  - apply reg_accept; auto.
  - apply reg_reject; auto.
Qed.
Lemma of_center_iff h k c : reg_inv h -> (of_center h k = Ok c <-> In c (hd_list h) /\ same_up_to_case (c_name c) k).
Proof.
  intros (Hi & Hd & _). unfold of_center, center_index, of_index. rewrite Hi. split.
  - destruct (map_find (index_of (hd_list h)) k) as [i|] eqn:E; cbn [obind]; [|discriminate].
    apply map_find_index in E as (Hi0 & c' & H1 & H2); [|assumption]. rewrite H1.
    destruct ((0 <=? i) && (i <? Z.of_nat (length (hd_list h)))); [|discriminate]. intros H; injection H as <-.
    split; [eapply nth_error_In; eassumption|assumption].
  - intros [Hin Hs]. apply In_nth_error in Hin as (i & Hn).
    assert (E : map_find (index_of (hd_list h)) k = Some (Z.of_nat i)).
    { apply map_find_index; [assumption|]. split; [lia|]. exists c. rewrite Nat2Z.id. auto. }
    rewrite E. cbn [obind]. assert (Hl : (i < length (hd_list h))%nat) by (apply nth_error_Some; congruence).
    replace ((0 <=? Z.of_nat i) && (Z.of_nat i <? Z.of_nat (length (hd_list h)))) with true by lia. rewrite Nat2Z.id, Hn. reflexivity.
Qed.
Lemma list_grows ops more : dates_ok (ops ++ more) -> exists l, hd_list (run (ops ++ more)) = hd_list (run ops) ++ l.
Proof.
  induction more as [|[[city hols] wws] more IH] using rev_ind; intros H.
  - exists []. now rewrite !app_nil_r.
  - rewrite app_assoc in *. apply Forall_app in H as [H1 H2]. inversion H2 as [|? ? [Hh Hw] _]; subst. cbn in Hh, Hw.
    destruct (IH H1) as (l & E). rewrite run_snoc. unfold run_one. cbn [fst snd].
    destruct (add_center_spec (run (ops ++ more)) city hols wws (run_inv _ H1) Hh Hw) as [(_ & _ & E' & _)|[_ E']]; rewrite E'.
    + exists (l ++ [Center city hols wws]). now rewrite E, app_assoc.
    + exists l. exact E.
Qed.
Lemma index_stable ops more k i : dates_ok (ops ++ more) -> center_index (run ops) k = Ok i -> center_index (run (ops ++ more)) k = Ok i.
Proof.
  intros Hok. destruct (list_grows ops more Hok) as (l & E). pose proof (run_inv _ Hok) as (Hi & Hd & _).
  apply Forall_app in Hok as [H1 _]. pose proof (run_inv _ H1) as (Hi1 & Hd1 & _). unfold center_index. rewrite Hi, Hi1.
  destruct (map_find (index_of (hd_list (run ops))) k) as [j|] eqn:F; [|discriminate]. intros H; injection H as ->.
  apply map_find_index in F as (Hi0 & c & H2 & H3); [|assumption].
  assert (G : map_find (index_of (hd_list (run (ops ++ more)))) k = Some i).
  { apply map_find_index; [assumption|]. split; [assumption|]. exists c. split; [|assumption]. rewrite E.
    rewrite nth_error_app1; [assumption|]. apply nth_error_Some. congruence. }
  now rewrite G.
Qed.
Lemma outcome_matches ops city hols wws : dates_ok (ops ++ [(city, hols, wws)]) ->
  (acceptable (hd_list (run ops)) city hols wws /\ snd (add_center (run ops) city hols wws) = Ok tt) \/
  (~ acceptable (hd_list (run ops)) city hols wws /\ add_center (run ops) city hols wws = (run ops, Throw)).
Proof.
  intros H. apply Forall_app in H as [H1 H2]. inversion H2 as [|? ? [Hh Hw] _]; subst.
  destruct (add_center_spec (run ops) city hols wws (run_inv _ H1) Hh Hw) as [(Ha & E & _)|[Ha E]]; auto.
Qed.

(** * The merged-calendar cache *)
Inductive reach : hdata -> list (str * center) -> Prop :=
| reach_init : reach hd_empty []
| reach_add st co city hols wws : reach st co -> Forall (fun d => 0 <= d < 65536) hols -> Forall (fun d => 0 <= d < 65536) wws ->
    reach (fst (add_center st city hols wws)) co
| reach_count st co src h : reach st co -> mk_holidays st co src = Ok h -> reach st (fst (count_ctor co h)).

Definition plain (s : str) : Prop := s <> [] /\ ~ In " "%char s.
Definition cache_ok (reg : list center) (co : list (str * center)) : Prop :=
  forall n c, In (n, c) co -> exists ps, Forall (fun p => In p reg /\ plain (c_name p)) ps /\ n = hols_name ps /\
    c_name c = n /\ good_center c /\ (forall d, closed [c] d <-> closed ps d) /\ (forall d, opened [c] d <-> opened ps d).

Lemma same_length a b : same_up_to_case a b -> length a = length b.
Proof. induction 1; cbn; congruence. Qed.
Lemma same_space c : same_letter c " "%char <-> c = " "%char.
Proof.
  pose proof (code_range c). unfold same_letter. change (code " ") with 32. split.
  - intros [H1|[H1|H1]]; [apply code_inj; exact H1 | lia | lia].
  - intros ->. left. reflexivity.
Qed.
Lemma plain_same a b : same_up_to_case a b -> plain a -> plain b.
Proof.
  intros Hs [Hn Hi]. split.
  - intros ->. inversion Hs; subst. congruence.
  - clear Hn. induction Hs as [|c d a b Hcd Hs IH]; [assumption|]. intros [->|Hb].
    + apply Hi. left. now apply same_space.
    + apply IH; [|assumption]. intros Ha. apply Hi. now right.
Qed.
Lemma cut_same a : forall b, same_up_to_case a b ->
  same_up_to_case (fst (cut " " a)) (fst (cut " " b)) /\
  match snd (cut " " a), snd (cut " " b) with
  | None, None => True | Some x, Some y => same_up_to_case x y | _, _ => False end.
Proof.
  induction a as [|c a IH]; intros b Hs; inversion Hs as [|? d ? b' Hcd Hs']; subst; [cbn; split; [constructor|exact I]|].
  cbn [cut]. destruct (IH _ Hs') as [H1 H2].
  assert (E : Ascii.eqb c " " = Ascii.eqb d " ").
  { destruct (Ascii.eqb c " ") eqn:E1; destruct (Ascii.eqb d " ") eqn:E2; try reflexivity; exfalso.
    - apply Ascii.eqb_eq in E1 as ->. assert (same_letter d " ") by (destruct Hcd as [?|[?|?]]; [left|right;right|right;left]; auto).
      apply same_space in H. subst. discriminate.
    - apply Ascii.eqb_eq in E2 as ->. apply same_space in Hcd. subst. discriminate. }
  rewrite <- E. destruct (Ascii.eqb c " "); cbn [fst snd].
  - split; [constructor | assumption].
  - destruct (cut " " a) as [u v], (cut " " b') as [u' v']. cbn [fst snd] in *. split; [now constructor | assumption].
Qed.
Lemma join_same l : forall l', Forall plain l -> Forall plain l' -> same_up_to_case (join " " l) (join " " l') -> Forall2 same_up_to_case l l'.
Proof.
  induction l as [|x l IH]; intros [|y l'] H H' Hs.
  - constructor.
  - exfalso. inversion H' as [|? ? [Hy _] _]; subst. apply same_length in Hs. destruct y; [congruence|]. destruct l'; cbn in Hs; discriminate.
  - exfalso. inversion H as [|? ? [Hx _] _]; subst. apply same_length in Hs. destruct x; [congruence|]. destruct l; cbn in Hs; discriminate.
  - inversion H as [|? ? [Hx1 Hx2] Hl]; subst. inversion H' as [|? ? [Hy1 Hy2] Hl']; subst.
    assert (C : forall (z : str) (m : list str), ~ In " "%char z -> cut " " (join " " (z :: m)) = (z, match m with [] => None | _ => Some (join " " m) end)).
    { intros z m Hz. destruct m as [|m0 m]; [cbn [join]; now apply cut_none | change (join " " (z :: m0 :: m)) with (z ++ " "%char :: join " " (m0 :: m)); now apply cut_app]. }
    destruct (cut_same _ _ Hs) as [H1 H2]. rewrite (C x l Hx2), (C y l' Hy2) in H1; rewrite (C x l Hx2), (C y l' Hy2) in H2. cbn [fst snd] in H1, H2.
    constructor; [assumption|]. destruct l; destruct l'; try contradiction; [constructor|]. now apply IH.
Qed.
Lemma hols_name_join ps : Forall (fun p => plain (c_name p)) ps -> hols_name ps = join " " (map c_name ps).
Proof.
  intros H. unfold hols_name. apply (accumulate_join " "%char true). apply Forall_map. eapply Forall_impl; [|exact H]. now intros ? [? _].
Qed.
Lemma parts_by_name reg ps ps' : distinct reg -> Forall (fun p => In p reg /\ plain (c_name p)) ps ->
  Forall (fun p => In p reg /\ plain (c_name p)) ps' -> ci_eqb (hols_name ps) (hols_name ps') = true -> ps = ps'.
Proof.
  intros Hd H H' E. apply ci_eqb_iff in E.
  assert (P : Forall (fun p => plain (c_name p)) ps) by (eapply Forall_impl; [|exact H]; now intros ? [_ ?]).
  assert (P' : Forall (fun p => plain (c_name p)) ps') by (eapply Forall_impl; [|exact H']; now intros ? [_ ?]).
  rewrite !hols_name_join in E by assumption.
  apply join_same in E; [| now apply Forall_map | now apply Forall_map].
  clear P P'. revert ps' H' E. induction H as [|p ps [Hp _] Hps IH]; intros [|p' ps'] H' E; cbn [map] in E; inversion E as [|? ? ? ? E1 E2]; subst.
  - reflexivity.
  - inversion H' as [|? ? [Hp' _] H'']; subst.
    f_equal; [|now apply IH]. apply In_nth_error in Hp as (i & Hi). apply In_nth_error in Hp' as (j & Hj).
    assert (i = j) by (eapply Hd; eassumption). subst. congruence.
Qed.

(** tokens *)
Lemma ins_In {A} (ltb : A -> A -> bool) x l y : In y (insert ltb x l) <-> y = x \/ In y l.
Proof. induction l as [|z l IH]; cbn [insert]; [cbn; intuition congruence|]. destruct (ltb z x); cbn [In]; [rewrite IH|]; intuition congruence. Qed.
Lemma srt_In {A} (ltb : A -> A -> bool) l y : In y (sort ltb l) <-> In y l.
Proof. induction l as [|x l IH]; cbn [sort]; [tauto|]. rewrite ins_In, IH. cbn. intuition congruence. Qed.
Lemma ddp_In l y : In y (dedup ci_eqb l) -> In y l.
Proof.
  revert y. induction l as [|x l IH]; intros y; cbn [dedup]; [tauto|]. destruct (dedup ci_eqb l) as [|z r].
  - intros [->|[]]. now left.
  - destruct (ci_eqb x z); intros [->|H]; [now left | right; apply IH; now right | now left | right; now apply IH].
Qed.
Lemma ddp_cover l y : In y l -> exists y', In y' (dedup ci_eqb l) /\ ci_eqb y' y = true.
Proof.
  induction l as [|x l IH]; cbn [dedup]; [contradiction|]. intros [->|H].
  - exists y. split; [|apply ci_eqb_refl]. destruct (dedup ci_eqb l) as [|z r]; [now left|]. destruct (ci_eqb y z); now left.
  - destruct (IH H) as (y' & H1 & H2). destruct (dedup ci_eqb l) as [|z r]; [contradiction|]. destruct (ci_eqb x z) eqn:E.
    + destruct H1 as [->|H1]; [exists x; split; [now left|]; eapply ci_eqb_trans; eassumption | exists y'; split; [now right|assumption]].
    + exists y'. split; [now right|assumption].
Qed.
Lemma unique_str_spec l : (forall y, In y (unique_str l) -> In y l) /\
  (forall y, In y l -> exists y', In y' (unique_str l) /\ ci_eqb y' y = true).
Proof.
  unfold unique_str, unique. split; intros y H.
  - apply ddp_In in H. now rewrite srt_In in H.
  - apply ddp_cover. now rewrite srt_In.
Qed.
Lemma split_plain s : Forall plain (split s " " false).
Proof.
  rewrite split_no_empties. apply Forall_forall. intros p Hp. apply filter_In in Hp as [H1 H2].
  destruct (split_pieces " " s) as [H3 _]. cbv zeta in H3. rewrite Forall_forall in H3. split; [|now apply H3]. destruct p; discriminate.
Qed.
Lemma map_outcome_F2 {A B} (f : A -> outcome B) l r : map_outcome f l = Ok r -> Forall2 (fun x y => f x = Ok y) l r.
Proof.
  revert r. induction l as [|x l IH]; intros r; cbn [map_outcome].
  - intros H; injection H as <-. constructor.
  - destruct (f x) eqn:E; cbn [obind]; try discriminate. destruct (map_outcome f l) eqn:E2; cbn [obind]; try discriminate.
    intros H; injection H as <-. constructor; auto.
Qed.

Definition denotes (reg : list center) (tokens : list str) (h : list center) : Prop :=
  good h /\ (forall d, closed h d <-> closed_in reg tokens d) /\ (forall d, opened h d <-> opened_in reg tokens d).

Lemma parts_denote st src parts : reg_inv st -> map_outcome (of_center st) (unique_str (split src " " false)) = Ok parts ->
  denotes (hd_list st) (split src " " false) parts /\ Forall (fun p => In p (hd_list st) /\ plain (c_name p)) parts.
Proof.
  intros Hi E. apply map_outcome_F2 in E. destruct (unique_str_spec (split src " " false)) as [U1 U2].
  pose proof (split_plain src) as Hp. rewrite Forall_forall in Hp.
  set (toks := split src " " false) in *. set (u := unique_str toks) in *. clearbody u toks.
  assert (H1 : forall p, In p parts -> exists t, In t u /\ of_center st t = Ok p).
  { clear -E. induction E; [intros p []|]. intros p [->|H']; [exists x; split; [now left|assumption] |].
    destruct (IHE p H') as (t & ? & ?). exists t. split; [now right|assumption]. }
  assert (H2 : forall t, In t u -> exists p, In p parts /\ of_center st t = Ok p).
  { clear -E. induction E; [intros p []|]. intros p [->|H']; [exists y; split; [now left|assumption] |].
    destruct (IHE p H') as (t & ? & ?). exists t. split; [now right|assumption]. }
  assert (P : Forall (fun p => In p (hd_list st) /\ plain (c_name p)) parts).
  { apply Forall_forall. intros p Hin. destruct (H1 p Hin) as (t & Ht & Ho). apply of_center_iff in Ho as [Ho1 Ho2]; [|assumption].
    split; [assumption|]. eapply plain_same; [apply same_sym; exact Ho2|]. apply Hp. now apply U1. }
  assert (G : forall (sel : center -> list Z) d, (exists c, In c parts /\ In d (sel c)) <->
    (exists t c, In t toks /\ In c (hd_list st) /\ same_up_to_case (c_name c) t /\ In d (sel c))).
  { intros sel d. split.
    - intros (c & Hc & Hd). destruct (H1 c Hc) as (t & Ht & Ho). apply of_center_iff in Ho as [Ho1 Ho2]; [|assumption]. exists t, c. auto.
    - intros (t & c & Ht & Hc & Hs & Hd). destruct (U2 t Ht) as (t' & Ht' & Et). apply ci_eqb_iff in Et.
      destruct (H2 t' Ht') as (p & Hp1 & Hp2). assert (Ho : of_center st t' = Ok c).
      { apply of_center_iff; [assumption|]. split; [assumption|]. eapply same_trans; [exact Hs | now apply same_sym]. }
      rewrite Hp2 in Ho. injection Ho as ->. exists c. auto. }
  split; [|assumption]. split; [|split; intros d; apply G].
  apply Forall_forall. intros p Hin. destruct Hi as (_ & _ & Hg). unfold good in Hg. rewrite Forall_forall in Hg. apply Hg.
  rewrite Forall_forall in P. now apply P.
Qed.
Lemma mk_holidays_denotes st co src h : reg_inv st -> cache_ok (hd_list st) co -> mk_holidays st co src = Ok h ->
  denotes (hd_list st) (split src " " false) h /\
  exists ps, Forall (fun p => In p (hd_list st) /\ plain (c_name p)) ps /\ hols_name h = hols_name ps /\
    (forall d, closed h d <-> closed ps d) /\ (forall d, opened h d <-> opened ps d) /\ good ps /\
    (forall c, map_find co (hols_name h) = Some c -> good_center c /\ (forall d, closed [c] d <-> closed ps d) /\ (forall d, opened [c] d <-> opened ps d)).
Proof.
  intros Hi Hc E. unfold mk_holidays in E.
  destruct (map_outcome (of_center st) (unique_str (split src " " false))) as [parts| | |] eqn:Em; cbn [obind] in E; try discriminate.
  destruct (parts_denote st src parts Hi Em) as [Hden Hps].
  assert (Hfind2 : forall c n, ci_eqb (hols_name parts) n = true -> map_find co n = Some c ->
     ci_eqb (hols_name parts) (c_name c) = true /\ good_center c /\ (forall d, closed [c] d <-> closed parts d) /\ (forall d, opened [c] d <-> opened parts d)).
  { intros c n Hn Hf. apply map_find_in in Hf as (m & H1 & H2). destruct (Hc _ _ H1) as (ps & H3 & -> & H4 & H5 & H6 & H7).
    assert (ps = parts). { eapply parts_by_name; [apply Hi | eassumption | eassumption |]. eapply ci_eqb_trans; [exact H2|]. rewrite ci_eq_sym. exact Hn. }
    subst. rewrite H4. repeat split; auto using ci_eqb_refl; try apply H5; try apply H6; try apply H7. }
  assert (Hgp : good parts) by apply Hden.
  injection E as <-. destruct (1 <? Z.of_nat (length parts)) eqn:El.
  - destruct (map_find co (hols_name parts)) as [c|] eqn:Ef.
    + destruct (Hfind2 c (hols_name parts) (ci_eqb_refl _) Ef) as (Hn & Hgc & Hcl & Hop).
      apply map_find_in in Ef as (m & H1 & H2). destruct (Hc _ _ H1) as (ps & H3 & -> & H4 & H5 & H6 & H7).
      assert (ps = parts) by (eapply parts_by_name; [apply Hi | eassumption | eassumption | exact H2]). subst ps.
      split.
      * destruct Hden as (_ & D1 & D2). split; [repeat constructor; apply Hgc|]. split; intros d; [rewrite <- D1 | rewrite <- D2]; auto.
      * exists parts. assert (Hname : hols_name [c] = hols_name parts) by (unfold hols_name at 1; cbn; exact H4).
        rewrite Hname. split; [exact Hps|]. split; [reflexivity|]. split; [exact Hcl|]. split; [exact Hop|]. split; [exact Hgp|].
        intros c' Hc'. exact (proj2 (Hfind2 c' _ (ci_eqb_refl _) Hc')).
    + split; [assumption|]. exists parts. split; [exact Hps|]. split; [reflexivity|]. split; [reflexivity|]. split; [reflexivity|].
      split; [exact Hgp|]. intros c' Hc'. exact (proj2 (Hfind2 c' _ (ci_eqb_refl _) Hc')).
  - split; [assumption|]. exists parts. split; [exact Hps|]. split; [reflexivity|]. split; [reflexivity|]. split; [reflexivity|].
    split; [exact Hgp|]. intros c' Hc'. exact (proj2 (Hfind2 c' _ (ci_eqb_refl _) Hc')).
Qed.
Lemma cache_grow reg more co : cache_ok reg co -> cache_ok (reg ++ more) co.
Proof.
  intros H n c Hin. destruct (H n c Hin) as (ps & Hps & Hr). exists ps. split; [|assumption].
  eapply Forall_impl; [|exact Hps]. intros p [? ?]. split; [apply in_or_app; now left | assumption].
Qed.
Lemma reach_inv st co : reach st co -> reg_inv st /\ cache_ok (hd_list st) co.
Proof.
  induction 1 as [|st co city hols wws Hr [IH1 IH2] Hh Hw|st co src h Hr [IH1 IH2] Hm].
  - split; [apply reg_inv_empty|]. intros n c [].
  - destruct (add_center_spec st city hols wws IH1 Hh Hw) as [(_ & _ & E & Hi)|[_ E]].
    + split; [assumption|]. rewrite E. now apply cache_grow.
    + rewrite E. auto.
  - split; [assumption|]. destruct (mk_holidays_denotes st co src h IH1 IH2 Hm) as [[Hgh _] (ps & Hps & Hn & Hcl & Hop & Hgp & _)].
    unfold count_ctor. destruct (map_find co (hols_name h)) as [c|]; cbn [fst]; [assumption|].
    intros n c [E|Hin]; [|now apply IH2]. injection E as <- <-. exists ps. split; [assumption|]. split; [assumption|]. split; [reflexivity|].
    split; [now apply merged_good|]. split; intros d; [rewrite merged_closed | rewrite merged_opened]; auto.
Qed.
(** Counting with the cached merged calendar counts the business days of the named centres. *)
Lemma count_denotes st co src h b e : reach st co -> mk_holidays st co src = Ok h -> 0 <= b <= e -> e < 65536 ->
  tally (business_in (hd_list st) (split src " " false)) b e (count_bus_days (snd (count_ctor co h)) b e).
Proof.
  intros Hr Hm Hb He. apply reach_inv in Hr as [Hi Hc].
  destruct (mk_holidays_denotes st co src h Hi Hc Hm) as [(Hgh & D1 & D2) (ps & Hps & Hn & Hcl & Hop & Hgp & Hf)].
  assert (Hx : good_center (snd (count_ctor co h)) /\ (forall d, closed [snd (count_ctor co h)] d <-> closed h d) /\
    (forall d, opened [snd (count_ctor co h)] d <-> opened h d)).
  { unfold count_ctor. destruct (map_find co (hols_name h)) as [c|] eqn:E; cbn [snd].
    - destruct (Hf c eq_refl) as (H1 & H2 & H3). split; [assumption|]. split; intros d; [rewrite H2; symmetry; auto | rewrite H3; symmetry; auto].
    - split; [now apply merged_good|]. split; intros d; [apply merged_closed | apply merged_opened]. }
  destruct Hx as (H1 & H2 & H3). eapply tally_iff; [|apply count_bus_days_tally; assumption].
  intros d. unfold business, business_in. rewrite H2, H3, D1, D2. reflexivity.
Qed.
Lemma denotes_business reg toks h d : denotes reg toks h -> (business h d <-> business_in reg toks d).
Proof. intros (_ & D1 & D2). unfold business, business_in. rewrite D1, D2. reflexivity. Qed.
