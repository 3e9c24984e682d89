(** C04, C05, C06, C09, C10: calendars. *)
From Coq Require Import String Ascii ZArith List Bool Lia ZifyBool Sorted.
From Verif Require Import Base DateModel DateSpec StringModel StringSpec HolidayModel HolidaySpec HolidayProofs HolidayRegistry HolidayRoll.
Import ListNotations.
Open Scope Z_scope.

(** The running example: Chinese-style calendar around National Day 2022 (holidays 3-7 October, working Saturday 8
    and Sunday 9 October) and a second centre closed on 3 and 10 October. *)
Definition cn : center := Center (lit "CN.IB") (zrange 19269 5) [19274; 19275].
Definition jp : center := Center (lit "TKY") [19269; 19276] [].
Definition weekend_b (d : Z) : bool := (weekday d =? 0) || (weekday d =? 6).
Lemma weekend_b_iff d : weekend_b d = true <-> weekend d.
Proof. unfold weekend_b, weekend. rewrite orb_true_iff, !Z.eqb_eq. tauto. Qed.
Definition good_b (c : center) : bool :=
  is_monotonic Z.ltb (c_hols c) && is_monotonic Z.ltb (c_wws c) &&
  forallb (fun d => (0 <=? d) && (d <? 65536) && negb (weekend_b d)) (c_hols c) &&
  forallb (fun d => (0 <=? d) && (d <? 65536) && weekend_b d) (c_wws c).
Lemma good_b_ok h : forallb good_b h = true -> good h.
Proof.
  intros H. apply Forall_forall. intros c Hc. rewrite forallb_forall in H. specialize (H c Hc).
  unfold good_b in H. rewrite !andb_true_iff, !forallb_forall in H. destruct H as [[[H1 H2] H3] H4].
  split; [now apply monotonic_iff|]. split; [now apply monotonic_iff|]. split; apply Forall_forall; intros d Hd.
  - specialize (H3 d Hd). rewrite !andb_true_iff, negb_true_iff in H3. split; [lia|]. rewrite <- weekend_b_iff. destruct H3. congruence.
  - specialize (H4 d Hd). rewrite !andb_true_iff in H4. split; [lia|]. rewrite <- weekend_b_iff. tauto.
Qed.
Lemma good_example : good [cn; jp].
Proof. apply good_b_ok. vm_compute. reflexivity. Qed.

(** * C04 *)
Theorem C04_next_business_day : forall h from, good h -> 0 <= from < 65536 ->
  (exists d, from <= d < 65536 /\ business h d) ->
  exists r, next_bus h from = Ok r /\ from <= r < 65536 /\ business h r /\ (forall d, from <= d < r -> ~ business h d).
Proof. exact next_bus_spec. Qed.
Print Assumptions C04_next_business_day.
Theorem C04_previous_business_day : forall h from, good h -> 0 <= from < 65536 ->
  (exists d, 0 <= d <= from /\ business h d) ->
  exists r, prev_bus h from = Ok r /\ 0 <= r <= from /\ business h r /\ (forall d, r < d <= from -> ~ business h d).
Proof. exact prev_bus_spec. Qed.
Print Assumptions C04_previous_business_day.
Example C04_example : good [cn; jp] /\ next_bus_fuel 20 [cn; jp] 19267 = Ok 19274 /\ prev_bus_fuel 20 [cn; jp] 19273 = Ok 19266 /\
  next_bus_fuel 20 [cn; jp] 19276 = Ok 19277.
Proof. split; [exact good_example|]. vm_compute. repeat split. Qed.

(** Business days are left unchanged (so both adjustments are idempotent) ... *)
Theorem C04_business_day_fixed : forall h d, good h -> 0 <= d < 65536 -> business h d -> next_bus h d = Ok d /\ prev_bus h d = Ok d.
Proof. exact next_bus_fix. Qed.
Print Assumptions C04_business_day_fixed.
(** ... and the adjustments are monotone. *)
Theorem C04_next_monotone : forall h a b ra rb, good h -> 0 <= a <= b -> b < 65536 -> (exists d, b <= d < 65536 /\ business h d) ->
  next_bus h a = Ok ra -> next_bus h b = Ok rb -> ra <= rb.
Proof. exact next_bus_monotone. Qed.
Print Assumptions C04_next_monotone.
Theorem C04_previous_monotone : forall h a b ra rb, good h -> 0 <= a <= b -> b < 65536 -> (exists d, 0 <= d <= a /\ business h d) ->
  prev_bus h a = Ok ra -> prev_bus h b = Ok rb -> ra <= rb.
Proof. exact prev_bus_monotone. Qed.
Print Assumptions C04_previous_monotone.
(** The search ends exactly when the calendar has a business day at all. *)
Theorem C04_terminates_iff : forall h from, good h -> 0 <= from < 65536 ->
  (next_bus h from <> OutOfFuel <-> exists d, 0 <= d < 65536 /\ business h d) /\
  (prev_bus h from <> OutOfFuel <-> exists d, 0 <= d < 65536 /\ business h d).
Proof. intros h from Hg Hf. split; [exact (next_bus_terminates h from Hg Hf) | exact (prev_bus_terminates h from Hg Hf)]. Qed.
Print Assumptions C04_terminates_iff.
(** Past the last business day of the 16-bit range the search wraps round to the invalid date. *)
Theorem C04_end_of_range_refuted : exists h from, good h /\ is_valid from = true /\ next_bus h from = Ok 0 /\ is_valid 0 = false.
Proof.
  exists [Center (lit "X") [65535] []], 65535. split.
  - apply good_b_ok. vm_compute. reflexivity.
  - split; [reflexivity|]. split; [|reflexivity].
    exact (next_fuel_found [Center (lit "X") [65535] []] cycle 65535 1 ltac:(lia) ltac:(rewrite cycle_Z; lia)
             ltac:(intros j Hj; replace j with 0 by lia; reflexivity) eq_refl).
Qed.
Print Assumptions C04_end_of_range_refuted.
(** A calendar text like "LON NYC" denotes exactly the registered centres it names, whatever has been merged and
    cached before. *)
Theorem C04_calendar_text : forall st cache src h, reach st cache -> mk_holidays st cache src = Ok h ->
  good h /\ forall d, business h d <-> business_in (hd_list st) (split src " "%char false) d.
Proof.
  intros st cache src h Hr Hm. destruct (reach_inv st cache Hr) as [Hi Hc].
  destruct (mk_holidays_denotes st cache src h Hi Hc Hm) as [Hd _]. split; [apply Hd|]. intros d. now apply denotes_business.
Qed.
Print Assumptions C04_calendar_text.
Example C04_text_example :
  let st := run [(lit "CN.IB", zrange 19269 5, [19274; 19275]); (lit "TKY", [19269; 19276], [])] in
  mk_holidays st [] (lit "tky  cn.ib") = Ok [cn; jp] /\ reach st [].
Proof.
  split; [vm_compute; reflexivity|]. apply reach_add; [apply reach_add; [apply reach_init| |]| |]; repeat constructor; discriminate.
Qed.

(** * C05 *)
Theorem C05_count_is_enumeration : forall c b e, good_center c -> 0 <= b <= e -> e < 65536 ->
  tally (business [c]) b e (count_bus_days c b e).
Proof. exact count_bus_days_tally. Qed.
Print Assumptions C05_count_is_enumeration.
(** For any calendar text, after any history of registrations and counters. *)
Theorem C05_count_merged_calendar : forall st cache src h b e, reach st cache -> mk_holidays st cache src = Ok h -> 0 <= b <= e -> e < 65536 ->
  tally (business_in (hd_list st) (split src " "%char false)) b e (count_bus_days (snd (count_ctor cache h)) b e).
Proof. exact count_denotes. Qed.
Print Assumptions C05_count_merged_calendar.
Theorem C05_tally_determined : forall P a b n m, tally P a b n -> tally P a b m -> m = n.
Proof. intros P a b n m Hn Hm. exact (tally_fun P a b n Hn m Hm). Qed.
Print Assumptions C05_tally_determined.
Theorem C05_reversed_interval_is_zero : forall c b e, e <= b -> count_bus_days c b e = 0.
Proof. intros c b e H. unfold count_bus_days. apply Z.leb_le in H. now rewrite H. Qed.
Print Assumptions C05_reversed_interval_is_zero.
Example C05_example : let c := snd (count_ctor [] [cn; jp]) in
  c_hols c = [19269; 19270; 19271; 19272; 19273; 19276] /\ count_bus_days c 19266 19280 = 6.
Proof. vm_compute. split; reflexivity. Qed.

(** * C06 *)
Theorem C06_nth_business_day_after : forall h n d r, good h -> 0 <= d -> r < 65536 -> 1 <= n -> nth_after h d n r ->
  n_bus_days_fwd n h d = Ok r /\ start_from_fix h n d = Ok r.
Proof. exact n_bus_fwd. Qed.
Print Assumptions C06_nth_business_day_after.
Theorem C06_nth_business_day_before : forall h n d r, good h -> d < 65536 -> 0 <= r -> 1 <= n -> nth_before h d n r ->
  n_bus_days_back n h d = Ok r /\ fix_date_from_start h n d = Ok r.
Proof. exact n_bus_back. Qed.
Print Assumptions C06_nth_business_day_before.
Theorem C06_zero_is_adjustment : forall h d, good h ->
  n_bus_days_fwd 0 h d = (if hols_neqb h hols_none then next_bus h d else Ok d) /\
  n_bus_days_back 0 h d = (if hols_neqb h hols_none then prev_bus h d else Ok d) /\
  start_from_fix h 0 d = next_bus h d /\ fix_date_from_start h 0 d = prev_bus h d.
Proof. exact zero_bus_days. Qed.
Print Assumptions C06_zero_is_adjustment.
Theorem C06_forward_then_back : forall h n d r, good h -> 0 <= d -> r < 65536 -> 1 <= n -> business h d -> nth_after h d n r ->
  (do x <- n_bus_days_fwd n h d; n_bus_days_back n h x) = Ok d /\
  (do x <- start_from_fix h n d; fix_date_from_start h n x) = Ok d.
Proof. exact fwd_back. Qed.
Print Assumptions C06_forward_then_back.
Example C06_example : nth_after [cn; jp] 19266 2 19275 /\ business [cn; jp] 19266.
Proof.
  assert (B : forall d, 0 <= d < 65536 -> (bus_test [cn; jp] d = true <-> business [cn; jp] d)) by (intros d; apply bus_test_iff; exact good_example).
  split.
  - split; [lia|]. split; [apply B; [lia|reflexivity]|].
    apply (proj2 (tally_bus [cn; jp] 19267 19276 2 good_example ltac:(lia) ltac:(lia))). reflexivity.
  - apply B; [lia|reflexivity].
Qed.
(** Starting from a holiday the round trip does not come back (the statement above needs a business day). *)
Theorem C06_from_holiday_refuted : exists h d n r, good h /\ ~ business h d /\ nth_after h d n r /\ ~ nth_before h r n d.
Proof.
  exists [cn; jp], 19269, 1, 19274.
  assert (B : forall d, 0 <= d < 65536 -> (bus_test [cn; jp] d = true <-> business [cn; jp] d)) by (intros d; apply bus_test_iff; exact good_example).
  assert (N : ~ business [cn; jp] 19269) by (rewrite <- B by lia; discriminate).
  split; [exact good_example|]. split; [exact N|]. split.
  - split; [lia|]. split; [apply B; [lia|reflexivity]|].
    apply (proj2 (tally_bus [cn; jp] 19270 19275 1 good_example ltac:(lia) ltac:(lia))). reflexivity.
  - intros (_ & H & _). exact (N H).
Qed.
Print Assumptions C06_from_holiday_refuted.

(** * C09 *)
(** The IMM day of a month is its third Wednesday. *)
Theorem C09_imm_day_is_third_wednesday : forall y m, sound_month y m -> third_wednesday (y, m, imm_day y m).
Proof. intros y m H. exact (proj2 (imm_day_spec y m H)). Qed.
Print Assumptions C09_imm_day_is_third_wednesday.
Example C09_imm_example : sound_month 2022 9 /\ imm_day 2022 9 = 21.
Proof. split; [|vm_compute; reflexivity]. repeat split; try discriminate. left. reflexivity. Qed.
(** In the months damaged by the construction defect of C01 it can be the second one. *)
Theorem C09_imm_day_refuted : exists y m, 1 <= m <= 12 /\ ymd (mk_date y m (imm_day y m)) = (2050, 9, 14) /\
  third_wednesday (2050, 9, 21) /\ ~ third_wednesday (2050, 9, 14).
Proof.
  exists 2050, 9. split; [lia|]. split; [vm_compute; reflexivity|]. split.
  - split; [reflexivity|]. split; [cbn; lia|]. exists 29483. split; [|reflexivity]. apply DateCivil.civil_iff. repeat split; discriminate.
  - intros (_ & H & _). cbn in H. lia.
Qed.
Print Assumptions C09_imm_day_refuted.

(** Monthly IMM (k = 1): always the nearest roll date strictly after / before.  Quarterly IMM (k = 3): the same,
    provided the start is in a quarterly month or past its month's IMM day. *)
Theorem C09_imm_forward : forall k s y m d, k = 1 \/ k = 3 -> 1 <= s < 65536 -> ymd s = (y, m, d) ->
  (forall y' m', 1 <= m' <= 12 -> month_index y m <= month_index y' m' <= month_index y m + k -> sound_month y' m') ->
  m mod k = 0 \/ (exists d', third_wednesday (y, m, d') /\ d' <= d) ->
  exists r, to_imm s true k = Ok r /\ s < r < 65536 /\ third_wednesday (ymd r) /\ month r mod k = 0 /\
    forall t, s < t < r -> ~ (third_wednesday (ymd t) /\ month t mod k = 0).
Proof. exact to_imm_forward. Qed.
Print Assumptions C09_imm_forward.
Theorem C09_imm_backward : forall k s y m d, k = 1 \/ k = 3 -> 1 <= s < 65536 -> ymd s = (y, m, d) ->
  (forall y' m', 1 <= m' <= 12 -> month_index y m - k <= month_index y' m' <= month_index y m -> sound_month y' m') ->
  m mod k = 0 \/ (exists d', third_wednesday (y, m, d') /\ d <= d') ->
  exists r, to_imm s false k = Ok r /\ 1 <= r < s /\ third_wednesday (ymd r) /\ month r mod k = 0 /\
    forall t, r < t < s -> ~ (third_wednesday (ymd t) /\ month t mod k = 0).
Proof. exact to_imm_backward. Qed.
Print Assumptions C09_imm_backward.
Theorem C09_cds_forward : forall s y m d, 1 <= s < 65536 -> ymd s = (y, m, d) ->
  (forall y' m', 1 <= m' <= 12 -> month_index y m <= month_index y' m' <= month_index y m + 3 -> sound_month y' m') ->
  m mod 3 = 0 \/ 20 <= d ->
  exists r, to_cds s true = Ok r /\ s < r < 65536 /\ day r = 20 /\ month r mod 3 = 0 /\
    forall t, s < t < r -> ~ (day t = 20 /\ month t mod 3 = 0).
Proof. exact to_cds_forward. Qed.
Print Assumptions C09_cds_forward.
Theorem C09_cds_backward : forall s y m d, 1 <= s < 65536 -> ymd s = (y, m, d) ->
  (forall y' m', 1 <= m' <= 12 -> month_index y m - 3 <= month_index y' m' <= month_index y m -> sound_month y' m') ->
  m mod 3 = 0 \/ d <= 20 ->
  exists r, to_cds s false = Ok r /\ 1 <= r < s /\ day r = 20 /\ month r mod 3 = 0 /\
    forall t, r < t < s -> ~ (day t = 20 /\ month t mod 3 = 0).
Proof. exact to_cds_backward. Qed.
Print Assumptions C09_cds_backward.
Example C09_roll_example : ymd 19091 = (2022, 4, 8) /\ to_imm 19091 true 1 = Ok (mk_date 2022 4 20) /\
  ymd 19166 = (2022, 6, 22) /\ to_imm 19166 true 3 = Ok (mk_date 2022 9 21) /\ to_cds 19166 true = Ok (mk_date 2022 9 20) /\
  to_cds 19166 false = Ok (mk_date 2022 6 20).
Proof. vm_compute. repeat split. Qed.
(** From a day early in a non-quarterly month, the quarterly rolls stay in that month: 10 January 2022 gives 19 and
    20 January. *)
Theorem C09_quarterly_roll_refuted : exists s, ymd s = (2022, 1, 10) /\
  to_imm s true 3 = Ok (mk_date 2022 1 19) /\ to_cds s true = Ok (mk_date 2022 1 20) /\ month (mk_date 2022 1 19) mod 3 <> 0.
Proof. exists 19003. vm_compute. repeat split; discriminate. Qed.
Print Assumptions C09_quarterly_roll_refuted.
(** End of month: backward is the last day of the previous month; forward does not move from a month end. *)
Theorem C09_eom_backward : forall s y m d, 1 <= s < 65536 -> ymd s = (y, m, d) -> sound_month y m -> (y, m) <> (1970, 1) ->
  next_day (ymd (to_eom s false)) = (y, m, 1) /\ to_eom s false < s.
Proof. exact to_eom_back. Qed.
Print Assumptions C09_eom_backward.
Theorem C09_eom_forward_refuted : exists s, 1 <= s < 65536 /\ to_eom s true = s.
Proof. exists (mk_date 2022 9 30). vm_compute. repeat split; discriminate. Qed.
Print Assumptions C09_eom_forward_refuted.

(** * C10 *)
(** After any sequence of registrations the registry holds exactly the accepted centres, in order ... *)
Theorem C10_registry_contents : forall ops reg, dates_ok ops -> registered ops reg -> hd_list (run ops) = reg.
Proof. exact run_registered. Qed.
Print Assumptions C10_registry_contents.
Theorem C10_registered_exists : forall ops, dates_ok ops -> exists reg, registered ops reg.
Proof. intros ops H. exists (hd_list (run ops)). exact (registered_total ops H). Qed.
Print Assumptions C10_registered_exists.
(** ... each is found under its name in any case, with its lists, and nothing else is found. *)
Theorem C10_lookup : forall ops reg k c, dates_ok ops -> registered ops reg ->
  (of_center (run ops) k = Ok c <-> In c reg /\ same_up_to_case (c_name c) k).
Proof.
  intros ops reg k c H Hr. rewrite <- (run_registered ops reg H Hr). exact (of_center_iff (run ops) k c (run_inv ops H)).
Qed.
Print Assumptions C10_lookup.
Theorem C10_outcome : forall ops reg city hols wws, dates_ok (ops ++ [(city, hols, wws)]) -> registered ops reg ->
  (acceptable reg city hols wws /\ snd (add_center (run ops) city hols wws) = Ok tt) \/
  (~ acceptable reg city hols wws /\ add_center (run ops) city hols wws = (run ops, Throw)).
Proof.
  intros ops reg city hols wws H Hr. rewrite <- (run_registered ops reg); [exact (outcome_matches ops city hols wws H) | | exact Hr].
  now apply Forall_app in H as [H _].
Qed.
Print Assumptions C10_outcome.
Theorem C10_index_stable : forall ops more k i, dates_ok (ops ++ more) -> center_index (run ops) k = Ok i ->
  center_index (run (ops ++ more)) k = Ok i.
Proof. exact index_stable. Qed.
Print Assumptions C10_index_stable.
Theorem C10_centres_well_formed : forall ops, dates_ok ops -> good (hd_list (run ops)).
Proof. intros ops H. apply (run_inv ops H). Qed.
Print Assumptions C10_centres_well_formed.
Example C10_example :
  let ops := [(lit "CN.IB", zrange 19269 5, [19274; 19275]); (lit "BAD", [19274], []); (lit "cn.ib", [], []); (lit "TKY", [19269; 19276], [])] in
  dates_ok ops /\ hd_list (run ops) = [cn; jp] /\ of_center (run ops) (lit "tky") = Ok jp /\ of_center (run ops) (lit "BAD") = Throw.
Proof. split; [repeat constructor; discriminate | vm_compute; repeat split]. Qed.
(** Two threads registering at once: both calls succeed and one centre is lost. *)
Theorem C10_concurrent_registration_refuted : exists a b st, racing_adds hd_empty a b = Some st /\
  of_center st (fst (fst a)) = Throw /\ prepare hd_empty (fst (fst a)) (snd (fst a)) (snd a) <> None.
Proof.
  exists (lit "A", [], []), (lit "B", [], []). eexists. split; [vm_compute; reflexivity|]. split; vm_compute; [reflexivity|discriminate].
Qed.
Print Assumptions C10_concurrent_registration_refuted.
