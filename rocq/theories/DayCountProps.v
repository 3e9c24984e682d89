(** C07: day-count fractions. *)
From Coq Require Import ZArith QArith Bool Lia Lqa.
From Verif Require Import Base DateModel DateSpec DateCivil DayCountModel DayCountSpec DayCountProofs.
Open Scope Z_scope.

(** ACT/360 and ACT/365F: days over a fixed denominator, for every pair of dates. *)
Theorem C07_act_fixed : forall k from to info, 0 <= from < 65536 -> 0 <= to < 65536 ->
  day_count k ACT_360 from to info = Ok ((inject_Z (to - from) / 360)%Q) /\
  day_count k ACT_365F from to info = Ok ((inject_Z (to - from) / 365)%Q).
Proof. intros k from to info _ _. unfold day_count, ratio, date_diff, to_excel. replace (to + EXCEL_OFFSET - (from + EXCEL_OFFSET)) with (to - from) by lia. split; reflexivity. Qed.
Print Assumptions C07_act_fixed.
Theorem C07_act_fixed_additive : forall k b a m c i x y z, b = ACT_360 \/ b = ACT_365F ->
  day_count k b a c i = Ok x -> day_count k b a m i = Ok y -> day_count k b m c i = Ok z -> (x == y + z)%Q.
Proof.
  intros k b a m c i x y z [-> | ->] H1 H2 H3; injection H1 as <-; injection H2 as <-; injection H3 as <-;
  unfold ratio, date_diff, to_excel; rewrite !inject_Z_plus || idtac; unfold Qeq; cbn; lia.
Qed.
Print Assumptions C07_act_fixed_additive.

(** ACT/ACT equals the ISDA rule (every day weighs one over the length of its year) ... *)
Theorem C07_act_act_isda : forall a b i, 1 <= a <= b -> b < 65536 -> same_era (year a) (year b) ->
  forall k, year b - year a < Z.of_nat k -> exists q, day_count k ACT_ACT a b i = Ok q /\ isda a b q.
Proof. intros a b i Ha Hb He k Hk. exact (act_act_era k a b Ha Hb He Hk). Qed.
Print Assumptions C07_act_act_isda.
Theorem C07_act_act_isda_within_year : forall a b i, 1 <= a <= b -> b < 65536 -> year a = year b -> 2035 <= year a <= 2099 ->
  forall k, (0 < k)%nat -> exists q, day_count k ACT_ACT a b i = Ok q /\ isda a b q.
Proof. intros a b i Ha Hb E Hy [|k] Hk; [lia|]. exact (act_act_once k a b Ha Hb Hy (eq_sym E)). Qed.
Print Assumptions C07_act_act_isda_within_year.
(** ... hence it is additive over a split, non-negative, and zero on an empty period. *)
Theorem C07_act_act_additive : forall a m c i, 1 <= a <= m -> m <= c -> c < 65536 -> same_era (year a) (year c) ->
  exists x y z, day_count 64 ACT_ACT a c i = Ok x /\ day_count 64 ACT_ACT a m i = Ok y /\ day_count 64 ACT_ACT m c i = Ok z /\
    (x == y + z)%Q /\ (0 <= x)%Q /\ (a = c -> (x == 0)%Q).
Proof.
  intros a m c i Ha Hm Hc He.
  pose proof (year_mono a m ltac:(lia) ltac:(lia)). pose proof (year_mono m c ltac:(lia) ltac:(lia)).
  destruct (act_act_era 64 a c) as (x & Ex & Ix); [lia|lia|assumption|unfold same_era in He; lia|].
  destruct (act_act_era 64 a m) as (y & Ey & Iy); [lia|lia|unfold same_era in *; lia|unfold same_era in He; lia|].
  destruct (act_act_era 64 m c) as (z & Ez & Iz); [lia|lia|unfold same_era in *; lia|unfold same_era in He; lia|].
  exists x, y, z. repeat split; auto.
  - exact (isda_fun _ _ _ _ Ix (isda_trans _ _ _ _ _ Iy Iz)).
  - exact (isda_nonneg _ _ _ Ix).
  - intros ->. apply (isda_fun _ _ _ _ Ix). constructor. reflexivity.
Qed.
Print Assumptions C07_act_act_additive.
Example C07_act_act_example : year 18900 = 2021 /\ year 19800 = 2024 /\ same_era 2021 2024 /\
  day_count 4 ACT_ACT 18900 19800 None = Ok (ratio 94 365 + (ratio 365 365 + (ratio 365 365 + ratio 76 366)))%Q.
Proof. split; [vm_compute; reflexivity|]. split; [vm_compute; reflexivity|]. split; [left; lia|]. vm_compute. reflexivity. Qed.

(** ACT/ACT over any year end from 2034/35 to 2099/2100 never returns (1 January is built as 31 December), nor does
    any period ending after 1 January 2149. *)
Theorem C07_act_act_terminates_refuted : forall a b i, 1 <= a < 65536 -> 1 <= b < 65536 ->
  year a <= 2099 /\ 2035 <= year b /\ year a < year b \/ 65380 < b ->
  forall k, day_count k ACT_ACT a b i = OutOfFuel.
Proof. intros a b i Ha Hb [(H1 & H2 & H3)|H] k; [exact (act_act_mid k a b Ha Hb H1 H2 H3) | exact (act_act_end k a b Ha ltac:(lia))]. Qed.
Print Assumptions C07_act_act_terminates_refuted.
Example C07_act_act_terminates_example : ymd 25720 = (2040, 6, 1) /\ ymd 26085 = (2041, 6, 1) /\ ymd 65380 = (2149, 1, 1).
Proof. vm_compute. repeat split. Qed.
(** In 2034 the denominator is 364 instead of 365. *)
Theorem C07_act_act_isda_refuted : exists a b q, ymd a = (2034, 2, 1) /\ ymd b = (2034, 3, 1) /\ day_count 5 ACT_ACT a b None = Ok q /\
  ~ isda a b q /\ (q == 28 # 364)%Q.
Proof.
  exists 23408, 23436. eexists. split; [vm_compute; reflexivity|]. split; [vm_compute; reflexivity|]. split; [vm_compute; reflexivity|].
  split; [|vm_compute; reflexivity]. intros H.
  pose proof (isda_ratio 2034 23408 23436 ltac:(lia) ltac:(vm_compute; discriminate) ltac:(vm_compute; discriminate) ltac:(lia)) as H2.
  pose proof (isda_fun _ _ _ _ H H2) as E. vm_compute in E. discriminate.
Qed.
Print Assumptions C07_act_act_isda_refuted.

(** ACT/365L, annual coupons: the denominator is 366 when the first end of February inside the period is a 29th,
    365 when no February ends strictly inside; otherwise the computation never returns. *)
Theorem C07_act_365l_annual_partial : forall from e f y, 1 <= from < 65535 -> 0 <= e < 65536 ->
  feb_end f y -> from < f -> (forall f' y', feb_end f' y' -> from < f' -> f <= f') -> y <= 2033 \/ 2101 <= y <= 2148 ->
  forall to k,
  (e <= f -> day_count (S k) ACT_365L from to (Some (Context e 12)) = Ok (ratio (to - from) 365)) /\
  (f < e -> leap y = true -> day_count (S k) ACT_365L from to (Some (Context e 12)) = Ok (ratio (to - from) 366)) /\
  (f < e -> leap y = false -> day_count k ACT_365L from to (Some (Context e 12)) = OutOfFuel).
Proof.
  intros from e f y Hs He Hf Hlt Hmin Hy to k. destruct (annual_days_l_spec from e f y Hs He Hf Hlt Hmin Hy) as (A & B & C).
  unfold day_count, act_365l. cbn [coupon_months nominal_end]. change (12 =? 12) with true. cbv iota.
  replace (date_diff to from) with (to - from) by (unfold date_diff, to_excel; lia).
  split; [|split]; intros H1; [rewrite (A H1 k)|intros L; rewrite (B H1 L k)|intros L; rewrite (C H1 L k)]; reflexivity.
Qed.
Print Assumptions C07_act_365l_annual_partial.
Example C07_act_365l_example : ymd 18629 = (2021, 1, 1) /\ ymd 18994 = (2022, 1, 1) /\
  annual_days_l 1 18629 18994 = OutOfFuel /\ annual_days_l 100 18629 18994 = OutOfFuel /\
  ymd 19632 = (2023, 10, 1) /\ annual_days_l 1 19632 19998 = Ok 366.
Proof. vm_compute. repeat split. Qed.
(** A plain calendar-year period such as 2021-01-01 to 2022-01-01 hangs. *)
(** ACT/365L, other coupons: the denominator is the length of the calendar year of the period's nominal end. *)
Theorem C07_act_365l_other_coupons : forall k from to e y m d months, 1 <= from < 65536 -> 1 <= to < 65536 -> 1 <= e < 65536 ->
  day_at e (y, m, d) -> months <> 12 -> 1970 <= y <= 2033 \/ 2035 <= y <= 2099 \/ 2101 <= y <= 2148 ->
  day_count k ACT_365L from to (Some (Context e months)) = Ok (inject_Z (to - from) / inject_Z (year_length y))%Q.
Proof.
  intros k from to e y m d months Hf Ht He Hd Hm Hy. unfold day_count, act_365l. cbn [coupon_months nominal_end].
  apply Z.eqb_neq in Hm. rewrite Hm. unfold days_l.
  assert (Ey : year e = y).
  { apply year_unique; [exact He|]. unfold day_at in Hd. pose proof (civil_facts _ _ Hd) as (_ & Hv & E & _).
    pose proof (daynum_in_year _ _ _ Hv). lia. }
  rewrite Ey, !mk_jan1 by lia. unfold ratio, date_diff, to_excel, EXCEL_OFFSET. pose proof (J_succ y) as HJ.
  cbn [obind]. f_equal. f_equal; [f_equal; lia|]. f_equal.
  destruct (2035 <=? y + 1) eqn:E1, (y + 1 <=? 2100) eqn:E2, (2035 <=? y) eqn:E3, (y <=? 2100) eqn:E4; cbn [andb]; lia.
Qed.
Print Assumptions C07_act_365l_other_coupons.
Example C07_act_365l_other_example : day_at 19784 (2024, 3, 1) /\ day_count 1 ACT_365L 19600 19784 (Some (Context 19784 6)) = Ok (inject_Z 184 / inject_Z 366)%Q.
Proof. split; [unfold day_at; apply civil_iff; split; [reflexivity|]; split; [cbn; lia|vm_compute; reflexivity]|vm_compute; reflexivity]. Qed.
(** In the year 2034 (and 2100) it is one day off. *)
Theorem C07_act_365l_other_coupons_refuted : exists from to e, ymd e = (2034, 2, 1) /\ days_l e = 364 /\
  day_count 1 ACT_365L from to (Some (Context e 6)) = Ok (inject_Z (to - from) / 364)%Q.
Proof. exists 23224, 23408, 23408. vm_compute. repeat split. Qed.
Print Assumptions C07_act_365l_other_coupons_refuted.
Theorem C07_act_365l_terminates_refuted : exists from e, ymd from = (2021, 1, 1) /\ ymd e = (2022, 1, 1) /\
  forall to k, day_count k ACT_365L from to (Some (Context e 12)) = OutOfFuel.
Proof.
  exists 18629, 18994. split; [vm_compute; reflexivity|]. split; [vm_compute; reflexivity|]. intros to k.
  assert (Hf : feb_end 18687 2021) by (apply feb_end_J; [lia|]; split; [lia|reflexivity]).
  apply (C07_act_365l_annual_partial 18629 18994 18687 2021 ltac:(lia) ltac:(lia) Hf ltac:(lia)); [|left; lia|lia|reflexivity].
  intros f' y' Hf' Hlt. apply feb_end_J in Hf'; [|lia]. destruct Hf' as [H1 H2].
  destruct (Z_lt_le_dec y' 2021) as [L|L].
  - pose proof (J_mono (y' + 1) 2021 ltac:(lia)) as M. rewrite J_succ in M. change (J 2021) with 18629 in M. rewrite feb_len_year in H2.
    pose proof (year_length_pos y'). lia.
  - pose proof (J_mono 2021 y' ltac:(lia)) as M. change (J 2021) with 18629 in M. rewrite feb_len_year in H2. pose proof (year_length_pos y'). lia.
Qed.
Print Assumptions C07_act_365l_terminates_refuted.
(** A leap day that is the end date itself is not counted. *)
Theorem C07_act_365l_leap_end_refuted : exists from e, ymd from = (2023, 3, 1) /\ ymd e = (2024, 2, 29) /\ annual_days_l 1 from e = Ok 365.
Proof. exists 19418, 19783. vm_compute. repeat split. Qed.
Print Assumptions C07_act_365l_leap_end_refuted.

(** 30/360: agrees with the published rule exactly when the month-end clauses do not matter. *)
Theorem C07_bond_agrees_iff : forall a b, 1 <= a < 65536 -> 1 <= b < 65536 ->
  year a <> 2034 -> year a <> 2100 -> year b <> 2034 -> year b <> 2100 ->
  forall y1 m1 d1 y2 m2 d2, ymd a = (y1, m1, d1) -> ymd b = (y2, m2, d2) ->
  (bond_days a b = thirty_360 (ymd a) (ymd b) <->
   ~ (d1 = 31 /\ d2 <> 31) /\ ~ ((d1 = 30 \/ last_of_feb y1 m1 d1 = true) /\ d2 = 31)).
Proof. exact bond_spec. Qed.
Print Assumptions C07_bond_agrees_iff.
Theorem C07_bond_value : forall k a b i, day_count k BOND a b i = Ok (ratio (bond_days a b) 360).
Proof. reflexivity. Qed.
Print Assumptions C07_bond_value.
Theorem C07_bond_refuted : exists a b, ymd a = (2022, 1, 31) /\ ymd b = (2022, 2, 28) /\ bond_days a b = 27 /\ thirty_360 (ymd a) (ymd b) = 28.
Proof. exists 19024, 19052. vm_compute. repeat split. Qed.
Print Assumptions C07_bond_refuted.
Example C07_bond_example : ymd 19008 = (2022, 1, 15) /\ ymd 19782 = (2024, 2, 28) /\ bond_days 19008 19782 = 763 /\ thirty_360 (2022, 1, 15) (2024, 2, 28) = 763.
Proof. vm_compute. repeat split. Qed.
