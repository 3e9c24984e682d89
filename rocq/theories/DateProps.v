(** C01-C03: calendar dates. *)
From Coq Require Import String ZArith List Bool Lia.
From Verif Require Import Base DateModel DateSpec DateProofs DateCivil.
Open Scope Z_scope.

(** * C01 *)
(** Every valid stored date reads as the Gregorian day counted from 1970-01-01. *)
Theorem C01_read_is_gregorian : forall s, 1 <= s < 65536 -> civil (s - 1) (year s, month s, day s).
Proof. exact read_is_gregorian. Qed.
Print Assumptions C01_read_is_gregorian.
Example C01_read_example : (year 18322, month 18322, day 18322) = (2020, 2, 29).
Proof. vm_compute. reflexivity. Qed.

(** The full round trip "build then read" is false ... *)
Theorem C01_build_then_read_refuted :
  exists y m d, supported (y, m, d) /\ (year (mk_date y m d), month (mk_date y m d), day (mk_date y m d)) <> (y, m, d).
Proof. exact build_then_read_refuted. Qed.
Print Assumptions C01_build_then_read_refuted.

(** ... and it holds exactly outside 2034-03-01 .. 2100-02-28. *)
Theorem C01_build_then_read : forall y m d, supported (y, m, d) ->
  ((year (mk_date y m d), month (mk_date y m d), day (mk_date y m d)) = (y, m, d) <->
   ~ (ymd_ltb (y, m, d) (2034, 3, 1) = false /\ ymd_ltb (2100, 2, 28) (y, m, d) = false)).
Proof. exact build_then_read_iff'. Qed.
Print Assumptions C01_build_then_read.
Example C01_build_example : supported (2020, 2, 29) /\ in_bad_window (2020, 2, 29) = false /\
  supported (2050, 6, 15) /\ in_bad_window (2050, 6, 15) = true.
Proof. repeat split. Qed.

(** Inside the window the built date is exactly one day early. *)
Theorem C01_build_in_window_is_previous_day : forall y m d, supported (y, m, d) -> in_bad_window (y, m, d) = true ->
  next_day (ymd (mk_date y m d)) = (y, m, d).
Proof. exact build_one_day_early. Qed.
Print Assumptions C01_build_in_window_is_previous_day.

(** Days outside the supported range give the invalid date. *)
Theorem C01_build_out_of_range_invalid : forall y m d, valid_ymd (y, m, d) = true ->
  (-1000000 <= y < 1970 \/ ymd_ltb last_day (y, m, d) = true) -> is_valid (mk_date y m d) = false.
Proof. exact build_out_of_range. Qed.
Print Assumptions C01_build_out_of_range_invalid.
Example C01_out_of_range_example : is_valid (mk_date 2149 6 6) = false /\ is_valid (mk_date 1969 12 31) = false /\
  is_valid (mk_date 2149 6 5) = true /\ is_valid (mk_date 1970 1 1) = true.
Proof. vm_compute. repeat split. Qed.

Theorem C01_read_then_build : forall s, 1 <= s < 65536 ->
  mk_date (year s) (month s) (day s) = if in_bad_window (ymd s) then s - 1 else s.
Proof. exact read_then_build'. Qed.
Print Assumptions C01_read_then_build.

Theorem C01_excel_round_trip :
  (forall s, 1 <= s < 65536 -> from_excel (to_excel s) = s) /\
  (forall x, is_valid (from_excel x) = true -> to_excel (from_excel x) = x).
Proof. exact excel_round_trip. Qed.
Print Assumptions C01_excel_round_trip.
Example C01_excel_example : is_valid (from_excel 43890) = true /\ ymd (from_excel 43890) = (2020, 2, 29).
Proof. vm_compute. split; reflexivity. Qed.

(** Text: parsing the printed date gives the date back, except in the bad window (one day early). *)
Theorem C01_string_round_trip : forall s, 1 <= s < 65536 ->
  from_string (to_string s) = Ok (if in_bad_window (ymd s) then s - 1 else s) /\ is_date_string (to_string s) = true.
Proof. exact string_round_trip. Qed.
Print Assumptions C01_string_round_trip.
Example C01_string_example : to_string 18322 = "2020-02-29"%string /\ from_string "2020-02-29" = Ok 18322 /\
  from_string "02/29/20" = Ok 18322 /\ from_string "2020-02" = Throw /\ from_string "2000000-01-01" = UB.
Proof. vm_compute. repeat split. Qed.

(** * C02 *)
Theorem C02_day_arithmetic : forall s n k, 0 <= s < 65536 -> 0 <= s + n < 65536 -> 0 <= s + n + k < 65536 ->
  date_diff (add_days s n) s = n /\ add_days (add_days s n) k = add_days s (n + k) /\
  add_days (add_days s n) (- n) = s.
Proof. exact day_arithmetic. Qed.
Print Assumptions C02_day_arithmetic.
Theorem C02_diff_then_add : forall a b, 0 <= a < 65536 -> 0 <= b < 65536 -> add_days a (date_diff b a) = b.
Proof. exact diff_then_add. Qed.
Print Assumptions C02_diff_then_add.
(** Adding days moves along the calendar. *)
Theorem C02_add_days_calendar : forall s n, 1 <= s < 65536 -> 1 <= s + n < 65536 -> civil (s - 1 + n) (ymd (add_days s n)).
Proof. exact add_days_calendar. Qed.
Print Assumptions C02_add_days_calendar.
Example C02_add_days_example : ymd (add_days (mk_date 2023 12 31) 60) = (2024, 2, 29).
Proof. vm_compute. reflexivity. Qed.
Theorem C02_increment_is_next_day : forall s, 1 <= s < 65535 -> ymd (incr s) = next_day (ymd s) /\ decr (incr s) = s.
Proof. exact incr_next_day. Qed.
Print Assumptions C02_increment_is_next_day.
Theorem C02_order_agrees : forall a b, 1 <= a < 65536 -> 1 <= b < 65536 ->
  date_ltb a b = ymd_ltb (ymd a) (ymd b) /\ (date_eqb a b = true <-> ymd a = ymd b).
Proof. exact order_agrees. Qed.
Print Assumptions C02_order_agrees.
(** Sunday = 0; the day [n] days after Thursday 1970-01-01 has weekday (n + 4) mod 7. *)
Theorem C02_day_of_week : forall s n t, 1 <= s < 65536 -> civil n t -> ymd s = t -> day_of_week s = (n + 4) mod 7.
Proof. exact day_of_week_civil. Qed.
Print Assumptions C02_day_of_week.
Theorem C02_weekend : forall s, 1 <= s < 65536 -> (is_weekend s = true <-> day_of_week s = 0 \/ day_of_week s = 6).
Proof. exact weekend_spec. Qed.
Print Assumptions C02_weekend.
Example C02_weekday_example : day_of_week 1 = 4 /\ day_of_week (mk_date 2024 2 29) = 4 /\ is_weekend (mk_date 2024 3 2) = true.
Proof. vm_compute. repeat split. Qed.
(** Past the last representable day the arithmetic silently wraps: the result is an earlier date. *)
Theorem C02_wraps_refuted : exists s n, 1 <= s < 65536 /\ 0 < n /\ is_valid (add_days s n) = true /\
  date_ltb (add_days s n) s = true.
Proof. exact add_days_wraps. Qed.
Print Assumptions C02_wraps_refuted.

(** * C03 *)
(** Exact value of DaysInMonth in the supported range: wrong for February 2034 (27) and February 2100 (29) only. *)
Theorem C03_days_in_month : forall y m, 1970 <= y -> 1 <= m <= 12 -> month_index y m < month_index 2149 6 ->
  days_in_month y m = month_len y m + (if month_index y m =? month_index 2034 2 then -1 else 0)
                                    + (if month_index y m =? month_index 2100 2 then 1 else 0).
Proof. exact days_in_month_spec. Qed.
Print Assumptions C03_days_in_month.
Theorem C03_days_in_month_refuted :
  days_in_month 2034 2 = 27 /\ month_len 2034 2 = 28 /\ days_in_month 2100 2 = 29 /\ month_len 2100 2 = 28.
Proof. exact days_in_month_refuted. Qed.
Print Assumptions C03_days_in_month_refuted.
Theorem C03_end_of_month : forall s y m d, 1 <= s < 65536 -> ymd s = (y, m, d) -> month_index y m < month_index 2149 6 ->
  month_index y m < month_index 2034 2 \/ month_index 2100 2 <= month_index y m ->
  ymd (end_of_month s) = (y, m, month_len y m).
Proof. exact end_of_month_spec. Qed.
Print Assumptions C03_end_of_month.
Theorem C03_end_of_month_refuted : exists s, 1 <= s < 65536 /\ ymd s = (2040, 5, 10) /\ ymd (end_of_month s) = (2040, 5, 30).
Proof. exact end_of_month_refuted. Qed.
Print Assumptions C03_end_of_month_refuted.
(** Adding months: exactly n months later, day kept or clamped, end of month preserved on request. *)
Theorem C03_add_months : forall s n f y m d y' m',
  1 <= s < 65536 -> ymd s = (y, m, d) ->
  month_index y' m' = month_index y m + n -> 1 <= m' <= 12 -> good_month y' m' ->
  (f = true -> month_index y m <> month_index 2034 2 /\ month_index y m <> month_index 2100 2 /\ month_index y m <> month_index 2149 6) ->
  ymd (add_months s n f) =
    (y', m', if f && (d =? month_len y m) then month_len y' m' else Z.min d (month_len y' m')).
Proof. exact add_months_spec. Qed.
Print Assumptions C03_add_months.
Example C03_add_months_example :
  ymd (add_months (mk_date 2023 1 31) 13 false) = (2024, 2, 29) /\
  ymd (add_months (mk_date 2023 2 28) (-3) true) = (2022, 11, 30) /\
  good_month 2024 2 /\ month_index 2024 2 = month_index 2023 1 + 13.
Proof. vm_compute. repeat split; try discriminate; left; reflexivity. Qed.
Theorem C03_add_months_refuted : exists s, ymd s = (2033, 8, 15) /\ ymd (add_months s 12 false) = (2034, 8, 14).
Proof. exact add_months_refuted. Qed.
Print Assumptions C03_add_months_refuted.
