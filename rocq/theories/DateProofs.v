(** Proofs for DateProps. *)
From Coq Require Import String Ascii ZArith List Bool Lia ZifyBool.
From Verif Require Import Base DateModel DateSpec DateFloat DateCivil.
Open Scope Z_scope.
Ltac Zify.zify_post_hook ::= Z.div_mod_to_equations.

Lemma civil_last : civil 65534 last_day.
Proof. apply civil_iff. repeat split; try reflexivity. cbn; lia. Qed.

Lemma supported_civil t : supported t -> exists n, civil n t /\ 0 <= n <= 65534.
Proof.
  intros (Hv & H0 & H1). assert (Hy : 1970 <= fst (fst t)).
  { destruct t as [[y m] d]. apply valid_iff in Hv. cbn [fst]. unfold ymd_ltb in H0. lia. }
  exists (daynum t). pose proof (civil_of_daynum t Hv Hy) as Hc. split; [assumption|].
  rewrite (civil_ltb _ _ _ _ civil_last Hc) in H1. apply civil_facts in Hc. lia.
Qed.

Lemma civil_supported n t : civil n t -> n <= 65534 -> supported t.
Proof.
  intros Hc Hn. pose proof (civil_facts _ _ Hc) as (H1 & H2 & H3 & H4). repeat split; [assumption| |].
  - rewrite (civil_ltb _ _ _ _ Hc civil_0). lia.
  - rewrite (civil_ltb _ _ _ _ civil_last Hc). lia.
Qed.

Lemma supported_year y m d : supported (y, m, d) -> 1970 <= y <= 2149 /\ 1 <= m <= 12 /\ 1 <= d <= month_len y m.
Proof.
  intros (Hv & H0 & H1). apply valid_iff in Hv. unfold ymd_ltb, last_day in *. lia.
Qed.

Lemma mk_date_civil n y m d : civil n (y, m, d) -> n <= 65534 ->
  mk_date y m d = n + 1 - (if in_bad_window (y, m, d) then 1 else 0).
Proof.
  intros Hc Hn. pose proof (civil_supported _ _ Hc Hn) as Hs. pose proof (supported_year _ _ _ Hs) as (Hy & Hm & Hd).
  pose proof (civil_facts _ _ Hc) as (Hn0 & _ & Hdn & _).
  unfold mk_date, serial_from_ymd. rewrite from_ymd_daynum by lia.
  rewrite (century_error_window y m d) by lia. rewrite Hdn.
  assert (in_bad_window (y, m, d) = true -> 1 <= n).
  { intros W. unfold in_bad_window in W. apply andb_true_iff in W. destruct W as [W _].
    destruct (Z.eq_dec n 0) as [->|]; [|lia]. rewrite <- (civil_fun _ _ _ civil_0 Hc) in W. discriminate. }
  unfold u16, EXCEL_OFFSET.
  destruct (in_bad_window (y, m, d)).
  - specialize (H eq_refl). replace (n + 25569 - 1 - 25568) with n by lia. rewrite Z.mod_small by lia.
    destruct (_ =? _) eqn:E; lia.
  - replace (n + 25569 - 0 - 25568) with (n + 1) by lia. rewrite Z.mod_small by lia.
    destruct (_ =? _) eqn:E; lia.
Qed.

Lemma mk_date_late y m d : valid_ymd (y, m, d) = true -> ymd_ltb last_day (y, m, d) = true -> mk_date y m d = 0.
Proof.
  intros Hv Hl. pose proof Hv as Hv'. apply valid_iff in Hv'. destruct Hv' as [Hm Hd].
  assert (Hy : 2149 <= y) by (unfold ymd_ltb, last_day in Hl; lia).
  pose proof (civil_of_daynum (y, m, d) Hv ltac:(cbn; lia)) as Hc.
  rewrite (civil_ltb _ _ _ _ civil_last Hc) in Hl.
  unfold mk_date, serial_from_ymd. rewrite from_ymd_daynum by lia.
  assert (He : century_error y m <= 1) by (unfold century_error; destruct (m <=? 2); lia).
  assert (He' : y = 2149 -> century_error y m = 0) by (intros ->; unfold century_error; destruct (m <=? 2); reflexivity).
  assert (Hlarge : 2150 <= y -> 65744 <= daynum (y, m, d)).
  { intros Hy2. assert (C0 : civil 65744 (2150, 1, 1)) by (apply civil_iff; repeat split; cbn; lia).
    destruct (Z.le_gt_cases 65744 (daynum (y, m, d))) as [G|G]; [assumption|].
    pose proof (civil_lt _ _ _ _ Hc C0 G) as L. unfold ymd_ltb in L. lia. }
  unfold u16, EXCEL_OFFSET. destruct (_ =? _) eqn:E; lia.
Qed.

Lemma mk_date_early y m d : -1000000 <= y < 1970 -> 1 <= m <= 12 -> 1 <= d <= 31 -> mk_date y m d = 0.
Proof.
  intros Hy Hm Hd.
  assert (H : excel_date_from_ymd y m d <= 25568).
  { destruct (Z.le_gt_cases 1600 y).
    - rewrite from_ymd_daynum by lia.
      assert (He : 0 <= century_error y m) by (unfold century_error; destruct (m <=? 2); lia).
      assert (Hmd : mdays m + d <= 365) by (month_split Hm; unfold mdays; cbn [Z.eqb Pos.eqb]; lia).
      assert (Hl : 0 <= leap_extra y) by (unfold leap_extra; destruct (leap y); lia).
      assert (Hb : leaps_before (y + 1) <= 477) by (unfold leaps_before; lia).
      unfold daynum.
      assert (Hx : (if (2 <? m) && leap y then 1 else 0) <= leap_extra y)
        by (unfold leap_extra; destruct (2 <? m), (leap y); cbn; lia).
      rewrite leap_extra_eq in *. lia.
    - unfold excel_date_from_ymd.
      assert (Hk : Z.quot (m - 14) 12 = -1 \/ Z.quot (m - 14) 12 = 0) by (month_split Hm; (left; reflexivity) || (right; reflexivity)).
      assert (H3 : Z.quot (367 * (m - 2 - 12 * Z.quot (m - 14) 12)) 12 <= 367)
        by (month_split Hm; vm_compute; discriminate).
      cbv zeta. generalize dependent (Z.quot (367 * (m - 2 - 12 * Z.quot (m - 14) 12)) 12). intros q Hq.
      generalize dependent (Z.quot (m - 14) 12). intros k Hk.
      assert (A : 4 * Z.quot (1461 * (y + k)) 4 <= 1461 * (y + k) + 3).
      { pose proof (Z.quot_rem' (1461 * (y + k)) 4). pose proof (Z.rem_bound_abs (1461 * (y + k)) 4 ltac:(lia)). lia. }
      rewrite Z.quot_quot by lia.
      assert (B : 3 * (y + 4900 + k) - 400 <= 400 * Z.quot (3 * (y + 4900 + k)) (100 * 4)).
      { change (100 * 4) with 400.
        pose proof (Z.quot_rem' (3 * (y + 4900 + k)) 400). pose proof (Z.rem_bound_abs (3 * (y + 4900 + k)) 400 ltac:(lia)). lia. }
      lia. }
  unfold mk_date, serial_from_ymd, u16, EXCEL_OFFSET. destruct (_ =? _) eqn:E; lia.
Qed.

(** ** C01 *)
Lemma build_then_read y m d : supported (y, m, d) -> in_bad_window (y, m, d) = false ->
  is_valid (mk_date y m d) = true /\ ymd (mk_date y m d) = (y, m, d).
Proof.
  intros Hs Hw. destruct (supported_civil _ Hs) as (n & Hc & Hn).
  rewrite (mk_date_civil n y m d) by (assumption || lia). rewrite Hw. split; [unfold is_valid; lia|].
  replace (n + 1 - 0) with (n + 1) by lia.
  pose proof (ymd_civil (n + 1) ltac:(lia)) as Hy. replace (n + 1 - 1) with n in Hy by lia.
  apply (civil_fun _ _ _ Hy Hc).
Qed.

Lemma build_one_day_early y m d : supported (y, m, d) -> in_bad_window (y, m, d) = true ->
  next_day (ymd (mk_date y m d)) = (y, m, d).
Proof.
  intros Hs Hw. destruct (supported_civil _ Hs) as (n & Hc & Hn).
  rewrite (mk_date_civil n y m d) by (assumption || lia). rewrite Hw.
  assert (H1 : 1 <= n).
  { destruct (Z.eq_dec n 0) as [->|]; [|lia]. rewrite <- (civil_fun _ _ _ civil_0 Hc) in Hw. discriminate. }
  replace (n + 1 - 1) with n by lia. pose proof (ymd_civil n ltac:(lia)) as Hy. apply civil_S in Hy.
  replace (n - 1 + 1) with n in Hy by lia. apply (civil_fun _ _ _ Hy Hc).
Qed.

Lemma next_day_neq t : valid_ymd t = true -> next_day t <> t.
Proof. intros H E. pose proof (ymd_ltb_next t H) as L. rewrite E, ymd_ltb_irrefl in L. discriminate. Qed.

Lemma ymd_valid s : 1 <= s < 65536 -> valid_ymd (ymd s) = true.
Proof. intros H. apply ymd_civil in H. apply civil_facts in H. tauto. Qed.

Lemma build_then_read_iff y m d : supported (y, m, d) ->
  (ymd (mk_date y m d) = (y, m, d) <-> ~ (ymd_ltb (y, m, d) (2034, 3, 1) = false /\ ymd_ltb (2100, 2, 28) (y, m, d) = false)).
Proof.
  intros Hs. destruct (in_bad_window (y, m, d)) eqn:Hw.
  - split; [|].
    + intros E. pose proof (build_one_day_early _ _ _ Hs Hw) as N. rewrite E in N.
      apply next_day_neq in N; [contradiction | apply Hs].
    + intros C. exfalso. apply C. unfold in_bad_window in Hw. apply andb_true_iff in Hw. destruct Hw as [W1 W2].
      split; [destruct (ymd_ltb (y, m, d) (2034, 3, 1)); [discriminate|reflexivity]|].
      unfold ymd_ltb in *. pose proof (supported_year _ _ _ Hs) as (Hy & Hm & Hd).
      unfold month_len, leap in Hd.
      destruct (Z.eq_dec y 2100) as [->|]; [|lia].
      destruct (Z.eq_dec m 2) as [->|]; [cbn in Hd|]; lia.
  - split; [|intros _; apply (build_then_read _ _ _ Hs Hw)].
    intros _ [W1 W2]. unfold in_bad_window in Hw. rewrite W1 in Hw. cbn [negb andb] in Hw. unfold ymd_ltb in *. lia.
Qed.

Lemma read_then_build s : 1 <= s < 65536 ->
  let '(y, m, d) := ymd s in mk_date y m d = (if in_bad_window (y, m, d) then s - 1 else s).
Proof.
  intros H. pose proof (ymd_civil s H) as Hc. destruct (ymd s) as [[y m] d].
  rewrite (mk_date_civil _ _ _ _ Hc) by lia. destruct (in_bad_window _); lia.
Qed.

(** ** Text round trip *)
Lemma digit_cases n : 0 <= n <= 9 -> is_digit (digit n) = true /\ Z.of_N (N_of_ascii (digit n)) - 48 = n.
Proof.
  intros H. assert (n = 0 \/ n = 1 \/ n = 2 \/ n = 3 \/ n = 4 \/ n = 5 \/ n = 6 \/ n = 7 \/ n = 8 \/ n = 9) as C by lia.
  repeat (destruct C as [->|C]; [split; reflexivity|]). subst; split; reflexivity.
Qed.

Lemma digit_ok n : 0 <= n <= 9 -> is_digit (digit n) = true.
Proof. intros; apply digit_cases; assumption. Qed.
Lemma digit_val n : 0 <= n <= 9 -> Z.of_N (N_of_ascii (digit n)) - 48 = n.
Proof. intros; apply digit_cases; assumption. Qed.

Lemma span_pad2 n r : 0 <= n <= 99 ->
  span_digits (pad2 n ++ String "-" r)%string = (pad2 n, String "-" r) /\ span_digits (pad2 n) = (pad2 n, EmptyString).
Proof.
  intros H. unfold pad2. cbn [append span_digits]. rewrite !digit_ok by lia.
  change (is_digit "-") with false. split; reflexivity.
Qed.
Lemma span_pad4 n r : 1000 <= n <= 9999 -> span_digits (pad4 n ++ String "-" r)%string = (pad4 n, String "-" r).
Proof.
  intros H. unfold pad4. cbn [append span_digits]. rewrite !digit_ok by lia.
  destruct (span_pad2 (n mod 100) r) as [-> _]; [lia|]. reflexivity.
Qed.

Lemma parse_ymd_text y m d : 1000 <= y <= 9999 -> 0 <= m <= 99 -> 0 <= d <= 99 ->
  match3 "/" (pad4 y ++ String "-" (pad2 m ++ String "-" (pad2 d)))%string = None /\
  match3 "-" (pad4 y ++ String "-" (pad2 m ++ String "-" (pad2 d)))%string = Some (pad4 y, pad2 m, pad2 d).
Proof.
  intros Hy Hm Hd. unfold match3. rewrite span_pad4 by assumption. split; [reflexivity|].
  cbn [pad4]. change (Ascii.eqb "-" "-") with true. cbn iota beta.
  destruct (span_pad2 m (String "-" (pad2 d)%string) Hm) as [_ _].
  destruct (span_pad2 m (pad2 d) Hm) as [-> _]. cbn [pad2].
  change (Ascii.eqb "-" "-") with true. cbn iota beta.
  destruct (span_pad2 d EmptyString Hd) as [_ H]. unfold pad2 in H at 1. cbn [pad2] in H. unfold pad2 in *.
  rewrite H. reflexivity.
Qed.

Lemma stoi_pad4 y : 1000 <= y <= 9999 -> stoi (pad4 y) = Ok y.
Proof.
  intros H. unfold stoi, pad4, pad2. cbn [dec_value]. rewrite !digit_val by lia.
  match goal with |- (if ?a <=? _ then _ else _) = _ => replace a with y by lia end.
  destruct (_ <=? _) eqn:E; [reflexivity|lia].
Qed.
Lemma stoi_pad2 y : 0 <= y <= 99 -> stoi (pad2 y) = Ok y.
Proof.
  intros H. unfold stoi, pad2. cbn [dec_value]. rewrite !digit_val by lia.
  match goal with |- (if ?a <=? _ then _ else _) = _ => replace a with y by lia end.
  destruct (_ <=? _) eqn:E; [reflexivity|lia].
Qed.

Lemma mk_date_checked_ok y m d : -1000000 <= y <= 1000000 -> 1 <= m <= 12 -> 1 <= d <= 31 ->
  mk_date_checked y m d = Ok (mk_date y m d).
Proof.
  intros Hy Hm Hd. unfold mk_date_checked.
  assert (Hk : Z.quot (m - 14) 12 = -1 \/ Z.quot (m - 14) 12 = 0) by (month_split Hm; (left; reflexivity) || (right; reflexivity)).
  assert (H3 : 0 <= Z.quot (367 * (m - 2 - 12 * Z.quot (m - 14) 12)) 12 <= 367)
    by (month_split Hm; vm_compute; split; discriminate).
  unfold excel_date_from_ymd. cbv zeta.
  generalize dependent (Z.quot (367 * (m - 2 - 12 * Z.quot (m - 14) 12)) 12). intros q Hq.
  generalize dependent (Z.quot (m - 14) 12). intros k Hk.
  assert (A : - 1500000000 <= 4 * Z.quot (1461 * (y + k)) 4 <= 1500000000).
  { pose proof (Z.quot_rem' (1461 * (y + k)) 4). pose proof (Z.rem_bound_abs (1461 * (y + k)) 4 ltac:(lia)). lia. }
  rewrite Z.quot_quot by lia.
  assert (B : -10000000 <= 400 * Z.quot (3 * (y + 4900 + k)) (100 * 4) <= 10000000).
  { change (100 * 4) with 400.
    pose proof (Z.quot_rem' (3 * (y + 4900 + k)) 400). pose proof (Z.rem_bound_abs (3 * (y + 4900 + k)) 400 ltac:(lia)). lia. }
  generalize dependent (Z.quot (3 * (y + 4900 + k)) (100 * 4)). intros r Hr.
  generalize dependent (Z.quot (1461 * (y + k)) 4). intros p Hp.
  unfold int_range, EXCEL_OFFSET.
  match goal with |- (if ?b then _ else _) = _ => replace b with true by lia end. reflexivity.
Qed.

Lemma string_round_trip s : 1 <= s < 65536 ->
  from_string (to_string s) = Ok (if in_bad_window (ymd s) then s - 1 else s) /\ is_date_string (to_string s) = true.
Proof.
  intros H. pose proof (read_then_build s H) as Hr. pose proof (ymd_civil s H) as Hc.
  assert (Hs : supported (ymd s)) by (eapply civil_supported; [eassumption|lia]).
  unfold to_string. destruct (ymd s) as [[y m] d]. pose proof (supported_year _ _ _ Hs) as (Hy & Hm & Hd).
  pose proof (month_len_range y m).
  unfold from_string, is_date_string. destruct (parse_ymd_text y m d) as [-> ->]; try lia. split; [|reflexivity].
  rewrite stoi_pad4, !stoi_pad2 by lia. cbn [obind]. rewrite mk_date_checked_ok by lia. rewrite Hr. reflexivity.
Qed.

(** ** C02 *)
Lemma add_days_in s n : 0 <= s < 65536 -> 0 <= s + n < 65536 -> add_days s n = s + n.
Proof. intros H1 H2. unfold add_days, u16. lia. Qed.

Lemma incr_in s : 0 <= s < 65535 -> incr s = s + 1.
Proof. intros. unfold incr, u16. lia. Qed.
Lemma decr_in s : 1 <= s < 65536 -> decr s = s - 1.
Proof. intros. unfold decr, u16. lia. Qed.

Lemma day_of_week_spec s : 1 <= s < 65536 -> day_of_week s = ((s - 1) + 4) mod 7.
Proof. intros H. unfold day_of_week, to_excel, EXCEL_OFFSET. rewrite Z.rem_mod_nonneg by lia. lia. Qed.

Lemma order_agrees a b : 1 <= a < 65536 -> 1 <= b < 65536 ->
  date_ltb a b = ymd_ltb (ymd a) (ymd b) /\ (date_eqb a b = true <-> ymd a = ymd b).
Proof.
  intros Ha Hb. pose proof (ymd_civil a Ha) as Ca. pose proof (ymd_civil b Hb) as Cb. split.
  - rewrite (civil_ltb _ _ _ _ Ca Cb). unfold date_ltb. lia.
  - unfold date_eqb. rewrite Z.eqb_eq. split; [congruence|]. intros E. rewrite E in Ca.
    apply civil_facts in Ca, Cb. lia.
Qed.

(** ** C03 *)
Lemma mk_first y m : 1970 <= y <= 2149 -> 1 <= m <= 12 -> ymd_ltb last_day (y, m, 1) = false ->
  exists n, civil n (y, m, 1) /\ 0 <= n <= 65534.
Proof.
  intros Hy Hm Hl. apply supported_civil. repeat split; [apply valid_iff|unfold ymd_ltb; lia|assumption].
  pose proof (month_len_range y m). lia.
Qed.

Lemma civil_next_month n y m : civil n (y, m, 1) -> m < 12 -> civil (n + month_len y m) (y, m + 1, 1).
Proof.
  intros Hc Hm. pose proof (civil_facts _ _ Hc) as (H0 & Hv & Hd & Hy). apply valid_iff in Hv. cbn [fst] in Hy.
  apply civil_iff. repeat split.
  - apply valid_iff. pose proof (month_len_range y (m + 1)). lia.
  - cbn; lia.
  - rewrite <- Hd. rewrite (month_len_mdays y m) by lia. unfold daynum.
    destruct ((2 <? m + 1) && leap y), ((2 <? m) && leap y); lia.
Qed.

Lemma civil_next_year n y : civil n (y, 12, 1) -> civil (n + 31) (y + 1, 1, 1).
Proof.
  intros Hc. pose proof (civil_facts _ _ Hc) as (H0 & Hv & Hd & Hy). cbn [fst] in Hy.
  apply civil_iff. repeat split.
  - cbn; lia.
  - rewrite <- Hd. unfold daynum. rewrite leaps_succ. change (mdays 12) with 334. change (mdays 1) with 0.
    change (2 <? 12) with true. change (2 <? 1) with false. cbn [andb]. destruct (leap y); lia.
Qed.

Lemma civil_in_month n y m d : civil n (y, m, d) -> forall d', 1 <= d' <= month_len y m -> civil (n + d' - d) (y, m, d').
Proof.
  intros Hc d' Hd'. pose proof (civil_facts _ _ Hc) as (H0 & Hv & Hd & Hy). apply valid_iff in Hv. cbn [fst] in Hy.
  apply civil_iff. repeat split; [apply valid_iff; lia | assumption | unfold daynum in *; lia].
Qed.

Lemma days_in_month_spec y m : 1970 <= y -> 1 <= m <= 12 -> month_index y m < month_index 2149 6 ->
  days_in_month y m = month_len y m + (if (month_index y m =? month_index 2034 2) then -1 else 0)
                                    + (if (month_index y m =? month_index 2100 2) then 1 else 0).
Proof.
  intros Hy Hm Hi. unfold month_index in *. unfold days_in_month.
  destruct (m =? 12) eqn:E12.
  - assert (m = 12) by lia. subst. change (month_len y 12) with 31.
    destruct (12 * y + _ =? 12 * 2034 + _) eqn:E1; [lia|]. destruct (12 * y + _ =? 12 * 2100 + _) eqn:E2; [lia|]. reflexivity.
  - destruct (mk_first y m) as (n & Hc & Hn); [lia|lia|unfold ymd_ltb, last_day; lia|].
    pose proof (civil_next_month _ _ _ Hc ltac:(lia)) as Hc'.
    pose proof (month_len_range y m).
    assert (Hn' : n + month_len y m <= 65534).
    { destruct (Z.le_gt_cases (n + month_len y m) 65534); [assumption|].
      pose proof (civil_lt _ _ _ _ civil_last Hc' ltac:(lia)) as L. unfold ymd_ltb, last_day in L. lia. }
    rewrite (mk_date_civil _ _ _ _ Hc) by lia. rewrite (mk_date_civil _ _ _ _ Hc') by lia.
    unfold date_diff, to_excel, to_short, in_bad_window, ymd_ltb.
    destruct (negb _ && _) eqn:W1; destruct (negb _ && ((y <? 2100) || (y =? 2100) && ((m <? 3) || (m =? 3) && (1 <? 1)))) eqn:W2;
    destruct (12 * y + (m - 1) =? 12 * 2034 + (2 - 1)) eqn:M1; destruct (12 * y + (m - 1) =? 12 * 2100 + (2 - 1)) eqn:M2; lia.
Qed.

Lemma end_of_month_spec s y m d : 1 <= s < 65536 -> ymd s = (y, m, d) -> month_index y m < month_index 2149 6 ->
  month_index y m < month_index 2034 2 \/ month_index 2100 2 <= month_index y m ->
  ymd (end_of_month s) = (y, m, month_len y m).
Proof.
  intros Hs E Hi Hw. pose proof (ymd_civil s Hs) as Hc. rewrite E in Hc.
  pose proof (civil_facts _ _ Hc) as (H0 & Hv & Hd & Hy). apply valid_iff in Hv. cbn [fst] in Hy.
  pose proof (month_len_range y m). unfold month_index in *.
  assert (He : civil (s - 1 + month_len y m - d) (y, m, month_len y m)) by (apply (civil_in_month _ _ _ _ Hc); lia).
  assert (Hcap : s - 1 + month_len y m - d < 65534).
  { destruct (Z.lt_ge_cases (s - 1 + month_len y m - d) 65534) as [|G]; [assumption|].
    destruct (Z.eq_dec (s - 1 + month_len y m - d) 65534) as [E2|].
    - rewrite E2 in He. pose proof (civil_fun _ _ _ He civil_last) as F. unfold last_day in F. injection F. lia.
    - pose proof (civil_lt _ _ _ _ civil_last He ltac:(lia)) as L. unfold ymd_ltb, last_day in L. lia. }
  assert (H1st : civil (s - 1 + 1 - d) (y, m, 1)) by (apply (civil_in_month _ _ _ _ Hc); lia).
  unfold end_of_month, year, month. rewrite E. cbn [fst snd].
  assert (Hfin : forall q, q = s - 1 + month_len y m - d + 2 -> ymd (add_days q (-1)) = (y, m, month_len y m)).
  { intros q ->. rewrite add_days_in by lia.
    match goal with |- ymd ?a = _ => pose proof (ymd_civil a ltac:(lia)) as Hq end.
    match type of Hq with civil ?a _ => replace a with (s - 1 + month_len y m - d) in Hq by lia end.
    apply (civil_fun _ _ _ Hq He). }
  destruct (m =? 12) eqn:E12.
  - assert (m = 12) by lia. subst m. apply Hfin. change (month_len y 12) with 31 in *.
    pose proof (civil_next_year _ _ H1st) as Hny. rewrite (mk_date_civil _ _ _ _ Hny) by lia.
    replace (in_bad_window (y + 1, 1, 1)) with false by (unfold in_bad_window, ymd_ltb; lia). lia.
  - apply Hfin. pose proof (civil_next_month _ _ _ H1st ltac:(lia)) as Hnm.
    rewrite (mk_date_civil _ _ _ _ Hnm) by lia.
    replace (in_bad_window (y, m + 1, 1)) with false by (unfold in_bad_window, ymd_ltb; lia). lia.
Qed.

Lemma add_months_spec s n f y m d y' m' :
  1 <= s < 65536 -> ymd s = (y, m, d) ->
  month_index y' m' = month_index y m + n -> 1 <= m' <= 12 -> good_month y' m' ->
  (f = true -> month_index y m <> month_index 2034 2 /\ month_index y m <> month_index 2100 2 /\ month_index y m <> month_index 2149 6) ->
  ymd (add_months s n f) =
    (y', m', if f && (d =? month_len y m) then month_len y' m' else Z.min d (month_len y' m')).
Proof.
  intros Hs E Hidx Hm' Hg Hf. pose proof (ymd_civil s Hs) as Hc. rewrite E in Hc.
  pose proof (civil_facts _ _ Hc) as (H0 & Hv & Hd & Hy). apply valid_iff in Hv. cbn [fst] in Hy.
  unfold good_month, month_index in *.
  assert (Hlim : 12 * y + (m - 1) <= 12 * 2149 + (6 - 1)).
  { pose proof (civil_supported _ _ Hc ltac:(lia)) as (_ & _ & L). unfold ymd_ltb, last_day in L. lia. }
  assert (Hdim : days_in_month y' m' = month_len y' m').
  { rewrite days_in_month_spec; unfold month_index; try lia.
    destruct (12 * y' + _ =? 12 * 2034 + _) eqn:E1; [lia|]. destruct (12 * y' + _ =? 12 * 2100 + _) eqn:E2; lia. }
  assert (Heom : f = true -> days_in_month y m = month_len y m).
  { intros F. specialize (Hf F). rewrite days_in_month_spec; unfold month_index; try lia.
    destruct (12 * y + _ =? 12 * 2034 + _) eqn:E1; [lia|]. destruct (12 * y + _ =? 12 * 2100 + _) eqn:E2; lia. }
  unfold add_months, year, month, day. rewrite E. cbn [fst snd]. cbv zeta.
  assert (Hq : exists q r, Z.quot n 12 = q /\ n - 12 * q = r /\ -12 < r < 12).
  { exists (Z.quot n 12), (n - 12 * Z.quot n 12).
    pose proof (Z.quot_rem' n 12). pose proof (Z.rem_bound_abs n 12 ltac:(lia)). lia. }
  destruct Hq as (q & r & Hq1 & Hq2 & Hr). rewrite Hq1, Hq2.
  assert (Hfinal : (let '(yy2, mm2) := if 12 <? m + r then (y + q + 1, m + r - 12) else (y + q, m + r) in
                    if mm2 <? 1 then (yy2 - 1, mm2 + 12) else (yy2, mm2)) = (y', m')).
  { destruct (12 <? m + r) eqn:E1; [destruct (m + r - 12 <? 1) eqn:E2 | destruct (m + r <? 1) eqn:E2]; f_equal; lia. }
  destruct (if 12 <? m + r then _ else _) as [yy2 mm2] eqn:Esel. rewrite Hfinal, Hdim.
  set (dd := if f && (d =? days_in_month y m) || (month_len y' m' <? d) then month_len y' m' else d).
  assert (Hdd : dd = if f && (d =? month_len y m) then month_len y' m' else Z.min d (month_len y' m')).
  { unfold dd. destruct f; cbn [andb].
    - rewrite (Heom eq_refl). destruct (d =? month_len y m); cbn [orb]; [reflexivity|].
      destruct (month_len y' m' <? d) eqn:E3; lia.
    - cbn [orb]. destruct (month_len y' m' <? d) eqn:E3; lia. }
  rewrite <- Hdd. clearbody dd. pose proof (month_len_range y' m').
  assert (Hr1 : 1 <= dd <= month_len y' m') by (rewrite Hdd; destruct (f && _); lia).
  apply build_then_read.
  - repeat split; [apply valid_iff; lia | unfold ymd_ltb; lia | unfold ymd_ltb, last_day; lia].
  - unfold in_bad_window, ymd_ltb. lia.
Qed.

(** ** Restatements used in DateProps *)
Lemma ymd_parts s : (year s, month s, day s) = ymd s.
Proof. unfold year, month, day. destruct (ymd s) as [[y m] d]. reflexivity. Qed.
Lemma read_is_gregorian s : 1 <= s < 65536 -> civil (s - 1) (year s, month s, day s).
Proof. rewrite ymd_parts. apply ymd_civil. Qed.
Lemma build_then_read_refuted :
  exists y m d, supported (y, m, d) /\ (year (mk_date y m d), month (mk_date y m d), day (mk_date y m d)) <> (y, m, d).
Proof. exists 2050, 6, 15. split; [repeat split|]. vm_compute. discriminate. Qed.
Lemma build_then_read_iff' y m d : supported (y, m, d) ->
  ((year (mk_date y m d), month (mk_date y m d), day (mk_date y m d)) = (y, m, d) <->
   ~ (ymd_ltb (y, m, d) (2034, 3, 1) = false /\ ymd_ltb (2100, 2, 28) (y, m, d) = false)).
Proof. rewrite ymd_parts. apply build_then_read_iff. Qed.
Lemma build_out_of_range y m d : valid_ymd (y, m, d) = true ->
  (-1000000 <= y < 1970 \/ ymd_ltb last_day (y, m, d) = true) -> is_valid (mk_date y m d) = false.
Proof.
  intros Hv [H|H].
  - apply valid_iff in Hv. pose proof (month_len_range y m). rewrite mk_date_early by lia. reflexivity.
  - rewrite mk_date_late by assumption. reflexivity.
Qed.
Lemma read_then_build' s : 1 <= s < 65536 ->
  mk_date (year s) (month s) (day s) = if in_bad_window (ymd s) then s - 1 else s.
Proof.
  intros H. pose proof (read_then_build s H). unfold year, month, day. destruct (ymd s) as [[y m] d]. assumption.
Qed.
Lemma excel_round_trip :
  (forall s, 1 <= s < 65536 -> from_excel (to_excel s) = s) /\
  (forall x, is_valid (from_excel x) = true -> to_excel (from_excel x) = x).
Proof.
  unfold from_excel, to_excel, is_valid, u16, EXCEL_OFFSET. split.
  - intros s H. destruct (_ && _) eqn:E; lia.
  - intros x. destruct (_ && _) eqn:E; lia.
Qed.
Lemma day_arithmetic s n k : 0 <= s < 65536 -> 0 <= s + n < 65536 -> 0 <= s + n + k < 65536 ->
  date_diff (add_days s n) s = n /\ add_days (add_days s n) k = add_days s (n + k) /\
  add_days (add_days s n) (- n) = s.
Proof.
  intros H1 H2 H3. rewrite (add_days_in s n), (add_days_in (s + n) k), (add_days_in s (n + k)), (add_days_in (s + n) (- n)) by lia.
  unfold date_diff, to_excel. lia.
Qed.
Lemma diff_then_add a b : 0 <= a < 65536 -> 0 <= b < 65536 -> add_days a (date_diff b a) = b.
Proof. intros. unfold date_diff, to_excel. rewrite add_days_in; lia. Qed.
Lemma add_days_calendar s n : 1 <= s < 65536 -> 1 <= s + n < 65536 -> civil (s - 1 + n) (ymd (add_days s n)).
Proof.
  intros. rewrite add_days_in by lia. replace (s - 1 + n) with (s + n - 1) by lia. apply ymd_civil. lia.
Qed.
Lemma incr_next_day s : 1 <= s < 65535 -> ymd (incr s) = next_day (ymd s) /\ decr (incr s) = s.
Proof.
  intros H. rewrite incr_in by lia. rewrite decr_in by lia. split; [|lia].
  pose proof (ymd_civil s ltac:(lia)) as Hc. apply civil_S in Hc.
  pose proof (ymd_civil (s + 1) ltac:(lia)) as Hd. replace (s + 1 - 1) with (s - 1 + 1) in Hd by lia.
  apply (civil_fun _ _ _ Hd Hc).
Qed.
Lemma day_of_week_civil s n t : 1 <= s < 65536 -> civil n t -> ymd s = t -> day_of_week s = (n + 4) mod 7.
Proof.
  intros H Hc E. rewrite day_of_week_spec by assumption. pose proof (ymd_civil s H) as Hd. rewrite E in Hd.
  apply civil_facts in Hc, Hd. replace n with (s - 1) by lia. reflexivity.
Qed.
Lemma weekend_spec s : 1 <= s < 65536 -> (is_weekend s = true <-> day_of_week s = 0 \/ day_of_week s = 6).
Proof.
  intros H. unfold is_weekend. rewrite day_of_week_spec by assumption.
  assert (B : 0 <= (s - 1 + 4) mod 7 < 7) by (apply Z.mod_pos_bound; lia).
  generalize dependent ((s - 1 + 4) mod 7). intros w B. rewrite Z.rem_mod_nonneg by lia. lia.
Qed.
Lemma add_days_wraps : exists s n, 1 <= s < 65536 /\ 0 < n /\ is_valid (add_days s n) = true /\
  date_ltb (add_days s n) s = true.
Proof. exists 65535, 2. vm_compute. repeat split; discriminate. Qed.
Lemma days_in_month_refuted :
  days_in_month 2034 2 = 27 /\ month_len 2034 2 = 28 /\ days_in_month 2100 2 = 29 /\ month_len 2100 2 = 28.
Proof. vm_compute. repeat split. Qed.
Lemma end_of_month_refuted : exists s, 1 <= s < 65536 /\ ymd s = (2040, 5, 10) /\ ymd (end_of_month s) = (2040, 5, 30).
Proof. exists 25698. vm_compute. repeat split; discriminate. Qed.
Lemma add_months_refuted : exists s, ymd s = (2033, 8, 15) /\ ymd (add_months s 12 false) = (2034, 8, 14).
Proof. exists (mk_date 2033 8 15). vm_compute. split; reflexivity. Qed.
