(** C73: traded rates, nominal maturities and the interest-rate indices. *)
From Coq Require Import String Ascii ZArith List Bool Lia.
From Verif Require Import Base StringModel StringSpec StringProofs DateModel DateSpec DateCivil DateProofs HolidayModel HolidaySpec ScheduleModel IncrementProps IndexModel SetupModel SetupSpec SetupProps RateModel RateSpec RateProofs.
Import ListNotations.
Local Open Scope Z_scope.

(** The text of a traded rate, a period length or a clearing house reads back as it. *)
Theorem C73_enums : (forall r, read_rate (rate_string r) = Ok r) /\ (forall p, read_period (period_string p) = Ok p) /\
  (forall c, read_clearer (clearer_string c) = Ok c).
Proof. repeat split; intros []; reflexivity. Qed.
Print Assumptions C73_enums.
Example C73_enums_example : rate_string LIBOR_6M_LCH = lit "LIBOR_6M_LCH" /\ read_rate (lit "libor 6m lch") = Ok LIBOR_6M_LCH /\ read_period (lit "6m") = Ok SEMIANNUAL.
Proof. repeat split; reflexivity. Qed.
(** A traded rate has the period length and, but for the future, the clearing house that its text names. *)
Theorem C73_rate_text : forall r, exists tenor house, rate_string r = lit "LIBOR_" ++ tenor ++ lit "_" ++ house /\
  rate_period r = read_period tenor /\ (r <> LIBOR_3M_FUT -> clearer_string (rate_clearer r) = house).
Proof.
  intros r. exists (firstn 2 (skipn 6 (rate_string r))), (skipn 9 (rate_string r)).
  destruct r; (split; [reflexivity|split; [reflexivity|intros H; first [reflexivity|now contradiction H]]]).
Qed.
Print Assumptions C73_rate_text.
(** The rate found for a period length and a clearing house has them both; one is found for quarterly and semiannual periods ... *)
Theorem C73_find_rate : forall p c,
  (forall r, find_rate p c = Ok r -> rate_period r = Ok p /\ rate_clearer r = c) /\
  ((exists r, find_rate p c = Ok r) <-> p = QUARTERLY \/ p = SEMIANNUAL) /\ (p <> QUARTERLY -> p <> SEMIANNUAL -> find_rate p c = Throw).
Proof.
  intros p c. repeat split.
  - destruct p, c; cbn in H; try discriminate; injection H as <-; reflexivity.
  - destruct p, c; cbn in H; try discriminate; injection H as <-; reflexivity.
  - intros [r H]. destruct p, c; cbn in H; try discriminate; tauto.
  - intros [-> | ->]; destruct c; eexists; reflexivity.
  - intros H1 H2. destruct p, c; try reflexivity; tauto.
Qed.
Print Assumptions C73_find_rate.
(** ... and every rate but the future is found from its own. *)
Theorem C73_rate_found : forall r, r <> LIBOR_3M_FUT -> exists p, rate_period r = Ok p /\ find_rate p (rate_clearer r) = Ok r.
Proof. intros r H. destruct r; try (eexists; split; reflexivity). now contradiction H. Qed.
Print Assumptions C73_rate_found.
Example C73_rate_found_example : LIBOR_6M_CME <> LIBOR_3M_FUT /\ find_rate SEMIANNUAL CME = Ok LIBOR_6M_CME.
Proof. split; [discriminate|reflexivity]. Qed.
(** The future comes back as the rate of the clearing house. *)
Theorem C73_future_refuted : exists p, rate_period LIBOR_3M_FUT = Ok p /\ find_rate p (rate_clearer LIBOR_3M_FUT) = Ok LIBOR_3M_CME.
Proof. exists QUARTERLY. split; reflexivity. Qed.
Print Assumptions C73_future_refuted.

(** The nominal maturity is the same day of the month, so many months later, or the last day of that month if it is shorter; the
    currency does not matter. *)
Theorem C73_nominal_maturity : forall s p c y m d y' m', 1 <= s < 65536 -> ymd s = (y, m, d) ->
  month_index y' m' = month_index y m + months p -> 1 <= m' <= 12 -> good_month y' m' ->
  exists e, nominal_maturity s p c = Ok e /\ ymd e = (y', m', Z.min d (month_len y' m')).
Proof.
  intros s p c y m d y' m' Hs E Hi Hm Hg. exists (add_months s (months p) false). split; [apply nominal_add_months, Hs|].
  rewrite (add_months_spec s (months p) false y m d y' m' Hs E Hi Hm Hg); [reflexivity|discriminate].
Qed.
Print Assumptions C73_nominal_maturity.
(** At every date, also where dates are built one day off, it is the date so many months later. *)
Theorem C73_nominal_months : forall s p c, 1 <= s < 65536 -> nominal_maturity s p c = Ok (add_months s (months p) false).
Proof. exact nominal_add_months. Qed.
Print Assumptions C73_nominal_months.
Example C73_nominal_example : nominal_maturity (mk_date 2023 11 30) QUARTERLY USD = Ok (mk_date 2024 2 29) /\
  nominal_maturity (mk_date 2024 12 31) ANNUAL CNY = Ok (mk_date 2025 12 31) /\ good_month 2024 2 /\ month_index 2024 2 = month_index 2023 11 + months QUARTERLY.
Proof. repeat split; try (vm_compute; reflexivity); try (vm_compute; discriminate). left; vm_compute; reflexivity. Qed.

(** What a start or a maturity stands for, seen from the fixing date: nothing is the fixing date itself; a whole number is so many days
    later; a date, with or without a time, is that date; a text is the move it describes. *)
Inductive stands_for (w : world) (combos : list (str * center)) (fix_date : Z) : offset -> Z -> Prop :=
| sf_nothing : stands_for w combos fix_date ONothing fix_date
| sf_no_text : stands_for w combos fix_date (OText []) fix_date
| sf_days n : 0 <= fix_date + n < 65536 -> stands_for w combos fix_date (ODays n) (fix_date + n)
| sf_date d : stands_for w combos fix_date (ODate d) d
| sf_time d : stands_for w combos fix_date (OTime d) d
| sf_text s i d : s <> [] -> parse_increment (w_reg w) combos s = Ok i -> moves true i fix_date (Ok d) -> stands_for w combos fix_date (OText s) d.
Lemma moves_fun forward i d r : moves forward i d r -> r = apply_inc i forward d.
Proof.
  induction 1 as [n sz h d|d|d|d|d|d|i l d d1 r _ IH1 _ IH2|i l d r _ IH N]; try reflexivity.
  - change (apply_inc (Compound (i :: l)) forward d) with (do d' <- apply_inc i forward d; apply_inc (Compound l) forward d'). rewrite <- IH1. exact IH2.
  - change (apply_inc (Compound (i :: l)) forward d) with (do d' <- apply_inc i forward d; apply_inc (Compound l) forward d'). rewrite <- IH. destruct r; try reflexivity. now contradiction (N a).
Qed.
Lemma stands_date w combos fix_date o d : stands_for w combos fix_date o d -> date_from w combos o fix_date = Ok d.
Proof.
  intros []; try reflexivity.
  - unfold date_from. cbn [off_empty]. f_equal. unfold add_days, u16. rewrite Zplus_mod_idemp_r. apply Z.mod_small. assumption.
  - unfold date_from. destruct s as [|c s]; [contradiction|]. cbn [off_empty]. rewrite H0. cbn [obind]. symmetry. apply moves_fun. assumption.
Qed.
(** A discount factor runs from the date its start stands for to the date its maturity stands for, both seen from the fixing date. A
    Libor or swap rate starts on the date given; without one, the start-date convention of the currency is applied to the date its
    start stands for. *)
Theorem C73_dates : forall w combos fix_date,
  (forall c m s k d e, stands_for w combos fix_date s d -> stands_for w combos fix_date m e ->
     ir_start w combos (Df c m s k) fix_date = Ok d /\ df_maturity w combos (Df c m s k) fix_date = Ok e) /\
  (forall i d, forward_rate i -> start_of i = ODate d -> ir_start w combos i fix_date = Ok d) /\
  (forall i d, forward_rate i -> (forall e, start_of i <> ODate e) -> stands_for w combos fix_date (start_of i) d ->
     ir_start w combos i fix_date = libor_start w (ccy_of i) d).
Proof.
  intros w combos fix_date. repeat split.
  - apply stands_date. assumption.
  - apply stands_date. assumption.
  - intros i d F E. destruct i; cbn [forward_rate start_of] in *; try contradiction; subst; reflexivity.
  - intros i d F N H. apply stands_date in H. destruct i as [c r s|c t s|]; cbn [forward_rate start_of ccy_of ir_start] in *; try contradiction;
      rewrite H; cbn [obind]; destruct s; try reflexivity; now contradiction (N d0).
Qed.
Print Assumptions C73_dates.
Example C73_dates_example : exists d e, stands_for w_start [] 20000 (OText (lit "1M")) d /\ stands_for w_start [] 20000 (ODays 100) e /\ d = 20031 /\ e = 20100.
Proof.
  exists 20031, 20100. split; [|split; [apply (sf_days w_start [] 20000 100); lia|split; reflexivity]].
  apply (sf_text _ _ _ _ (Multi 1 SM hols_none)); [discriminate|vm_compute; reflexivity|].
  pose proof (mv_steps true 1 SM hols_none 20000) as M. assert (E : step SM 20000 true 1 hols_none = Ok 20031) by (vm_compute; reflexivity). rewrite E in M. exact M.
Qed.
(** After the start-up, a renminbi rate without a start begins on the first interbank business day after its fixing date. *)
Theorem C73_renminbi : forall es more combos i d, in_range es -> names_free es -> ~ In Init es ->
  (forall n, ~ In (For CNY n) (days_written more)) -> (forall h, ~ In (For CNY h) (fixing_written more)) -> 0 <= d -> d + 12 < 65536 ->
  forward_rate i -> ccy_of i = CNY -> start_of i = ONothing ->
  exists r, ir_start (after (es ++ Init :: more)) combos i d = Ok r /\ nth_after [ib_center] d 1 r /\ r <= d + 12.
Proof.
  intros es more combos i d R F N D H Hd Hm Fi Ci Si. destruct (C72_renminbi es more d R F N D H Hd Hm) as (r & E & A & B & _). exists r. split; [|tauto].
  destruct (C73_dates (after (es ++ Init :: more)) combos d) as (_ & _ & Q). rewrite (Q i d); [rewrite Ci; exact E|assumption|rewrite Si; discriminate|rewrite Si; constructor].
Qed.
Print Assumptions C73_renminbi.
Example C73_renminbi_example : in_range [] /\ names_free [] /\ ~ In Init [] /\ forward_rate (Swap CNY (lit "5Y") ONothing).
Proof. split; [intros ? ? ? []|]. split; [intros ? ? ? []|]. split; [intros []|exact Logic.I]. Qed.
(** A start given as a date with a time is not that date: the convention is applied to it as well. *)
Theorem C73_start_time_refuted : forall es more combos t d fix_date, in_range es -> names_free es -> ~ In Init es ->
  (forall n, ~ In (For CNY n) (days_written more)) -> (forall h, ~ In (For CNY h) (fixing_written more)) -> 0 <= d -> d + 12 < 65536 ->
  exists r, ir_start (after (es ++ Init :: more)) combos (Swap CNY t (OTime d)) fix_date = Ok r /\ d < r /\
            ir_start (after (es ++ Init :: more)) combos (Swap CNY t (ODate d)) fix_date = Ok d.
Proof.
  intros es more combos t d f R F N D H Hd Hm. destruct (C72_renminbi es more d R F N D H Hd Hm) as (r & E & A & B & _). exists r.
  split; [exact E|]. split; [apply A|reflexivity].
Qed.
Print Assumptions C73_start_time_refuted.
(** A discount factor is made with the currency, maturity and start asked for, ... *)
Theorem C73_new_df : forall w combos c m s k f d e, stands_for w combos f m e ->
  (stands_for w combos f s d -> ir_start w combos (new_df c m (Some s) k) f = Ok d) /\ ir_start w combos (new_df c m None k) f = Ok f /\
  df_maturity w combos (new_df c m (Some s) k) f = Ok e /\ ccy_of (new_df c m (Some s) k) = c.
Proof. intros. repeat split; [intros S; apply stands_date, S|apply stands_date; assumption]. Qed.
Print Assumptions C73_new_df.
(** ... but the collateral asked for is not kept. *)
Theorem C73_collateral_refuted : forall c m s k k', new_df c m s (Some k) = new_df c m s (Some k') /\
  match new_df c m s (Some k) with Df _ _ _ kept => kept = None | _ => False end.
Proof. intros. split; reflexivity. Qed.
Print Assumptions C73_collateral_refuted.

(** The names of two indices are the same text up to case exactly when the indices are the same, given that none of their parts can be
    mistaken for another. *)
Theorem C73_names : forall i j a b, clear i -> clear j -> ir_name i = Ok a -> ir_name j = Ok b -> (same_up_to_case a b <-> same_index i j).
Proof. exact names_tell. Qed.
Print Assumptions C73_names.
Example C73_names_example : clear (Swap USD (lit "5Y") (OText (lit "1M"))) /\ ir_name (Swap USD (lit "5Y") (OText (lit "1M"))) = Ok (lit "IR:USD,5Y,1M") /\
  clear (Df EUR (ODate 20000) ONothing None) /\ ir_name (Df EUR (ODate 20000) ONothing None) = Ok (lit "IR[DF]:EUR,2024-10-03").
Proof.
  repeat split; try (vm_compute; reflexivity); try discriminate; try lia.
  - cbn. intros [H|[H|[]]]; discriminate.
  - intros r H. apply same_size in H. destruct r; discriminate H.
  - cbn. intros [H|[H|[]]]; discriminate.
Qed.
(** Which indices have names: those whose starts and maturities are dates or texts. *)
Theorem C73_named : forall i, (exists a, ir_name i = Ok a) <-> has_name i.
Proof. exact named. Qed.
Print Assumptions C73_named.
(** An offset in days has a meaning but no name. *)
Theorem C73_days_refuted : forall w combos c r n f, exists d, date_from w combos (ODays n) f = Ok d /\ ir_name (Libor c r (ODays n)) = Throw.
Proof. intros. eexists. split; reflexivity. Qed.
Print Assumptions C73_days_refuted.
(** Without the restriction different indices share a name: a swap whose tenor is the text of a rate, a comma in a tenor, a date and its text. *)
Theorem C73_ambiguous_refuted : forall c,
  (forall r s, ir_name (Swap c (rate_string r) s) = ir_name (Libor c r s)) /\
  (forall t s, s <> [] -> ir_name (Swap c (t ++ lit "," ++ s) ONothing) = ir_name (Swap c t (OText s))) /\
  (forall t d, ir_name (Swap c t (ODate d)) = ir_name (Swap c t (OText (lit (to_string d))))) /\
  ~ same_index (Swap c (lit "5Y,1M") ONothing) (Swap c (lit "5Y") (OText (lit "1M"))).
Proof.
  intros c. repeat split.
  - intros t s Hs. destruct s as [|x s]; [contradiction|]. cbn [ir_name]. unfold start_postfix. cbn [off_empty mat_postfix obind]. rewrite !app_nil_r. reflexivity.
  - intros (_ & H & _). apply same_size in H. discriminate H.
Qed.
Print Assumptions C73_ambiguous_refuted.
(** No name of an interest-rate index is read back: no parser is registered for them. *)
Theorem C73_unparsed_refuted : forall i a, ir_name i = Ok a -> parse_index library_parsers a = Throw.
Proof. exact unparsed. Qed.
Print Assumptions C73_unparsed_refuted.
