(** Proofs about the special-day increments (IMM, CDS, end of month). *)
From Coq Require Import ZArith List Bool Lia ZifyBool.
From Verif Require Import Base DateModel DateSpec DateCivil DateProofs HolidayModel HolidaySpec.
Import ListNotations.
Open Scope Z_scope.
Ltac Zify.zify_post_hook ::= Z.div_mod_to_equations.

Lemma sound_build y m d : sound_month y m -> 1 <= d <= month_len y m ->
  exists n, civil n (y, m, d) /\ 0 <= n < 65534 /\ mk_date y m d = n + 1 /\ ymd (mk_date y m d) = (y, m, d).
Proof.
  intros (Hm & Hr & Hw) Hd. unfold month_index in *.
  assert (Hv : valid_ymd (y, m, d) = true) by (apply valid_iff; lia).
  pose proof (civil_of_daynum (y, m, d) Hv ltac:(cbn; lia)) as Hc. set (n := daynum (y, m, d)) in *. clearbody n.
  assert (Hn : 0 <= n < 65534).
  { pose proof (civil_facts _ _ Hc) as (H0 & _). split; [assumption|].
    pose proof (civil_ltb _ _ _ _ Hc civil_last) as L.
    assert (L2 : ymd_ltb (y, m, d) last_day = true) by (unfold ymd_ltb, last_day; lia).
    rewrite L2 in L. lia. }
  exists n. assert (E : mk_date y m d = n + 1).
  { rewrite (mk_date_civil n) by (auto; lia). replace (in_bad_window (y, m, d)) with false; [lia|].
    pose proof (month_len_range y m). unfold in_bad_window, ymd_ltb.
    destruct Hw as [Hw|Hw]; lia. }
  repeat split; auto; try lia. rewrite E. pose proof (ymd_civil (n + 1) ltac:(lia)) as C2. replace (n + 1 - 1) with n in C2 by lia.
  eapply civil_fun; eassumption.
Qed.

Lemma dow_civil s n : 1 <= s < 65536 -> s = n + 1 -> day_of_week s = (n + 4) mod 7.
Proof. intros H ->. rewrite day_of_week_spec by lia. now replace (n + 1 - 1) with n by lia. Qed.

Lemma imm_day_spec y m : sound_month y m -> 15 <= imm_day y m <= 21 /\ third_wednesday (y, m, imm_day y m).
Proof.
  intros Hs. pose proof (month_len_range y m) as Hl.
  destruct (sound_build y m 18 Hs ltac:(lia)) as (n & Hc & Hn & E & _). unfold imm_day. rewrite E.
  rewrite (dow_civil (n + 1) n) by lia. set (w := (n + 4) mod 7). assert (Hw : 0 <= w <= 6) by (unfold w; lia).
  split; [lia|]. pose proof (civil_in_month _ _ _ _ Hc (21 - w) ltac:(lia)) as C.
  split; [apply valid_iff; destruct Hs as [Hs _]; lia|]. cbn [snd]. split; [lia|]. exists (n + (21 - w) - 18). split; [assumption|]. unfold w. lia.
Qed.
Lemma third_wednesday_unique y m d d' : third_wednesday (y, m, d) -> third_wednesday (y, m, d') -> d = d'.
Proof.
  intros (Hv & Hd & n & Hc & Hw) (Hv' & Hd' & n' & Hc' & Hw'). cbn [snd] in *. apply valid_iff in Hv'.
  pose proof (civil_in_month _ _ _ _ Hc d' ltac:(lia)) as C. apply civil_iff in C as (_ & _ & C). apply civil_iff in Hc' as (_ & _ & C').
  lia.
Qed.

Definition month_of (i : Z) : Z * Z := (i / 12, i mod 12 + 1).
Lemma month_cases12 mm : 1 <= mm <= 12 -> mm = 1 \/ mm = 2 \/ mm = 3 \/ mm = 4 \/ mm = 5 \/ mm = 6 \/ mm = 7 \/ mm = 8 \/ mm = 9 \/ mm = 10 \/ mm = 11 \/ mm = 12.
Proof. lia. Qed.
Lemma do_month_spec k fwd mm : k = 1 \/ k = 3 -> 1 <= mm <= 12 ->
  exists r, do_month 4 k mm (sign_of fwd) = Ok r /\ r mod k = 0 /\ 0 <= r <= 15 /\
    (if fwd then mm < r <= mm + k /\ (forall x, mm < x < r -> x mod k <> 0) else mm - k <= r < mm /\ (forall x, r < x < mm -> x mod k <> 0)).
Proof.
  intros Hk Hm.
  exists (if fwd then mm + k - mm mod k else mm - 1 - (mm - 1) mod k).
  destruct Hk as [-> | ->]; destruct fwd; (split; [|split; [lia|split; [lia|split; [lia|intros x Hx; lia]]]]);
  destruct (month_cases12 mm Hm) as [->|[->|[->|[->|[->|[->|[->|[->|[->|[->|[->| ->]]]]]]]]]]]; reflexivity.
Qed.
Lemma month_in_range_spec y m : 0 <= m <= 15 -> exists y' m', month_in_range y m = (y', m') /\ 1 <= m' <= 12 /\ month_index y' m' = month_index y m.
Proof.
  intros H. unfold month_in_range, month_index. cbn [while_gt12]. destruct (12 <? m) eqn:E.
  - replace (12 <? m - 12) with false by lia. cbn [while_lt1]. replace (m - 12 <? 1) with false by lia. exists (y + 1), (m - 12). split; [reflexivity|lia].
  - cbn [while_lt1]. destruct (m <? 1) eqn:E2.
    + replace (m + 12 <? 1) with false by lia. exists (y - 1), (m + 12). split; [reflexivity|lia].
    + exists y, m. split; [reflexivity|lia].
Qed.

(** A family of roll dates: one day [tgt y m] in each month divisible by [k]. *)
Section Roll.
  Variable k : Z.
  Hypothesis Hk : k = 1 \/ k = 3.
  Variable P : Z * Z * Z -> Prop.
  Variable tgt : Z -> Z -> Z.
  Hypothesis tgt_in : forall y m, sound_month y m -> 1 <= tgt y m <= month_len y m.
  Hypothesis tgt_P : forall y m d, sound_month y m -> (P (y, m, d) <-> d = tgt y m).

  Definition roll (from : Z) (fwd : bool) : outcome Z :=
    let '(yy, mm, dd) := ymd from in
    do mm1 <- (if (if fwd then tgt yy mm <=? dd else dd <=? tgt yy mm) then do_month 4 k mm (sign_of fwd) else Ok mm);
    let '(y2, m2) := month_in_range yy mm1 in Ok (mk_date y2 m2 (tgt y2 m2)).

  Lemma ltb_index y m d y' m' d' : 1 <= m <= 12 -> 1 <= m' <= 12 ->
    ymd_ltb (y, m, d) (y', m', d') = true <-> month_index y m < month_index y' m' \/ (month_index y m = month_index y' m' /\ d < d').
  Proof. intros H H'. unfold ymd_ltb, month_index. lia. Qed.
  Lemma index_inj y m y' m' : 1 <= m <= 12 -> 1 <= m' <= 12 -> month_index y m = month_index y' m' -> y = y' /\ m = m'.
  Proof. unfold month_index. lia. Qed.

  (** the months reached are sound *)
  Definition near_sound (y m : Z) (fwd : bool) : Prop := forall y' m', 1 <= m' <= 12 ->
    (if fwd then month_index y m <= month_index y' m' <= month_index y m + k else month_index y m - k <= month_index y' m' <= month_index y m) -> sound_month y' m'.

  Lemma roll_fwd s y m d : 1 <= s < 65536 -> ymd s = (y, m, d) -> near_sound y m true -> m mod k = 0 \/ tgt y m <= d ->
    exists r, roll s true = Ok r /\ s < r < 65536 /\ P (ymd r) /\ month r mod k = 0 /\
      forall t, s < t < r -> ~ (P (ymd t) /\ month t mod k = 0).
  Proof.
    intros Hs E Hns Hcond. unfold roll. rewrite E.
    pose proof (ymd_valid s Hs) as Hv. rewrite E in Hv. apply valid_iff in Hv as [Hm Hd].
    assert (Hmm : exists mm1, (if tgt y m <=? d then do_month 4 k m (sign_of true) else Ok m) = Ok mm1 /\ 0 <= mm1 <= 15 /\ mm1 mod k = 0 /\ m <= mm1 <= m + k /\
       (mm1 = m -> d < tgt y m) /\ (m < mm1 -> tgt y m <= d) /\ forall x, m < x < mm1 -> x mod k <> 0).
    { destruct (tgt y m <=? d) eqn:C.
      - destruct (do_month_spec k true m Hk Hm) as (r & H1 & H2 & H3 & H4 & H5). exists r. repeat split; auto; lia.
      - exists m. repeat split; auto; lia. }
    destruct Hmm as (mm1 & E1 & Hr1 & Hk1 & Hb1 & Hsame & Hmove & Hgap). cbv beta iota in *. rewrite E1. cbn [obind].
    destruct (month_in_range_spec y mm1 Hr1) as (y2 & m2 & E2 & Hm2 & Hi2). rewrite E2.
    assert (Hs2 : sound_month y2 m2) by (apply Hns; [assumption|]; rewrite Hi2; unfold month_index; lia).
    assert (Hs1 : sound_month y m) by (apply Hns; [assumption|]; destruct Hk; lia).
    destruct (sound_build y2 m2 (tgt y2 m2) Hs2 (tgt_in _ _ Hs2)) as (n & Hc & Hn & Em & Ey). exists (mk_date y2 m2 (tgt y2 m2)).
    split; [reflexivity|]. pose proof (tgt_in _ _ Hs1) as T1. pose proof (tgt_in _ _ Hs2) as T2.
    assert (Hlt : s < mk_date y2 m2 (tgt y2 m2)).
    { destruct (order_agrees s (mk_date y2 m2 (tgt y2 m2)) Hs ltac:(lia)) as [L _]. rewrite Ey, E in L. unfold date_ltb in L.
      assert (L2 : ymd_ltb (y, m, d) (y2, m2, tgt y2 m2) = true).
      { apply ltb_index; [assumption|assumption|]. rewrite Hi2. destruct (Z.eq_dec mm1 m) as [->|Hne].
        - right. split; [reflexivity|]. destruct (index_inj _ _ _ _ Hm2 Hm Hi2) as [-> ->]. auto.
        - left. unfold month_index. lia. }
      rewrite L2 in L. lia. }
    split; [lia|]. unfold month at 1. rewrite Ey. cbn [fst snd]. split; [now apply tgt_P|].
    assert (Hmod : m2 mod k = 0) by (unfold month_index in Hi2; destruct Hk as [Ek|Ek]; rewrite Ek in Hk1 |- *; lia).
    split; [exact Hmod|].
    assert (Hrr : 1 <= mk_date y2 m2 (tgt y2 m2) < 65536) by (clear - Em Hn; lia).
    intros t Ht HPk. assert (Ht1 : 1 <= t < 65536) by (clear - Ht Hrr Hs; lia).
    destruct (order_agrees s t Hs Ht1) as [L1 _]. destruct (order_agrees t (mk_date y2 m2 (tgt y2 m2)) Ht1 Hrr) as [L2 _].
    rewrite Ey in L2. rewrite E in L1. unfold date_ltb in L1, L2. pose proof (ymd_valid t Ht1) as Hvt. unfold month in HPk.
    destruct (ymd t) as [[y1 m1] d1]. destruct HPk as [HP Htk]. apply valid_iff in Hvt as [Hm1 Hd1]. cbn [fst snd] in Htk.
    assert (L1' : ymd_ltb (y, m, d) (y1, m1, d1) = true) by (rewrite <- L1 || rewrite <- L2; lia). assert (L2' : ymd_ltb (y1, m1, d1) (y2, m2, tgt y2 m2) = true) by (rewrite <- L2; lia).
    apply ltb_index in L1'; [|assumption|assumption]. apply ltb_index in L2'; [|assumption|assumption].
    assert (Hs3 : sound_month y1 m1) by (apply Hns; [assumption|]; rewrite Hi2 in L2'; clear - Hb1 L1' L2' Hm Hm1; unfold month_index in *; lia).
    apply tgt_P in HP; [|assumption].
    destruct L2' as [L2'|[L2' L2'']].
    - destruct L1' as [L1'|[L1' L1'']].
      + rewrite Hi2 in L2'. apply (Hgap (m1 + 12 * (y1 - y))); [clear - L1' L2'; unfold month_index in *; lia|]. clear - Hk Htk. destruct Hk as [Ek|Ek]; rewrite Ek in Htk |- *; lia.
      + destruct (index_inj _ _ _ _ Hm1 Hm (eq_sym L1')) as [-> ->]. rewrite Hi2 in L2'. assert (tgt y m <= d) by (apply Hmove; clear - L2'; unfold month_index in *; lia). clear - H HP L1''. lia.
    - destruct (index_inj _ _ _ _ Hm1 Hm2 L2') as [-> ->]. clear - L2'' HP. lia.
  Qed.
  Lemma roll_bwd s y m d : 1 <= s < 65536 -> ymd s = (y, m, d) -> near_sound y m false -> m mod k = 0 \/ d <= tgt y m ->
    exists r, roll s false = Ok r /\ 1 <= r < s /\ P (ymd r) /\ month r mod k = 0 /\
      forall t, r < t < s -> ~ (P (ymd t) /\ month t mod k = 0).
  Proof.
    intros Hs E Hns Hcond. unfold roll. rewrite E.
    pose proof (ymd_valid s Hs) as Hv. rewrite E in Hv. apply valid_iff in Hv as [Hm Hd].
    assert (Hmm : exists mm1, (if d <=? tgt y m then do_month 4 k m (sign_of false) else Ok m) = Ok mm1 /\ 0 <= mm1 <= 15 /\ mm1 mod k = 0 /\ m - k <= mm1 <= m /\
       (mm1 = m -> tgt y m < d) /\ (mm1 < m -> d <= tgt y m) /\ forall x, mm1 < x < m -> x mod k <> 0).
    { destruct (d <=? tgt y m) eqn:C.
      - destruct (do_month_spec k false m Hk Hm) as (r & H1 & H2 & H3 & H4 & H5). exists r. repeat split; auto; lia.
      - exists m. repeat split; auto; lia. }
    destruct Hmm as (mm1 & E1 & Hr1 & Hk1 & Hb1 & Hsame & Hmove & Hgap). cbv beta iota in *. rewrite E1. cbn [obind].
    destruct (month_in_range_spec y mm1 Hr1) as (y2 & m2 & E2 & Hm2 & Hi2). rewrite E2.
    assert (Hs2 : sound_month y2 m2) by (apply Hns; [assumption|]; rewrite Hi2; unfold month_index; lia).
    assert (Hs1 : sound_month y m) by (apply Hns; [assumption|]; destruct Hk; lia).
    destruct (sound_build y2 m2 (tgt y2 m2) Hs2 (tgt_in _ _ Hs2)) as (n & Hc & Hn & Em & Ey). exists (mk_date y2 m2 (tgt y2 m2)).
    split; [reflexivity|]. pose proof (tgt_in _ _ Hs1) as T1. pose proof (tgt_in _ _ Hs2) as T2.
    assert (Hlt : mk_date y2 m2 (tgt y2 m2) < s).
    { destruct (order_agrees (mk_date y2 m2 (tgt y2 m2)) s ltac:(lia) Hs) as [L _]. rewrite Ey, E in L. unfold date_ltb in L.
      assert (L2 : ymd_ltb (y2, m2, tgt y2 m2) (y, m, d) = true).
      { apply ltb_index; [assumption|assumption|]. rewrite Hi2. destruct (Z.eq_dec mm1 m) as [->|Hne].
        - right. split; [reflexivity|]. destruct (index_inj _ _ _ _ Hm2 Hm Hi2) as [-> ->]. auto.
        - left. unfold month_index. lia. }
      rewrite L2 in L. lia. }
    split; [lia|]. unfold month at 1. rewrite Ey. cbn [fst snd]. split; [now apply tgt_P|].
    assert (Hmod : m2 mod k = 0) by (unfold month_index in Hi2; destruct Hk as [Ek|Ek]; rewrite Ek in Hk1 |- *; lia).
    split; [exact Hmod|].
    assert (Hrr : 1 <= mk_date y2 m2 (tgt y2 m2) < 65536) by (clear - Em Hn; lia).
    intros t Ht HPk. assert (Ht1 : 1 <= t < 65536) by (clear - Ht Hrr Hs; lia).
    destruct (order_agrees t s Ht1 Hs) as [L1 _]. destruct (order_agrees (mk_date y2 m2 (tgt y2 m2)) t Hrr Ht1) as [L2 _].
    rewrite Ey in L2. rewrite E in L1. unfold date_ltb in L1, L2. pose proof (ymd_valid t Ht1) as Hvt. unfold month in HPk.
    destruct (ymd t) as [[y1 m1] d1]. destruct HPk as [HP Htk]. apply valid_iff in Hvt as [Hm1 Hd1]. cbn [fst snd] in Htk.
    assert (L1' : ymd_ltb (y1, m1, d1) (y, m, d) = true) by (rewrite <- L1; lia).
    assert (L2' : ymd_ltb (y2, m2, tgt y2 m2) (y1, m1, d1) = true) by (rewrite <- L2; lia).
    apply ltb_index in L1'; [|assumption|assumption]. apply ltb_index in L2'; [|assumption|assumption].
    assert (Hs3 : sound_month y1 m1) by (apply Hns; [assumption|]; rewrite Hi2 in L2'; clear - Hb1 L1' L2' Hm Hm1; unfold month_index in *; lia).
    apply tgt_P in HP; [|assumption].
    destruct L2' as [L2'|[L2' L2'']].
    - destruct L1' as [L1'|[L1' L1'']].
      + rewrite Hi2 in L2'. apply (Hgap (m1 + 12 * (y1 - y))); [clear - L1' L2'; unfold month_index in *; lia|]. clear - Hk Htk. destruct Hk as [Ek|Ek]; rewrite Ek in Htk |- *; lia.
      + destruct (index_inj _ _ _ _ Hm1 Hm L1') as [-> ->]. rewrite Hi2 in L2'. assert (d <= tgt y m) by (apply Hmove; clear - L2'; unfold month_index in *; lia). clear - H HP L1''. lia.
    - destruct (index_inj _ _ _ _ Hm1 Hm2 (eq_sym L2')) as [-> ->]. clear - L2'' HP. lia.
  Qed.
End Roll.

Lemma imm_tgt_in y m : sound_month y m -> 1 <= imm_day y m <= month_len y m.
Proof. intros H. pose proof (month_len_range y m). destruct (imm_day_spec y m H). lia. Qed.
Lemma imm_tgt_P y m d : sound_month y m -> (third_wednesday (y, m, d) <-> d = imm_day y m).
Proof.
  intros H. destruct (imm_day_spec y m H) as [_ T]. split; [intros T'; eapply third_wednesday_unique; eassumption | intros ->; exact T].
Qed.
Lemma cds_tgt_in y m : sound_month y m -> 1 <= 20 <= month_len y m.
Proof. intros H. pose proof (month_len_range y m). lia. Qed.

Lemma to_imm_roll s f k : to_imm s f k = roll k imm_day s f.
Proof. unfold to_imm, roll. destruct (ymd s) as [[y m] d]. reflexivity. Qed.
Lemma to_cds_roll s f : to_cds s f = roll 3 (fun _ _ => 20) s f.
Proof. unfold to_cds, roll. destruct (ymd s) as [[y m] d]. reflexivity. Qed.
Lemma to_imm_forward k s y m d : k = 1 \/ k = 3 -> 1 <= s < 65536 -> ymd s = (y, m, d) -> near_sound k y m true ->
  m mod k = 0 \/ (exists d', third_wednesday (y, m, d') /\ d' <= d) ->
  exists r, to_imm s true k = Ok r /\ s < r < 65536 /\ third_wednesday (ymd r) /\ month r mod k = 0 /\
    forall t, s < t < r -> ~ (third_wednesday (ymd t) /\ month t mod k = 0).
Proof.
  intros Hk Hs E Hn Hc. rewrite to_imm_roll.
  assert (Hm : sound_month y m).
  { pose proof (ymd_valid s Hs) as Hv. rewrite E in Hv. apply valid_iff in Hv as [Hm _]. apply Hn; [assumption|]. destruct Hk; lia. }
  apply (roll_fwd k Hk third_wednesday imm_day imm_tgt_in imm_tgt_P s y m d); auto.
  destruct Hc as [Hc|(d' & H1 & H2)]; [now left|right]. apply imm_tgt_P in H1; [lia|assumption].
Qed.
Lemma to_imm_backward k s y m d : k = 1 \/ k = 3 -> 1 <= s < 65536 -> ymd s = (y, m, d) -> near_sound k y m false ->
  m mod k = 0 \/ (exists d', third_wednesday (y, m, d') /\ d <= d') ->
  exists r, to_imm s false k = Ok r /\ 1 <= r < s /\ third_wednesday (ymd r) /\ month r mod k = 0 /\
    forall t, r < t < s -> ~ (third_wednesday (ymd t) /\ month t mod k = 0).
Proof.
  intros Hk Hs E Hn Hc. rewrite to_imm_roll.
  assert (Hm : sound_month y m).
  { pose proof (ymd_valid s Hs) as Hv. rewrite E in Hv. apply valid_iff in Hv as [Hm _]. apply Hn; [assumption|]. destruct Hk; lia. }
  apply (roll_bwd k Hk third_wednesday imm_day imm_tgt_in imm_tgt_P s y m d); auto.
  destruct Hc as [Hc|(d' & H1 & H2)]; [now left|right]. apply imm_tgt_P in H1; [lia|assumption].
Qed.
Lemma to_cds_forward s y m d : 1 <= s < 65536 -> ymd s = (y, m, d) -> near_sound 3 y m true -> m mod 3 = 0 \/ 20 <= d ->
  exists r, to_cds s true = Ok r /\ s < r < 65536 /\ day r = 20 /\ month r mod 3 = 0 /\
    forall t, s < t < r -> ~ (day t = 20 /\ month t mod 3 = 0).
Proof.
  intros Hs E Hn Hc. rewrite to_cds_roll.
  apply (roll_fwd 3 (or_intror eq_refl) (fun t => snd t = 20) (fun _ _ => 20) cds_tgt_in ltac:(cbn; tauto) s y m d); auto.
Qed.
Lemma to_cds_backward s y m d : 1 <= s < 65536 -> ymd s = (y, m, d) -> near_sound 3 y m false -> m mod 3 = 0 \/ d <= 20 ->
  exists r, to_cds s false = Ok r /\ 1 <= r < s /\ day r = 20 /\ month r mod 3 = 0 /\
    forall t, r < t < s -> ~ (day t = 20 /\ month t mod 3 = 0).
Proof.
  intros Hs E Hn Hc. rewrite to_cds_roll.
  apply (roll_bwd 3 (or_intror eq_refl) (fun t => snd t = 20) (fun _ _ => 20) cds_tgt_in ltac:(cbn; tauto) s y m d); auto.
Qed.
Lemma to_eom_back s y m d : 1 <= s < 65536 -> ymd s = (y, m, d) -> sound_month y m -> (y, m) <> (1970, 1) ->
  next_day (ymd (to_eom s false)) = (y, m, 1) /\ to_eom s false < s.
Proof.
  intros Hs E Hm Hne. pose proof (month_len_range y m) as Hl.
  destruct (sound_build y m 1 Hm ltac:(lia)) as (n & Hc & Hn & Em & _). unfold to_eom, year, month. rewrite E. cbn [fst snd]. rewrite Em.
  pose proof (ymd_civil s Hs) as Cs. rewrite E in Cs. pose proof (ymd_valid s Hs) as Hv. rewrite E in Hv. apply valid_iff in Hv as [Hm1 Hd].
  pose proof (civil_in_month _ _ _ _ Hc d ltac:(lia)) as C2. apply civil_iff in C2 as (_ & _ & C2). apply civil_iff in Cs as (_ & _ & C3).
  assert (Hn0 : n <> 0). { intros ->. pose proof (civil_fun _ _ _ Hc civil_0) as F. injection F as -> ->. congruence. }
  rewrite add_days_in by lia. split; [|lia].
  pose proof (ymd_civil (n + 1 + -1) ltac:(lia)) as C4. pose proof (civil_S _ _ C4) as C5. replace (n + 1 + -1 - 1 + 1) with n in C5 by lia.
  eapply civil_fun; eassumption.
Qed.
