From Coq Require Import ZArith QArith Bool Lia ZifyBool Lqa.
From Verif Require Import Base DateModel DateSpec DateCivil DateProofs DayCountModel DayCountSpec.
Open Scope Z_scope.
Ltac Zify.zify_post_hook ::= Z.div_mod_to_equations.

(** Serial of 1 January. *)
Definition J (y : Z) : Z := 365 * (y - 1970) + (leaps_before y - 477) + 1.
Lemma J_succ y : J (y + 1) = J y + year_length y.
Proof. unfold J, year_length. rewrite leaps_succ. destruct (leap y); lia. Qed.
Lemma J_mono a b : a <= b -> J a <= J b.
Proof. unfold J, leaps_before. lia. Qed.
Lemma year_length_pos y : 365 <= year_length y <= 366.
Proof. unfold year_length. destruct (leap y); lia. Qed.
Lemma daynum_J y : daynum (y, 1, 1) = J y - 1.
Proof. unfold daynum, J. cbn. lia. Qed.
Lemma daynum_in_year y m d : valid_ymd (y, m, d) = true -> J y - 1 <= daynum (y, m, d) < J (y + 1) - 1.
Proof.
  intros Hv. apply valid_iff in Hv. destruct Hv as [Hm Hd]. rewrite J_succ. unfold J, daynum, year_length.
  pose proof (month_len_facts _ _ _ Hd) as (H1 & H2 & H3).
  assert (Hleap : m = 2 -> leap y = false -> d <= 28) by (intros -> L; unfold month_len in Hd; cbn in Hd; rewrite L in Hd; lia).
  destruct (leap y); month_split Hm; cbn; try lia.
Qed.
Lemma year_range s : 1 <= s < 65536 -> J (year s) <= s < J (year s + 1).
Proof.
  intros H. pose proof (ymd_civil s H) as Hc. rewrite <- ymd_parts in Hc. pose proof (civil_facts _ _ Hc) as (_ & Hv & Hd & _).
  pose proof (daynum_in_year _ _ _ Hv). lia.
Qed.
Lemma year_unique s y : 1 <= s < 65536 -> J y <= s < J (y + 1) -> year s = y.
Proof.
  intros H Hy. pose proof (year_range s H). destruct (Z.lt_trichotomy (year s) y) as [L|[E|L]]; [|assumption|].
  - pose proof (J_mono (year s + 1) y ltac:(lia)). lia.
  - pose proof (J_mono (y + 1) (year s) ltac:(lia)). lia.
Qed.
Lemma year_mono a b : 1 <= a <= b -> b < 65536 -> year a <= year b.
Proof.
  intros H Hb. pose proof (year_range a ltac:(lia)). pose proof (year_range b ltac:(lia)).
  destruct (Z_lt_le_dec (year b) (year a)) as [L|]; [|lia]. pose proof (J_mono (year b + 1) (year a) ltac:(lia)). lia.
Qed.
Lemma year_bounds s : 1 <= s < 65536 -> 1970 <= year s <= 2149.
Proof.
  intros H. pose proof (year_range s H). split.
  - destruct (Z_lt_le_dec (year s) 1970) as [L|]; [|lia]. pose proof (J_mono (year s + 1) 1970 ltac:(lia)). change (J 1970) with 1 in *. lia.
  - destruct (Z_lt_le_dec 2149 (year s)) as [L|]; [|lia]. pose proof (J_mono 2150 (year s) ltac:(lia)). change (J 2150) with 65745 in *. lia.
Qed.
Lemma mk_jan1 y : 1970 <= y <= 2149 -> mk_date y 1 1 = J y - (if (2035 <=? y) && (y <=? 2100) then 1 else 0).
Proof.
  intros H. assert (Hc : civil (J y - 1) (y, 1, 1)).
  { apply civil_iff. split; [apply valid_iff; cbn; lia|]. split; [cbn; lia|]. now rewrite daynum_J. }
  assert (Hr : J y <= J 2149) by (apply J_mono; lia). change (J 2149) with 65380 in Hr.
  rewrite (mk_date_civil _ _ _ _ Hc) by lia. unfold in_bad_window, ymd_ltb.
  destruct ((2035 <=? y) && (y <=? 2100)) eqn:E; destruct (negb _ && _) eqn:E2; lia.
Qed.

(** * ACT/ACT *)
Lemma isda_trans a b c q r : isda a b q -> isda b c r -> isda a c (q + r).
Proof.
  intros H1 H2. induction H2 as [r Hr|c y m d r r' H2 IH Hd Hr].
  - destruct H1 as [q Hq|b y m d q q' H1 Hd Hq].
    + constructor. lra.
    + econstructor; [exact H1|exact Hd|]. lra.
  - econstructor; [exact IH|exact Hd|]. lra.
Qed.
Lemma isda_proper a b q q' : isda a b q -> (q == q')%Q -> isda a b q'.
Proof. intros H E. destruct H; [constructor; lra|econstructor; eauto; lra]. Qed.
Lemma isda_le a b q : isda a b q -> a <= b.
Proof. induction 1; lia. Qed.
Lemma isda_fun a b q q' : isda a b q -> isda a b q' -> (q == q')%Q.
Proof.
  intros H. revert q'. induction H as [q Hq|b y m d q q1 H IH Hd Hq]; intros q' H'.
  - remember a as b eqn:E in H' at 2. destruct H' as [q' Hq'|b y m d q' q1 H' Hd Hq']; [lra|]. apply isda_le in H'. lia.
  - remember (b + 1) as b1 eqn:E in H'. destruct H' as [q' Hq'|b' y' m' d' q' q2 H' Hd' Hq'].
    + apply isda_le in H. lia.
    + assert (b' = b) by lia. subst b'. pose proof (civil_fun _ _ _ Hd Hd') as Et. injection Et as -> -> ->.
      specialize (IH _ H'). lra.
Qed.
Lemma isda_nonneg a b q : isda a b q -> (0 <= q)%Q.
Proof.
  induction 1 as [q Hq|b y m d q q' H IH Hd Hq]; [lra|].
  assert (0 < 1 / inject_Z (year_length y))%Q; [|lra].
  pose proof (year_length_pos y). apply Qlt_shift_div_l; [|lra]. change 0%Q with (inject_Z 0). rewrite <- Zlt_Qlt. lia.
Qed.
Lemma inject_nz z : z <> 0 -> ~ (inject_Z z == 0)%Q.
Proof. intros H E. apply H. unfold Qeq in E. cbn in E. lia. Qed.
Lemma isda_within y : forall n a, 1 <= a -> J y <= a -> a + Z.of_nat n <= J (y + 1) -> a + Z.of_nat n <= 65536 ->
  isda a (a + Z.of_nat n) (ratio (Z.of_nat n) (year_length y)).
Proof.
  pose proof (year_length_pos y) as Hp.
  induction n as [|n IH]; intros a H1 Ha Hn Hb.
  - replace (a + Z.of_nat 0) with a by lia. constructor. unfold ratio. cbn [Z.of_nat]. field. apply inject_nz. lia.
  - replace (a + Z.of_nat (S n)) with (a + Z.of_nat n + 1) by lia.
    assert (Hs : 1 <= a + Z.of_nat n < 65536) by lia.
    pose proof (ymd_civil _ Hs) as Hc. rewrite <- ymd_parts in Hc.
    econstructor; [apply IH; lia | exact Hc |].
    rewrite (year_unique _ y Hs) by lia. unfold ratio. rewrite Nat2Z.inj_succ. unfold Z.succ. rewrite inject_Z_plus.
    field. apply inject_nz. lia.
Qed.
Lemma isda_ratio y a b : 1 <= a <= b -> J y <= a -> b <= J (y + 1) -> b <= 65536 -> isda a b (ratio (b - a) (year_length y)).
Proof.
  intros H1 H2 H3 H4. pose proof (isda_within y (Z.to_nat (b - a)) a ltac:(lia) H2) as H. rewrite Z2Nat.id in H by lia.
  replace (a + (b - a)) with b in H by lia. apply H; lia.
Qed.
Lemma act_act_once f a b : 1 <= a <= b -> b < 65536 -> 2035 <= year a <= 2099 -> year b = year a ->
  exists q, act_act (S f) a b = Ok q /\ isda a b q.
Proof.
  intros Ha Hb Hy Eb. cbn [act_act]. cbv zeta. pose proof (year_range a ltac:(lia)) as Ra. pose proof (year_range b ltac:(lia)) as Rb.
  rewrite Eb in Rb. rewrite !mk_jan1 by lia.
  replace ((2035 <=? year a + 1) && (year a + 1 <=? 2100)) with true by lia.
  replace ((2035 <=? year a) && (year a <=? 2100)) with true by lia.
  replace (b <=? J (year a + 1) - 1) with true by lia. eexists. split; [reflexivity|].
  replace (date_diff (J (year a + 1) - 1) (J (year a) - 1)) with (year_length (year a)) by (unfold date_diff, to_excel; rewrite J_succ; lia).
  replace (date_diff b a) with (b - a) by (unfold date_diff, to_excel; lia). apply isda_ratio; lia.
Qed.
Lemma act_act_era : forall f a b, 1 <= a <= b -> b < 65536 -> same_era (year a) (year b) -> year b - year a < Z.of_nat f ->
  exists q, act_act f a b = Ok q /\ isda a b q.
Proof.
  induction f as [|f IH]; intros a b Ha Hb He Hf.
  { pose proof (year_mono a b Ha Hb). lia. }
  cbn [act_act]. cbv zeta. pose proof (year_range a ltac:(lia)) as Ra. pose proof (year_range b ltac:(lia)) as Rb.
  assert (Hy : sound_year (year a)) by (unfold same_era, sound_year in *; lia).
  assert (Hl : 2149 < year a + 1 \/ J (year a + 1) <= 65380) by (right; change 65380 with (J 2149); apply J_mono; unfold sound_year in Hy; lia).
  rewrite (mk_jan1 (year a + 1)) by (unfold sound_year in Hy; lia). rewrite (mk_jan1 (year a)) by (unfold sound_year in Hy; lia).
  replace ((2035 <=? year a + 1) && (year a + 1 <=? 2100)) with false by (unfold sound_year in Hy; lia).
  replace ((2035 <=? year a) && (year a <=? 2100)) with false by (unfold sound_year in Hy; lia).
  rewrite !Z.sub_0_r.
  replace (date_diff (J (year a + 1)) (J (year a))) with (year_length (year a)) by (unfold date_diff, to_excel; rewrite J_succ; lia).
  replace (date_diff b a) with (b - a) by (unfold date_diff, to_excel; lia).
  replace (date_diff (J (year a + 1)) a) with (J (year a + 1) - a) by (unfold date_diff, to_excel; lia).
  destruct (b <=? J (year a + 1)) eqn:E.
  - eexists. split; [reflexivity|]. apply isda_ratio; lia.
  - assert (Hn : year (J (year a + 1)) = year a + 1).
    { apply year_unique; [lia|]. pose proof (J_mono (year a + 1) (year a + 1 + 1) ltac:(lia)). rewrite (J_succ (year a + 1)) in *.
      pose proof (year_length_pos (year a + 1)). lia. }
    assert (Hyb : year a + 1 <= year b).
    { destruct (Z_lt_le_dec (year b) (year a + 1)) as [L|]; [|lia]. pose proof (J_mono (year b + 1) (year a + 1) ltac:(lia)). lia. }
    destruct (IH (J (year a + 1)) b) as (q & Eq & Hq); [lia|lia|rewrite Hn; unfold same_era in *; lia|rewrite Hn; lia|].
    rewrite Eq. cbn [obind]. eexists. split; [reflexivity|]. eapply isda_trans; [|exact Hq]. apply isda_ratio; lia.
Qed.

(** ** Where it never returns *)
Lemma act_act_mid : forall f a b, 1 <= a < 65536 -> 1 <= b < 65536 -> year a <= 2099 -> 2035 <= year b -> year a < year b ->
  act_act f a b = OutOfFuel.
Proof.
  induction f as [|f IH]; intros a b Ha Hb Hy Hyb Hlt; [reflexivity|].
  cbn [act_act]. cbv zeta. pose proof (year_range a Ha) as Ra. pose proof (year_range b Hb) as Rb. pose proof (year_bounds a Ha) as By.
  rewrite (mk_jan1 (year a + 1)) by lia.
  pose proof (J_mono (year a + 1) (year b) ltac:(lia)) as Hm.
  pose proof (J_mono (year a + 1) 2100 ltac:(lia)) as Hm2. change (J 2100) with 47483 in Hm2.
  pose proof (J_mono 1970 (year a) ltac:(lia)) as Hm0. change (J 1970) with 1 in Hm0.
  pose proof (J_succ (year a)) as Hs. pose proof (year_length_pos (year a)) as Hl.
  pose proof (J_succ (year a + 1)) as Hs1. pose proof (year_length_pos (year a + 1)) as Hl1.
  destruct ((2035 <=? year a + 1) && (year a + 1 <=? 2100)) eqn:E.
  - replace (b <=? J (year a + 1) - 1) with false by lia.
    assert (Hn : year (J (year a + 1) - 1) = year a) by (apply year_unique; lia).
    rewrite IH; [reflexivity|lia|lia|lia|lia|lia].
  - rewrite Z.sub_0_r.
    assert (year a + 1 < year b) by lia.
    pose proof (J_mono (year a + 1 + 1) (year b) ltac:(lia)) as Hm3.
    replace (b <=? J (year a + 1)) with false by lia.
    assert (Hn : year (J (year a + 1)) = year a + 1) by (apply year_unique; lia).
    rewrite IH; [reflexivity|lia|lia|lia|lia|lia].
Qed.
Lemma year_zero : year 0 = 1969.
Proof. vm_compute. reflexivity. Qed.
(** The one exception: up to 1 January 2149 itself the recursion stops. *)
Lemma act_act_end : forall f a b, 1 <= a < 65536 -> 65380 < b < 65536 -> act_act f a b = OutOfFuel.
Proof.
  induction f as [|f IH]; intros a b Ha Hb; [reflexivity|].
  assert (Hyb : year b = 2149) by (apply year_unique; [lia|]; change (J 2149) with 65380; change (J (2149 + 1)) with 65745; lia).
  pose proof (year_bounds a Ha) as By. destruct (Z_le_gt_dec (year a) 2099) as [L|L].
  { apply act_act_mid; lia. }
  cbn [act_act]. cbv zeta.
  destruct (Z.eq_dec (year a) 2149) as [E|E].
  - rewrite E. change (mk_date (2149 + 1) 1 1) with 0. replace (b <=? 0) with false by lia.
    destruct f as [|f]; [reflexivity|]. cbn [act_act]. cbv zeta. rewrite year_zero. change (mk_date (1969 + 1) 1 1) with 1.
    replace (b <=? 1) with false by lia. rewrite act_act_mid; [reflexivity|lia|lia| | |]; change (year 1) with 1970; lia.
  - rewrite (mk_jan1 (year a + 1)) by lia.
    replace ((2035 <=? year a + 1) && (year a + 1 <=? 2100)) with false by lia. rewrite Z.sub_0_r.
    pose proof (J_mono (year a + 1) 2149 ltac:(lia)) as Hm. change (J 2149) with 65380 in *.
    pose proof (J_mono 2101 (year a + 1) ltac:(lia)) as Hm2. change (J 2101) with 47848 in *.
    replace (b <=? J (year a + 1)) with false by lia. rewrite IH; [reflexivity|lia|lia].
Qed.

(** * ACT/365L *)
Lemma feb_end_J f y : 1 <= f -> (feb_end f y <-> 1970 <= y /\ f = J y + 30 + month_len y 2).
Proof.
  intros Hf. unfold feb_end, day_at. rewrite civil_iff. pose proof (month_len_range y 2).
  assert (E : daynum (y, 2, month_len y 2) = J y + 29 + month_len y 2) by (unfold daynum, J; cbn [mdays]; cbn; lia).
  rewrite E. cbn [fst]. split; [lia|]. intros [H1 H2]. split; [apply valid_iff; lia|]. lia.
Qed.
Lemma feb_len_year y : month_len y 2 = year_length y - 337.
Proof. unfold month_len, year_length. cbn. destruct (leap y); lia. Qed.
Lemma loop_year s y m d : 1 <= s < 65536 -> ymd s = (y, m, d) ->
  let yy := if 2 <? m then y + 1 else y in J (yy - 1) + 31 + month_len (yy - 1) 2 <= s < J yy + 31 + month_len yy 2.
Proof.
  intros Hs E. cbv zeta. pose proof (ymd_civil s Hs) as Hc. rewrite E in Hc. pose proof (civil_facts _ _ Hc) as (_ & Hv & Hd & Hy).
  apply valid_iff in Hv. destruct Hv as [Hm Hdd]. pose proof (J_succ y) as Hs1. pose proof (J_succ (y - 1)) as Hs0.
  replace (y - 1 + 1) with y in Hs0 by lia. rewrite !feb_len_year.
  pose proof (year_length_pos y). pose proof (year_length_pos (y - 1)). pose proof (year_length_pos (y + 1)).
  pose proof (month_len_facts _ _ _ Hdd) as (M1 & M2 & M3).
  assert (Hf : m = 2 -> d <= year_length y - 337) by (intros ->; rewrite feb_len_year in Hdd; lia).
  assert (Hdn : s - 1 = J y - 1 + mdays m + (if (2 <? m) && leap y then 1 else 0) + (d - 1)) by (rewrite <- Hd; unfold daynum, J; lia).
  assert (Hlp : (if leap y then 1 else 0) = year_length y - 365) by (unfold year_length; destruct (leap y); lia).
  destruct (2 <? m) eqn:E2.
  - replace (y + 1 - 1) with y by lia. cbn [andb] in Hdn. rewrite Hlp in Hdn.
    rewrite Hs1. month_split Hm; cbn [mdays] in Hdn; try lia;
    match goal with _ : context [mdays ?k] |- _ => let v := eval vm_compute in (mdays k) in change (mdays k) with v in * end; lia.
  - cbn [andb] in Hdn. assert (m = 1 \/ m = 2) as [-> | ->] by lia.
    + change (mdays 1) with 0 in Hdn. lia.
    + change (mdays 2) with 31 in Hdn. lia.
Qed.

(** The first end of February after [s] is the one the loop looks at. *)
Lemma annual_days_l_spec s t f y : 1 <= s < 65535 -> 0 <= t < 65536 -> feb_end f y -> s < f ->
  (forall f' y', feb_end f' y' -> s < f' -> f <= f') -> (y <= 2033 \/ 2101 <= y <= 2148) ->
  (t <= f -> forall k, annual_days_l (S k) s t = Ok 365) /\
  (f < t -> leap y = true -> forall k, annual_days_l (S k) s t = Ok 366) /\
  (f < t -> leap y = false -> forall k, annual_days_l k s t = OutOfFuel).
Proof.
  intros Hs Ht Hf Hlt Hmin Hy.
  assert (Ea : add_days s 1 = s + 1) by (apply add_days_in; lia).
  pose proof (ymd_civil (s + 1) ltac:(lia)) as Hc. rewrite <- ymd_parts in Hc.
  pose proof (loop_year (s + 1) (year (s + 1)) (month (s + 1)) (day (s + 1)) ltac:(lia) ltac:(symmetry; apply ymd_parts)) as Hl.
  cbv zeta in Hl. set (yy := if 2 <? month (s + 1) then year (s + 1) + 1 else year (s + 1)) in *.
  pose proof (year_bounds (s + 1) ltac:(lia)) as By.
  assert (Eyy : yy = y).
  { pose proof (proj1 (feb_end_J f y ltac:(lia)) Hf) as [H1 H2].
    assert (Hyy : 1970 <= yy) by (unfold yy; destruct (2 <? month (s + 1)); lia).
    assert (Hfe : feb_end (J yy + 30 + month_len yy 2) yy).
    { apply feb_end_J; [|split; [exact Hyy|reflexivity]]. pose proof (J_mono 1970 yy Hyy). change (J 1970) with 1 in *. pose proof (month_len_range yy 2). lia. }
    specialize (Hmin _ _ Hfe ltac:(lia)).
    destruct (Z.lt_trichotomy y yy) as [L|[E|L]]; [|congruence|].
    - exfalso. assert (y <= yy - 1) by lia. pose proof (J_mono y (yy - 1) ltac:(lia)).
      pose proof (J_mono (y + 1) (yy - 1 + 1) ltac:(lia)) as M. rewrite !J_succ in M. rewrite !feb_len_year in *. lia.
    - exfalso. pose proof (J_mono (yy + 1) y ltac:(lia)) as M. rewrite J_succ in M. pose proof (year_length_pos yy). rewrite !feb_len_year in *.
      pose proof (year_length_pos y). lia. }
  pose proof (proj1 (feb_end_J f y ltac:(lia)) Hf) as [H1 H2].
  assert (Hmar : mk_date y 3 1 = f + 1).
  { assert (Hc2 : civil f (y, 3, 1)).
    { pose proof (civil_in_month _ _ _ _ Hf 1) as Q1. pose proof (month_len_range y 2). specialize (Q1 ltac:(lia)).
      apply civil_next_month in Q1; [|lia]. replace (f - 1 + 1 - month_len y 2 + month_len y 2) with f in Q1 by lia. exact Q1. }
    assert (Hr : f <= 65534).
    { pose proof (J_mono y 2148 ltac:(lia)). change (J 2148) with 65014 in *. pose proof (month_len_range y 2). lia. }
    rewrite (mk_date_civil _ _ _ _ Hc2 Hr). unfold in_bad_window, ymd_ltb. destruct (negb _ && _) eqn:E; lia. }
  assert (Hdim : days_in_month y 2 = month_len y 2).
  { rewrite days_in_month_spec by (unfold month_index; lia). unfold month_index.
    destruct (12 * y + (2 - 1) =? 12 * 2034 + (2 - 1)) eqn:E1; destruct (12 * y + (2 - 1) =? 12 * 2100 + (2 - 1)) eqn:E3; lia. }
  assert (Hlen : (month_len y 2 =? 29) = leap y) by (unfold month_len; cbn; destruct (leap y); reflexivity).
  assert (Hstep : forall k m0 y0, (if 2 <? m0 then y0 + 1 else y0) = y ->
     annual_days_l_loop (S k) m0 y0 t = if t <? f + 1 then Ok 365 else if leap y then Ok 366 else annual_days_l_loop k 2 y t).
  { intros k m0 y0 E. cbn [annual_days_l_loop]. cbv zeta. rewrite E, Hmar, Hdim, Hlen. reflexivity. }
  unfold annual_days_l. rewrite Ea. split; [|split].
  - intros Htf k. rewrite Hstep by exact Eyy. now replace (t <? f + 1) with true by lia.
  - intros Htf L k. rewrite Hstep by exact Eyy. replace (t <? f + 1) with false by lia. now rewrite L.
  - intros Htf L.
    assert (Hdiv : forall k m0 y0, (if 2 <? m0 then y0 + 1 else y0) = y -> annual_days_l_loop k m0 y0 t = OutOfFuel).
    { induction k as [|k IH]; intros m0 y0 E; [reflexivity|]. rewrite Hstep by exact E. replace (t <? f + 1) with false by lia.
      rewrite L. apply IH. reflexivity. }
    intros k. apply Hdiv. exact Eyy.
Qed.

(** * 30/360 *)
Lemma bond_spec a b : 1 <= a < 65536 -> 1 <= b < 65536 ->
  year a <> 2034 -> year a <> 2100 -> year b <> 2034 -> year b <> 2100 ->
  forall y1 m1 d1 y2 m2 d2, ymd a = (y1, m1, d1) -> ymd b = (y2, m2, d2) ->
  (bond_days a b = thirty_360 (ymd a) (ymd b) <->
   ~ (d1 = 31 /\ d2 <> 31) /\ ~ ((d1 = 30 \/ last_of_feb y1 m1 d1 = true) /\ d2 = 31)).
Proof.
  intros Ha Hb A1 A2 B1 B2 y1 m1 d1 y2 m2 d2 Ea Eb. unfold bond_days, thirty_360. rewrite Ea, Eb.
  pose proof (ymd_civil a Ha) as Ca. pose proof (ymd_civil b Hb) as Cb. unfold year in *. rewrite Ea in *. rewrite Eb in *. cbn [fst snd] in *.
  pose proof (civil_facts _ _ Ca) as (_ & Va & _ & Y1). pose proof (civil_facts _ _ Cb) as (_ & Vb & _ & Y2).
  cbn [fst] in Y1, Y2. apply valid_iff in Va, Vb. destruct Va as [Ma Da], Vb as [Mb Db].
  pose proof (year_bounds a Ha) as YB1. pose proof (year_bounds b Hb) as YB2. unfold year in YB1, YB2. rewrite Ea in YB1. rewrite Eb in YB2. cbn [fst] in YB1, YB2.
  assert (F1 : (m1 =? 2) && (d1 =? days_in_month y1 m1) = last_of_feb y1 m1 d1).
  { unfold last_of_feb. destruct (Z.eqb_spec m1 2) as [->|]; [|reflexivity]. rewrite days_in_month_spec by (unfold month_index; lia).
    unfold month_index. destruct (12 * y1 + (2 - 1) =? 12 * 2034 + (2 - 1)) eqn:E1; destruct (12 * y1 + (2 - 1) =? 12 * 2100 + (2 - 1)) eqn:E3;
    first [now rewrite !Z.add_0_r | exfalso; lia]. }
  assert (F2 : (m2 =? 2) && (d2 =? days_in_month y2 m2) = last_of_feb y2 m2 d2).
  { unfold last_of_feb. destruct (Z.eqb_spec m2 2) as [->|]; [|reflexivity]. rewrite days_in_month_spec by (unfold month_index; lia).
    unfold month_index. destruct (12 * y2 + (2 - 1) =? 12 * 2034 + (2 - 1)) eqn:E1; destruct (12 * y2 + (2 - 1) =? 12 * 2100 + (2 - 1)) eqn:E3;
    first [now rewrite !Z.add_0_r | exfalso; lia]. }
  rewrite F1, F2.
  pose proof (month_len_facts _ _ _ Da) as (P1 & P2 & P3). pose proof (month_len_facts _ _ _ Db) as (Q1 & Q2 & Q3).
  assert (L1 : last_of_feb y1 m1 d1 = true -> m1 = 2) by (unfold last_of_feb; lia).
  assert (L2 : last_of_feb y2 m2 d2 = true -> m2 = 2) by (unfold last_of_feb; lia).
  clear - P1 P2 Q1 Q2 L1 L2.
  destruct (last_of_feb y1 m1 d1); destruct (last_of_feb y2 m2 d2); cbn [andb].
  - specialize (L1 eq_refl). specialize (L2 eq_refl). cbn. lia.
  - specialize (L1 eq_refl). replace (30 <? 30) with false by lia. replace (30 <=? 30) with true by lia. rewrite andb_true_r.
    replace (30 =? 31) with false by lia. destruct (Z.eqb_spec d2 31); lia.
  - specialize (L2 eq_refl). destruct (Z.ltb_spec 30 d1); destruct (Z.eqb_spec d2 31); destruct (Z.leb_spec 30 d1); destruct (Z.eqb_spec d1 31); cbn [andb]; lia.
  - destruct (Z.ltb_spec 30 d1); destruct (Z.eqb_spec d2 31); destruct (Z.leb_spec 30 d1); destruct (Z.eqb_spec d1 31); cbn [andb]; lia.
Qed.
