(** Facts about the calendar specification and the two conversions. *)
From Coq Require Import ZArith List Bool Lia ZifyBool.
From Verif Require Import Base DateModel DateSpec DateFloat.
Open Scope Z_scope.
Ltac Zify.zify_post_hook ::= Z.div_mod_to_equations.

(** Closed form of the day number, used only in proofs. *)
Definition mdays (m : Z) : Z :=
  if m =? 1 then 0 else if m =? 2 then 31 else if m =? 3 then 59 else if m =? 4 then 90
  else if m =? 5 then 120 else if m =? 6 then 151 else if m =? 7 then 181 else if m =? 8 then 212
  else if m =? 9 then 243 else if m =? 10 then 273 else if m =? 11 then 304 else 334.
Definition leaps_before (y : Z) : Z := (y - 1) / 4 - (y - 1) / 100 + (y - 1) / 400.
Definition daynum (t : Z * Z * Z) : Z :=
  let '(y, m, d) := t in
  365 * (y - 1970) + (leaps_before y - 477) + mdays m + (if (2 <? m) && leap y then 1 else 0) + (d - 1).

Lemma month_cases m : 1 <= m <= 12 ->
  m = 1 \/ m = 2 \/ m = 3 \/ m = 4 \/ m = 5 \/ m = 6 \/ m = 7 \/ m = 8 \/ m = 9 \/ m = 10 \/ m = 11 \/ m = 12.
Proof. lia. Qed.

Lemma leaps_succ y : leaps_before (y + 1) = leaps_before y + (if leap y then 1 else 0).
Proof. unfold leaps_before, leap. destruct (y mod 4 =? 0) eqn:?, (y mod 100 =? 0) eqn:?, (y mod 400 =? 0) eqn:?; cbn; lia. Qed.

Lemma valid_iff y m d : valid_ymd (y, m, d) = true <-> 1 <= m <= 12 /\ 1 <= d <= month_len y m.
Proof. unfold valid_ymd. rewrite !andb_true_iff, !Z.leb_le. tauto. Qed.

Lemma month_len_range y m : 28 <= month_len y m <= 31.
Proof. unfold month_len. destruct (_ || _); [lia|]. destruct (m =? 2); [destruct (leap y)|]; lia. Qed.

Ltac month_split H :=
  apply month_cases in H;
  repeat (destruct H as [H|H]; [subst | ]); subst.

Lemma month_len_mdays y m : 1 <= m <= 11 ->
  month_len y m = mdays (m + 1) + (if (2 <? m + 1) && leap y then 1 else 0) - mdays m - (if (2 <? m) && leap y then 1 else 0).
Proof.
  intros H. assert (Hm : 1 <= m <= 12) by lia. month_split Hm; try lia; unfold month_len, mdays; cbn;
  destruct (leap y); reflexivity.
Qed.

Lemma daynum_next t : valid_ymd t = true -> daynum (next_day t) = daynum t + 1.
Proof.
  destruct t as [[y m] d]. intros H. apply valid_iff in H. destruct H as [Hm Hd].
  unfold next_day. destruct (d <? month_len y m) eqn:E1.
  - unfold daynum. lia.
  - destruct (m <? 12) eqn:E2.
    + unfold daynum. assert (d = month_len y m) by lia. subst d. rewrite month_len_mdays by lia.
      destruct ((2 <? m + 1) && leap y), ((2 <? m) && leap y); lia.
    + assert (m = 12) by lia. subst m. assert (L : month_len y 12 = 31) by reflexivity. rewrite L in *. assert (d = 31) by lia. subst d.
      unfold daynum. rewrite leaps_succ. change (2 <? 12) with true. change (2 <? 1) with false.
      change (mdays 12) with 334. change (mdays 1) with 0. cbn [andb]. destruct (leap y); lia.
Qed.

Lemma valid_next t : valid_ymd t = true -> valid_ymd (next_day t) = true.
Proof.
  destruct t as [[y m] d]. intros H. apply valid_iff in H. destruct H as [Hm Hd].
  unfold next_day. destruct (d <? month_len y m) eqn:E1.
  - apply valid_iff. lia.
  - destruct (m <? 12) eqn:E2; apply valid_iff.
    + pose proof (month_len_range y (m + 1)). lia.
    + pose proof (month_len_range (y + 1) 1). lia.
Qed.

Lemma civil_facts n t : civil n t -> 0 <= n /\ valid_ymd t = true /\ daynum t = n /\ 1970 <= fst (fst t).
Proof.
  induction 1 as [|n t H (H1 & H2 & H3 & H4)].
  - repeat split; try reflexivity; cbn; lia.
  - repeat split; [lia | apply valid_next; assumption | rewrite daynum_next by assumption; lia |].
    destruct t as [[y m] d]. unfold next_day. cbn in H4.
    destruct (d <? _); [|destruct (m <? 12)]; cbn; lia.
Qed.

Lemma civil_fun n t t' : civil n t -> civil n t' -> t = t'.
Proof.
  intros H. revert t'. induction H as [|n t H IH]; intros t' H'.
  - remember 0 as z eqn:Ez. destruct H' as [|n t H']; [reflexivity|]. apply civil_facts in H'. lia.
  - remember (n + 1) as z eqn:Ez. destruct H' as [|n' t' H'].
    + apply civil_facts in H. lia.
    + assert (n' = n) by lia. subst n'. f_equal. apply IH. assumption.
Qed.

Lemma prev_exists y m d : valid_ymd (y, m, d) = true -> 1970 <= y -> (y, m, d) <> (1970, 1, 1) ->
  exists t, valid_ymd t = true /\ 1970 <= fst (fst t) /\ next_day t = (y, m, d).
Proof.
  intros H Hy Hne. apply valid_iff in H. destruct H as [Hm Hd].
  destruct (Z.eq_dec d 1) as [->|Hd1].
  - destruct (Z.eq_dec m 1) as [->|Hm1].
    + exists (y - 1, 12, 31). repeat split.
      * cbn [fst]. assert (y <> 1970) by congruence. lia.
      * cbn. f_equal. f_equal. lia.
    + exists (y, m - 1, month_len y (m - 1)). pose proof (month_len_range y (m - 1)). repeat split.
      * apply valid_iff. lia.
      * cbn; lia.
      * unfold next_day. rewrite Z.ltb_irrefl. destruct (m - 1 <? 12) eqn:E; [|lia].
        f_equal; f_equal; lia.
  - exists (y, m, d - 1). repeat split.
    + apply valid_iff. lia.
    + cbn; lia.
    + unfold next_day. destruct (d - 1 <? month_len y m) eqn:E; [|lia]. f_equal; lia.
Qed.

Lemma daynum_nonneg y m d : valid_ymd (y, m, d) = true -> 1970 <= y -> 0 <= daynum (y, m, d).
Proof.
  intros H Hy. apply valid_iff in H. destruct H as [Hm Hd].
  assert (477 <= leaps_before y) by (unfold leaps_before; lia).
  assert (0 <= mdays m) by (month_split Hm; cbn; lia).
  unfold daynum. destruct ((2 <? m) && leap y); lia.
Qed.

Lemma civil_of_daynum t : valid_ymd t = true -> 1970 <= fst (fst t) -> civil (daynum t) t.
Proof.
  assert (forall k t, daynum t = Z.of_nat k -> valid_ymd t = true -> 1970 <= fst (fst t) -> civil (daynum t) t) as G.
  { induction k as [|k IH]; intros [[y m] d] Hk Hv Hy; cbn [fst] in Hy.
    - assert (E : (y, m, d) = (1970, 1, 1) \/ (y, m, d) <> (1970, 1, 1))
        by (destruct (Z.eq_dec y 1970), (Z.eq_dec m 1), (Z.eq_dec d 1); subst; auto; right; congruence).
      destruct E as [E|E].
      + rewrite E. constructor.
      + destruct (prev_exists y m d Hv Hy E) as (t' & V' & Y' & N'). rewrite <- N' in Hk.
        rewrite daynum_next in Hk by assumption. destruct t' as [[y' m'] d'].
        pose proof (daynum_nonneg y' m' d' V' Y'). lia.
    - assert (E : (y, m, d) = (1970, 1, 1) \/ (y, m, d) <> (1970, 1, 1))
        by (destruct (Z.eq_dec y 1970), (Z.eq_dec m 1), (Z.eq_dec d 1); subst; auto; right; congruence).
      destruct E as [E|E].
      + rewrite E. constructor.
      + destruct (prev_exists y m d Hv Hy E) as (t' & V' & Y' & N'). rewrite <- N' in *.
        rewrite daynum_next in * by assumption. constructor. apply IH; [lia|assumption|assumption]. }
  intros Hv Hy. destruct t as [[y m] d]. pose proof (daynum_nonneg y m d Hv Hy).
  apply (G (Z.to_nat (daynum (y, m, d)))); auto. rewrite Z2Nat.id; auto.
Qed.

Lemma civil_iff n t : civil n t <-> valid_ymd t = true /\ 1970 <= fst (fst t) /\ n = daynum t.
Proof.
  split.
  - intros H. apply civil_facts in H. intuition lia.
  - intros (H1 & H2 & ->). apply civil_of_daynum; assumption.
Qed.

(** ** Order *)
Lemma ymd_ltb_next t : valid_ymd t = true -> ymd_ltb t (next_day t) = true.
Proof.
  destruct t as [[y m] d]. intros _. unfold next_day, ymd_ltb.
  destruct (d <? month_len y m) eqn:E1; [|destruct (m <? 12) eqn:E2]; lia.
Qed.

Lemma ymd_ltb_trans a b c : ymd_ltb a b = true -> ymd_ltb b c = true -> ymd_ltb a c = true.
Proof. destruct a as [[? ?] ?], b as [[? ?] ?], c as [[? ?] ?]. unfold ymd_ltb. lia. Qed.
Lemma ymd_ltb_irrefl a : ymd_ltb a a = false.
Proof. destruct a as [[? ?] ?]. unfold ymd_ltb. lia. Qed.

Lemma civil_lt n t k t' : civil n t -> civil k t' -> n < k -> ymd_ltb t t' = true.
Proof.
  intros H H'. revert n t H. induction H' as [|k t' H' IH]; intros n t H Hlt.
  - apply civil_facts in H. lia.
  - assert (Hv : valid_ymd t' = true) by (apply civil_facts in H'; tauto).
    destruct (Z.eq_dec n k) as [->|].
    + rewrite (civil_fun _ _ _ H H'). apply ymd_ltb_next. assumption.
    + eapply ymd_ltb_trans; [apply (IH n t H); lia | apply ymd_ltb_next; assumption].
Qed.

Lemma civil_ltb n t k t' : civil n t -> civil k t' -> ymd_ltb t t' = (n <? k).
Proof.
  intros H H'. destruct (Z.ltb_spec n k) as [L|L].
  - eapply civil_lt; eassumption.
  - destruct (Z.eq_dec n k) as [->|].
    + rewrite (civil_fun _ _ _ H H'). apply ymd_ltb_irrefl.
    + assert (ymd_ltb t' t = true) by (eapply civil_lt; try eassumption; lia).
      destruct (ymd_ltb t t') eqn:E; [|reflexivity].
      pose proof (ymd_ltb_trans _ _ _ E H0) as C. rewrite ymd_ltb_irrefl in C. discriminate.
Qed.

Definition leap_extra (y : Z) : Z := if leap y then 1 else 0.
Lemma leap_extra_eq y : leap_extra y = leaps_before (y + 1) - leaps_before y.
Proof. unfold leap_extra. rewrite leaps_succ. lia. Qed.

(** ** Reading a stored date *)
Lemma civil_exists n : 0 <= n -> exists t, civil n t.
Proof.
  intros H. rewrite <- (Z2Nat.id n H). induction (Z.to_nat n) as [|k [t IH]].
  - exists (1970, 1, 1). constructor.
  - exists (next_day t). rewrite Nat2Z.inj_succ. replace (Z.succ (Z.of_nat k)) with (Z.of_nat k + 1) by lia. constructor. assumption.
Qed.

(** Day number in years starting on 1 March. *)
Definition mstart (m : Z) : Z := 306001 * (if m <=? 2 then m + 13 else m + 1) / 10000.
Lemma daynum_march y m d : 1 <= m <= 12 ->
  let y' := if m <=? 2 then y - 1 else y in
  daynum (y, m, d) = 365 * y' + y' / 4 - y' / 100 + y' / 400 + mstart m + d - 719468 - 123.
Proof.
  intros Hm. cbv zeta. unfold daynum.
  replace (if (2 <? m) && leap y then 1 else 0) with (if 2 <? m then leap_extra y else 0)
    by (unfold leap_extra; destruct (2 <? m), (leap y); reflexivity).
  rewrite leap_extra_eq. unfold leaps_before. replace (y + 1 - 1) with y by lia.
  assert (Hms : mstart m = mdays m + (if m <=? 2 then 428 else 63)) by (month_split Hm; reflexivity).
  rewrite Hms. destruct (m <=? 2) eqn:E; [replace (2 <? m) with false by lia | replace (2 <? m) with true by lia]; lia.
Qed.

Lemma month_finder m d : 1 <= m <= 12 -> 1 <= d <= 31 -> (m = 2 -> d <= 29) -> (m = 4 \/ m = 6 \/ m = 9 \/ m = 11 -> d <= 30) ->
  (mstart m + d) * 10000 / 306001 = if m <=? 2 then m + 13 else m + 1.
Proof.
  intros Hm Hd H2 H30. month_split Hm; (match goal with |- context [mstart ?k] =>
     let v := eval vm_compute in (mstart k) in change (mstart k) with v end); cbn [Z.leb Z.compare Pos.compare Pos.compare_cont]; lia.
Qed.

Lemma month_len_facts y m d : 1 <= d <= month_len y m ->
  1 <= d <= 31 /\ (m = 2 -> d <= 29) /\ (m = 4 \/ m = 6 \/ m = 9 \/ m = 11 -> d <= 30).
Proof.
  intros H. pose proof (month_len_range y m). split; [lia|]. split.
  - intros ->. unfold month_len in H. cbn in H. destruct (leap y); lia.
  - intros [->|[->|[->| ->]]]; unfold month_len in H; cbn in H; lia.
Qed.

Lemma mstart_range m d y : 1 <= m <= 12 -> 1 <= d <= month_len y m ->
  122 < mstart m + d <= 488 /\ (leap y = false -> m = 2 -> mstart m + d <= 487).
Proof.
  intros Hm Hd. pose proof (month_len_facts _ _ _ Hd) as (H1 & H2 & H3).
  split.
  - month_split Hm; (match goal with |- context [mstart ?k] =>
     let v := eval vm_compute in (mstart k) in change (mstart k) with v end); lia.
  - intros L ->. unfold month_len in Hd. cbn in Hd. rewrite L in Hd. change (mstart 2) with 459. lia.
Qed.

Lemma ymd_Z_daynum y m d : valid_ymd (y, m, d) = true -> 1970 <= y <= 2149 ->
  excel_date_to_ymd_Z (daynum (y, m, d) + 25569) = (y, m, d).
Proof.
  intros Hv Hy. apply valid_iff in Hv. destruct Hv as [Hm Hd].
  pose proof (mstart_range m d y Hm Hd) as [Hr Hleap].
  pose proof (month_len_facts _ _ _ Hd) as (F1 & F2 & F3).
  pose proof (month_finder m d Hm F1 F2 F3) as HE.
  unfold excel_date_to_ymd_Z. cbv zeta. rewrite (daynum_march y m d Hm). cbv zeta.
  set (y' := if m <=? 2 then y - 1 else y).
  assert (Hy' : 1969 <= y' <= 2149) by (unfold y'; destruct (m <=? 2); lia).
  set (n := mstart m + d) in *.
  set (serial := 365 * y' + y' / 4 - y' / 100 + y' / 400 + mstart m + d - 719468 - 123 + 25569 + 2415019).
  assert (Hserial : serial = 365 * y' + y' / 4 - y' / 100 + y' / 400 + n + 1720997) by (unfold serial, n; lia).
  clearbody serial.
  (* the day index is at most 487 unless the following February has 29 days *)
  assert (Hlast : n <= 487 \/ (y' + 1) mod 4 = 0 /\ ((y' + 1) mod 100 <> 0 \/ (y' + 1) mod 400 = 0)).
  { destruct (Z.le_gt_cases n 487) as [|G]; [left; assumption|right].
    assert (m = 2).
    { month_split Hm; try reflexivity; unfold n in G; (match type of G with context [mstart ?k] =>
        let v := eval vm_compute in (mstart k) in change (mstart k) with v in G end); lia. }
    subst m. destruct (leap y) eqn:L; [|specialize (Hleap eq_refl eq_refl); lia].
    unfold y'. cbn [Z.leb Z.compare Pos.compare Pos.compare_cont]. unfold leap in L. replace (y - 1 + 1) with y by lia. lia. }
  assert (Halpha : (4 * serial - 7468865) / 146097 = y' / 100 - 4) by (rewrite Hserial; clear - Hy' Hr Hlast; lia).
  rewrite Halpha.
  assert (HB : serial + 1 + (y' / 100 - 4) - (y' / 100 - 4) / 4 + 1524 = 365 * y' + y' / 4 + n + 1722519) by (clear - Hserial Hy'; lia).
  rewrite HB.
  assert (HC : (20 * (365 * y' + y' / 4 + n + 1722519) - 2442) / 7305 = y' + 4716) by (clear - Hr Hy' Hlast; lia).
  rewrite HC.
  assert (HD : 1461 * (y' + 4716) / 4 = 365 * y' + y' / 4 + 1722519) by lia. rewrite HD.
  replace (365 * y' + y' / 4 + n + 1722519 - (365 * y' + y' / 4 + 1722519)) with n by lia.
  rewrite HE. unfold n, mstart, y'. destruct (m <=? 2) eqn:E.
  - destruct (13 <? m + 13) eqn:E1; [|lia]. destruct (3 <=? m + 13 - 13) eqn:E2; [lia|]. f_equal; [f_equal|]; lia.
  - destruct (13 <? m + 1) eqn:E1; [lia|]. destruct (3 <=? m + 1 - 1) eqn:E2; [|lia]. f_equal; [f_equal|]; lia.
Qed.

Lemma ymd_civil s : 1 <= s < 65536 -> civil (s - 1) (ymd s).
Proof.
  intros H. rewrite ymd_exact by lia. destruct (civil_exists (s - 1)) as (t & Ht); [lia|].
  pose proof (civil_facts _ _ Ht) as (_ & Hv & Hn & Hy).
  assert (Hy2 : fst (fst t) <= 2149).
  { assert (C0 : civil 65744 (2150, 1, 1)) by (apply civil_iff; repeat split; cbn; lia).
    pose proof (civil_lt _ _ _ _ Ht C0 ltac:(lia)) as L. destruct t as [[y m] d]. apply valid_iff in Hv.
    unfold ymd_ltb in L. cbn [fst]. lia. }
  destruct t as [[y m] d]. cbn [fst] in *. 
  replace (to_excel s) with (daynum (y, m, d) + 25569) by (unfold to_excel, EXCEL_OFFSET; lia).
  rewrite ymd_Z_daynum by (assumption || lia). assumption.
Qed.

(** ** Building a date *)
(** How many days early the built date is. *)
Definition century_error (y m : Z) : Z :=
  let x := y + 4900 - (if m <=? 2 then 1 else 0) in (3 * x) / 400 - (3 * (x / 100)) / 4.

Lemma from_ymd_daynum y m d : 1600 <= y -> 1 <= m <= 12 ->
  excel_date_from_ymd y m d = daynum (y, m, d) + 25569 - century_error y m.
Proof.
  intros Hy Hm. unfold daynum, century_error.
  replace (if (2 <? m) && leap y then 1 else 0) with (if 2 <? m then leap_extra y else 0)
    by (unfold leap_extra; destruct (2 <? m), (leap y); reflexivity).
  rewrite leap_extra_eq.
  assert (Hk : Z.quot (m - 14) 12 = if m <=? 2 then -1 else 0) by (month_split Hm; reflexivity).
  assert (H367 : Z.quot (367 * (m - 2 - 12 * (if m <=? 2 then -1 else 0))) 12 =
                 mdays m + (if m <=? 2 then 336 else -29))
    by (month_split Hm; reflexivity).
  unfold excel_date_from_ymd. rewrite Hk. cbv zeta. rewrite H367.
  assert (Hq : forall a b, 0 <= a -> 0 < b -> Z.quot a b = a / b) by (intros; apply Z.quot_div_nonneg; assumption).
  assert (Hc : forall z, 0 <= z -> z / 4 - z / 100 + z / 400 = z / 4 - (3 * ((z + 4900) / 100)) / 4 + 36) by (intros; lia).
  assert (Hd : forall z, 0 <= z -> (1461 * z) / 4 = 365 * z + z / 4) by (intros; lia).
  unfold leaps_before.
  destruct (m <=? 2) eqn:E; [replace (2 <? m) with false by lia | replace (2 <? m) with true by lia];
  rewrite Z.quot_quot by lia; change (100 * 4) with 400; rewrite !Hq by lia; rewrite Hd by lia.
  - rewrite Hc by lia. replace (y - 1 + 4900) with (y + 4900 - 1) by lia. replace (y + 4900 + -1) with (y + 4900 - 1) by lia.
    replace (y + -1) with (y - 1) by lia.
    generalize (3 * ((y + 4900 - 1) / 100) / 4) (3 * (y + 4900 - 1) / 400) ((y - 1) / 4). intros; lia.
  - replace (y + 1 - 1) with y by lia. replace (y + 4900 + 0) with (y + 4900) by lia.
    replace (y + 4900 - 0) with (y + 4900) by lia. replace (y + 0) with y by lia. rewrite (Hc y) by lia.
    generalize (3 * ((y + 4900) / 100) / 4) (3 * (y + 4900) / 400) (y / 4) ((y - 1) / 4) ((y - 1) / 100) ((y - 1) / 400).
    intros; lia.
Qed.

(** In the supported years the error is one day exactly in the window 2034-03-01 .. 2100-02-28. *)
Lemma century_error_window y m d : 1970 <= y <= 2149 -> 1 <= m <= 12 -> 1 <= d ->
  century_error y m = if in_bad_window (y, m, d) then 1 else 0.
Proof.
  intros Hy Hm Hd. unfold century_error, in_bad_window, ymd_ltb.
  set (x := y + 4900 - (if m <=? 2 then 1 else 0)).
  assert (Hx : 6869 <= x <= 7049 /\ (6934 <= x <= 6999 <->
     (negb ((y <? 2034) || (y =? 2034) && ((m <? 3) || (m =? 3) && (d <? 1))) &&
      ((y <? 2100) || (y =? 2100) && ((m <? 3) || (m =? 3) && (d <? 1)))) = true)).
  { unfold x. destruct (m <=? 2) eqn:E; lia. }
  destruct Hx as [Hr Hx]. destruct (_ && _) eqn:E.
  - destruct Hx as [_ Hx]. specialize (Hx eq_refl). lia.
  - assert (~ (6934 <= x <= 6999)) by (intros C; apply Hx in C; discriminate). lia.
Qed.
