(** C53: times of day. *)
From Coq Require Import ZArith Ascii String List Bool Lia Reals Lra.
From Coq.Floats Require Import SpecFloat.
From Verif Require Import Base DateModel DateSpec DateCivil DateProofs DateTimeModel StringModel FloatReal ClockModel ClockProofs.
From Verif Require StringProofs.
Import ListNotations.
Local Open Scope Z_scope.
Ltac Zify.zify_post_hook ::= Z.div_mod_to_equations.

Lemma build d h m s : 0 <= h < 24 -> 0 <= m < 60 -> 0 <= s < 60 ->
  mk_hms (A := FloatArith) d h m s = Ok (d, frac_of (60 * (60 * h + m) + s)).
Proof. intros Hh Hm Hs. unfold mk_hms. replace (_ && _) with true by lia. reflexivity. Qed.

(** A time built from hours, minutes and seconds always has the right hour. *)
Theorem C53_hour d h m s : 0 <= h < 24 -> 0 <= m < 60 -> 0 <= s < 60 ->
  exists t, mk_hms (A := FloatArith) d h m s = Ok t /\ hour t = h.
Proof.
  intros Hh Hm Hs. rewrite build by assumption. eexists. split; [reflexivity|]. unfold hour. cbn [snd].
  destruct (second_cases (60 * (60 * h + m) + s) ltac:(lia)) as (h' & m' & s' & -> & E & _). cbn. rewrite E. lia.
Qed.
Print Assumptions C53_hour.

(** What is read back: the seconds may be one too low; of a whole minute the minute may be one too low and the seconds
    may be 59 instead of 0, one without the other. *)
Theorem C53_clock d h m s : 0 <= h < 24 -> 0 <= m < 60 -> 0 <= s < 60 ->
  exists t m' s', mk_hms (A := FloatArith) d h m s = Ok t /\ hms (snd t) = (h, m', s') /\ 0 <= m' < 60 /\ 0 <= s' < 60 /\
    (s <> 0 -> m' = m /\ (s' = s \/ s' = s - 1)) /\
    (s = 0 -> (m' = m \/ m' = m - 1) /\ (s' = 0 \/ s' = 59)) /\
    (s = 0 -> m mod 15 = 0 -> m' = m /\ s' = 0).
Proof.
  intros Hh Hm Hs. rewrite build by assumption.
  destruct (second_cases (60 * (60 * h + m) + s) ltac:(lia)) as (h' & m' & s' & E & E1 & E2 & E3 & E4 & E5 & E6).
  eexists _, m', s'. split; [reflexivity|]. cbn [snd]. rewrite E.
  replace ((60 * (60 * h + m) + s) / 60 mod 60) with m in * by lia. replace ((60 * (60 * h + m) + s) mod 60) with s in * by lia.
  replace h' with h by lia. split; [reflexivity|]. split; [exact E2|]. split; [exact E3|]. split; [exact E5|]. split; [exact E4|].
  intros H0 H15. destruct E6 as [E7 E8]; lia.
Qed.
Print Assumptions C53_clock.

(** Written as text and read again: recognised as a date and time, the date as in C01, the time at most a minute off. *)
Theorem C53_text d h m s : 1 <= d < 65536 -> 0 <= h < 24 -> 0 <= m < 60 -> 0 <= s < 60 ->
  exists t h' m' s', mk_hms (A := FloatArith) d h m s = Ok t /\ is_text (to_text t) = true /\
    from_text (to_text t) = mk_hms (A := FloatArith) (if in_bad_window (ymd d) then d - 1 else d) h' m' s' /\
    0 <= h' < 24 /\ 0 <= m' < 60 /\ 0 <= s' < 60 /\
    Z.abs ((3600 * h' + 60 * m' + s') - (3600 * h + 60 * m + s)) <= 60 /\
    (s = 0 -> m mod 15 = 0 -> (h', m', s') = (h, m, s)).
Proof.
  intros Hd Hh Hm Hs. destruct (C53_clock d h m s Hh Hm Hs) as (t & m' & s' & E & E1 & E2 & E3 & E4 & E5 & E6).
  exists t, h, m', s'. split; [exact E|]. rewrite build in E by assumption.
  assert (Et : t = (d, frac_of (60 * (60 * h + m) + s))) by congruence.
  assert (Ex : to_text t = (to_string d ++ " " ++ pad2 h ++ ":" ++ pad2 m' ++ ":" ++ pad2 s')%string).
  { unfold to_text, time_string. rewrite E1. subst t. reflexivity. }
  rewrite Ex. destruct (from_text_clock d h m' s' Hd Hh E2 E3) as [T1 T2].
  split; [exact T1|]. split; [rewrite build by assumption; exact T2|]. split; [exact Hh|]. split; [exact E2|]. split; [exact E3|]. split.
  - destruct (Z.eq_dec s 0) as [H0|H0]; [destruct (E5 H0)|destruct (E4 H0)]; lia.
  - intros H0 H15. destruct (E6 H0 H15) as [-> ->]. subst s. reflexivity.
Qed.
Print Assumptions C53_text.
Example C53_text_case : exists t, mk_hms (A := FloatArith) 18322 12 30 0 = Ok t /\ to_text t = "2020-02-29 12:30:00"%string /\ from_text (to_text t) = Ok t.
Proof. eexists. split; [reflexivity|]. split; vm_compute; reflexivity. Qed.

(** What counts as a date and time: a date, a blank, something, a colon, something. *)
Theorem C53_recognised src : is_text src = true <->
  exists d h m, list_ascii_of_string src = d ++ " "%char :: h ++ ":"%char :: m /\ ~ In " "%char d /\ ~ In ":"%char h /\
    is_date_string (string_of_list_ascii d) = true /\ h <> [] /\ m <> [].
Proof.
  unfold is_text. split.
  - destruct (cut " " (list_ascii_of_string src)) as [first [r|]] eqn:E; [|discriminate]. destruct (StringProofs.cut_sound _ _ _ _ E) as [N1 E1]. intros H. apply andb_true_iff in H as [H1 H2].
    destruct (cut ":" r) as [h [m|]] eqn:F; [|destruct h; discriminate]. destruct (StringProofs.cut_sound _ _ _ _ F) as [N2 E2].
    exists first, h, m. rewrite E1, E2. destruct h as [|a h]; [discriminate|]. destruct m as [|b m]; [discriminate|]. repeat split; try assumption; discriminate.
  - intros (d & h & m & E & N1 & N2 & D & Nh & Nm). rewrite E, StringProofs.cut_app by exact N1. unfold of_str. rewrite D, StringProofs.cut_app by exact N2. destruct h; [congruence|]. destruct m; [congruence|]. reflexivity.
Qed.
Print Assumptions C53_recognised.
(** Whatever text is accepted, the time it denotes is a time of day on the date it denotes. *)
Theorem C53_accepted src t : from_text src = Ok t -> exists first d h m s, (exists more, list_ascii_of_string src = first ++ more /\ (more = [] \/ exists r, more = " "%char :: r)) /\ ~ In " "%char first /\
  from_string (string_of_list_ascii first) = Ok d /\ 0 <= h < 24 /\ 0 <= m < 60 /\ 0 <= s < 60 /\ mk_hms (A := FloatArith) d h m s = Ok t.
Proof.
  unfold from_text. destruct (cut " " (list_ascii_of_string src)) as [first rest] eqn:E. destruct (StringProofs.cut_sound _ _ _ _ E) as [N1 E1]. unfold of_str.
  destruct (from_string (string_of_list_ascii first)) as [d| | |] eqn:D; try discriminate. cbn [obind]. destruct rest as [r|].
  - destruct (_ && _)%nat eqn:Hn; [|discriminate]. destruct (mapm _ _) as [v| | |] eqn:V; try discriminate. cbn [obind]. destruct v as [|h [|m more]]; try discriminate.
    destruct (forallb _ _ && _) eqn:G; [|discriminate]. intros H. apply andb_true_iff in G as [G1 G2]. cbn [forallb] in G1. apply andb_true_iff in G1 as [Gh G1]. apply andb_true_iff in G1 as [Gm G1].
    exists first, d, h, m, (match more with x :: _ => x | [] => 0 end). split; [exists (" "%char :: r); split; [exact E1|right; exists r; reflexivity]|]. split; [exact N1|]. split; [exact D|]. split; [lia|]. split; [lia|]. split; [|exact H].
    destruct more as [|x more]; [lia|]. cbn [forallb] in G1. lia.
  - intros H. exists first, d, 0, 0, 0. split; [exists []; split; [rewrite app_nil_r in *; exact E1|left; reflexivity]|]. repeat split; try assumption; lia.
Qed.
Print Assumptions C53_accepted.
Example C53_recognised_case : is_text "2020-02-29 12:30" = true /\ is_text "2020-02-29 12:" = false /\ (exists t, from_text "2020-02-29 23:59" = Ok t) /\ from_text "2020-02-29 24:00" = Throw.
Proof. split; [reflexivity|]. split; [reflexivity|]. split; [eexists; vm_compute; reflexivity|vm_compute; reflexivity]. Qed.

(** A number of milliseconds since the first day comes back, or one less. *)
Theorem C53_msec ms : 0 <= ms < 65535 * 86400000 -> exists t, of_msec ms = Ok t /\ (msec t = ms \/ msec t = ms - 1).
Proof.
  intros H. unfold of_msec. rewrite Z.quot_div_nonneg by lia. set (w := ms / 86400000). set (k := ms - 86400000 * w).
  assert (Hk : 0 <= k < 86400000) by (unfold k, w; lia).
  assert (Hw : 0 <= w < 65535) by (unfold w; lia).
  destruct (msec_frac k Hk) as (v & Ev & Hv & Hlt).
  rewrite Hlt. eexists. split; [reflexivity|]. unfold msec. cbn [fst snd]. rewrite Ev.
  change date_minimum with 1. rewrite add_days_in by lia. unfold date_diff, to_excel. unfold k in *. clearbody w. lia.
Qed.
Print Assumptions C53_msec.
Example C53_msec_case : 0 <= 1700000000000 < 65535 * 86400000.
Proof. lia. Qed.

(** Refuted: reading a time back exactly. 00:00:11 gives :10, 00:13:00 gives 00:12:59, 00:33:00 gives 00:33:59 and
    01:49:00 gives 01:48:00. *)
Theorem C53_exact_refuted :
  (exists t, mk_hms (A := FloatArith) 1 0 0 11 = Ok t /\ time_string t = "00:00:10"%string) /\
  (exists t, mk_hms (A := FloatArith) 1 0 13 0 = Ok t /\ time_string t = "00:12:59"%string) /\
  (exists t, mk_hms (A := FloatArith) 1 0 33 0 = Ok t /\ time_string t = "00:33:59"%string) /\
  (exists t, mk_hms (A := FloatArith) 1 1 49 0 = Ok t /\ time_string t = "01:48:00"%string).
Proof. repeat split; (eexists; split; [reflexivity|vm_compute; reflexivity]). Qed.
Print Assumptions C53_exact_refuted.

(** Refuted: storing a time as text. A time written and read again can move by 59 seconds, and again each time. *)
Theorem C53_text_refuted : exists t u, mk_hms (A := FloatArith) 18322 0 33 0 = Ok t /\ from_text (to_text t) = Ok u /\
  mk_hms (A := FloatArith) 18322 0 33 59 = Ok u.
Proof. eexists _, _. split; [reflexivity|]. split; vm_compute; reflexivity. Qed.
Print Assumptions C53_text_refuted.

(** Refuted: milliseconds. *)
Theorem C53_msec_refuted : exists t, of_msec 31 = Ok t /\ msec t = 30.
Proof. eexists. split; vm_compute; reflexivity. Qed.
Print Assumptions C53_msec_refuted.
(** A negative number of milliseconds is accepted, with a negative fraction of a day. *)
Theorem C53_negative_refuted : exists t, of_msec (-1) = Ok t /\ SFltb (snd t) (fl_of_Z 0) = true /\ fst t = date_minimum.
Proof. eexists. split; [vm_compute; reflexivity|]. split; vm_compute; reflexivity. Qed.
Print Assumptions C53_negative_refuted.
(** Text after the digits is ignored, and a colon at the end too. *)
Theorem C53_lenient_refuted :
  from_text "2020-02-29 12h:30" = from_text "2020-02-29 12:30" /\ from_text "2020-02-29 12:30:" = from_text "2020-02-29 12:30" /\
  from_text "2020-02-29 12:30" = mk_hms (A := FloatArith) 18322 12 30 0.
Proof. repeat split; vm_compute; reflexivity. Qed.
Print Assumptions C53_lenient_refuted.

(** * order and differences, over the reals *)
Local Open Scope R_scope.
Definition proper (t : datetime (A := RealArith)) : Prop := (1 <= fst t < 65536)%Z /\ 0 <= snd t < 1.
Theorem C53_order (a b : datetime (A := RealArith)) : proper a -> proper b ->
  (dt_ltb a b = true <-> 0 < dt_minus b a) /\ (dt_minus b a = 0 <-> a = b).
Proof.
  destruct a as [d f], b as [e g]. intros [Hd Hf] [He Hg]. cbn [fst snd] in *.
  unfold dt_ltb, dt_minus. cbn [fst snd].
  change (nsub (nadd (of_Z (date_diff e d)) g) f) with (IZR (date_diff e d) + g - f).
  unfold date_diff, to_excel, date_ltb, date_eqb. replace (e + EXCEL_OFFSET - (d + EXCEL_OFFSET))%Z with (e - d)%Z by lia.
  change (nltb (Arith := RealArith) f g) with (if Rlt_dec f g then true else false).
  change (num (Arith := RealArith)) with R in *.
  destruct (Z.lt_trichotomy d e) as [H|[H|H]].
  - assert (1 <= IZR (e - d)) by (apply IZR_le; lia). replace (d <? e)%Z with true by lia. cbn [orb].
    split; [split; [intros _; lra|reflexivity]|]. split; [intros; lra|]. intros E. assert (d = e) by congruence. lia.
  - subst e. rewrite Z.sub_diag, Z.ltb_irrefl, Z.eqb_refl. cbn [orb andb]. destruct (Rlt_dec f g) as [L|L].
    + split; [split; [intros _; lra|reflexivity]|]. split; [intros; lra|]. intros E. assert (f = g) by congruence. lra.
    + split; [split; [discriminate|intros; lra]|]. split; [intros; assert (f = g) by lra; congruence|]. intros E. assert (f = g) by congruence. lra.
  - assert (IZR (e - d) <= -1) by (apply IZR_le; lia). replace (d <? e)%Z with false by lia. replace (d =? e)%Z with false by lia. cbn [orb andb].
    split; [split; [discriminate|intros; lra]|]. split; [intros; lra|]. intros E. assert (d = e) by congruence. lia.
Qed.
Print Assumptions C53_order.
(** Adding a positive length of time moves by exactly that much, as long as the dates last. *)
Theorem C53_plus (t : datetime (A := RealArith)) x : proper t -> 0 < x -> IZR (fst t) + snd t + x < 65536 ->
  exists u, dt_plus t x = Ok u /\ proper u /\ dt_minus u t = x /\ dt_ltb t u = true.
Proof.
  intros Ht Hx Hmax. pose proof Ht as [Hd Hf].
  assert (G : exists u, dt_plus t x = Ok u /\ proper u /\ dt_minus u t = x).
  { destruct t as [d f]. cbn [fst snd] in *. change (num (Arith := RealArith)) with R in *.
    unfold dt_plus. replace (nltb (Arith := RealArith) (of_Z 0) x) with true by (symmetry; cbn; destruct (Rlt_dec 0 x); [reflexivity|lra]).
    cbn [negb fst snd]. change (nadd (Arith := RealArith) f x) with (f + x).
    change (to_int (Arith := RealArith) (f + x)) with (as_int (Int_part (f + x))).
    pose proof (base_Int_part (f + x)) as [I1 I2]. set (k := Int_part (f + x)) in *.
    assert (Hd1 : 1 <= IZR d) by (apply IZR_le; lia).
    assert (Hk : (0 <= k < 65536)%Z).
    { split; [assert (-1 < k)%Z; [apply lt_IZR; lra|lia]|]. apply lt_IZR. lra. }
    assert (Ha : as_int k = Ok k) by (unfold as_int, int_range; replace (_ && _) with true by lia; reflexivity).
    rewrite Ha. cbn [obind].
    assert (Hdk : (d + k < 65536)%Z) by (apply lt_IZR; rewrite plus_IZR; lra).
    destruct (Z.ltb_spec 0 k) as [L|L].
    - eexists. split; [reflexivity|]. rewrite add_days_in by lia. split.
      + split; cbn [fst snd]; [lia|]. change (nsub (Arith := RealArith) (f + x) (of_Z k)) with (f + x - IZR k). lra.
      + unfold dt_minus. cbn [fst snd]. unfold date_diff, to_excel. 
        change (IZR (d + k + EXCEL_OFFSET - (d + EXCEL_OFFSET)) + (f + x - IZR k) - f = x).
        replace (d + k + EXCEL_OFFSET - (d + EXCEL_OFFSET))%Z with k by lia. lra.
    - assert (k = 0)%Z by lia. eexists. split; [reflexivity|]. split.
      + split; cbn [fst snd]; [lia|]. rewrite H in *. lra.
      + unfold dt_minus. cbn [fst snd]. unfold date_diff, to_excel.
        change (IZR (d + EXCEL_OFFSET - (d + EXCEL_OFFSET)) + (f + x) - f = x). rewrite Z.sub_diag. lra. }
  destruct G as (u & E & P & M). exists u. split; [exact E|]. split; [exact P|]. split; [exact M|].
  apply (C53_order t u Ht P). change (@eq R (dt_minus u t) x) in M. rewrite M. exact Hx.
Qed.
Print Assumptions C53_plus.
Example C53_plus_case : proper (18322%Z, 1/2) /\ 0 < 3/4 /\ IZR (fst (18322%Z, 1/2)) + snd (18322%Z, 1/2) + 3/4 < 65536.
Proof. unfold proper. cbn. repeat split; try lra; lia. Qed.
