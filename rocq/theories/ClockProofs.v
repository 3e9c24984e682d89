From Coq Require Import ZArith Ascii String List Bool Lia Reals Lra.
From Coq.Floats Require Import SpecFloat.
From Flocq Require Import Core IEEE754.BinarySingleNaN.
From Verif Require Import Base DateModel DateSpec DateCivil DateProofs DateTimeModel StringModel FloatReal ClockModel.
Import ListNotations.
Local Open Scope Z_scope.
#[local] Instance Hprec : FLX.Prec_gt_0 prec := eq_refl _.
#[local] Instance Hmax : Prec_lt_emax prec emax := eq_refl _.
Ltac Zify.zify_post_hook ::= Z.div_mod_to_equations.

(** * every second of the day, by computation *)
Definition frac_of (secs : Z) : spec_float := fdiv (fl_of_Z secs) (fl_of_Z 86400).
Definition triple_eqb (a b : Z * Z * Z) : bool :=
  let '(x, y, z) := a in let '(u, v, w) := b in (x =? u) && (y =? v) && (z =? w).
Lemma triple_eqb_eq a b : triple_eqb a b = true -> a = b.
Proof. destruct a as [[x y] z], b as [[u v] w]. cbn. intros H. apply andb_prop in H as [H H3]. apply andb_prop in H as [H1 H2]. apply Z.eqb_eq in H1, H2, H3. congruence. Qed.
(** * a count of units since midnight *)
Lemma rnd_near (x : R) : (0 <= x <= 1)%R -> (Rabs (rnd x - x) <= bpow radix2 (-52))%R.
Proof.
  intros H. unfold rnd. eapply Rle_trans; [apply (error_le_half_ulp radix2 fexp64)|].
  assert (L : (ulp radix2 fexp64 x <= ulp radix2 fexp64 1)%R) by (apply (ulp_le_pos radix2 fexp64); apply H).
  assert (E : ulp radix2 fexp64 1 = bpow radix2 (-52)).
  { change 1%R with (bpow radix2 0). rewrite ulp_bpow. reflexivity. }
  rewrite E in L. pose proof (bpow_ge_0 radix2 (-52)). lra.
Qed.

(** truncating N times the fraction, where the day has N units of D seconds *)
Lemma units secs N D : 0 <= secs < 86400 -> 0 < N -> 0 < D -> N * D = 86400 ->
  let t := fl_trunc (fmul (fl_of_Z N) (frac_of secs)) in
  (secs mod D <> 0 -> t = secs / D) /\ (t = secs / D \/ t = secs / D - 1).
Proof.
  intros H HN HD E t.
  assert (D0 : IZR 86400 <> 0%R) by (apply IZR_neq; lia).
  set (q := (IZR secs / IZR 86400)%R).
  assert (Hk : (0 <= IZR secs <= 86399)%R) by (split; apply IZR_le; lia).
  assert (Eq : (q * 86400 = IZR secs)%R) by (unfold q; field).
  assert (Hq : (0 <= q <= 1)%R) by lra.
  assert (Hd : holds (frac_of secs) (rnd q)) by (apply holds_div; [apply holds_Z; lia|apply holds_Z; lia|exact D0|apply div_big; lia]).
  pose proof (rnd_near q Hq) as Nr. apply Rabs_le_inv in Nr.
  assert (B : bpow radix2 (-52) = (/ 4503599627370496)%R) by (cbn; lra). rewrite B in Nr.
  assert (Hp : (0 <= rnd q)%R) by (rewrite <- (rnd_Z 0) by lia; apply rnd_le; apply Hq).
  assert (HNr : (1 <= IZR N <= 86400)%R) by (split; apply IZR_le; nia).
  assert (HDr : (1 <= IZR D <= 86400)%R) by (split; apply IZR_le; nia).
  assert (Er : (IZR N * IZR D = 86400)%R) by (rewrite <- mult_IZR, E; reflexivity).
  assert (Hm : holds (fmul (fl_of_Z N) (frac_of secs)) (rnd (IZR N * rnd q))).
  { apply holds_mul; [apply holds_Z; nia|exact Hd|]. rewrite Rabs_pos_eq by nra.
    eapply Rle_trans; [|apply (fits 86401); lia]. rewrite Rabs_pos_eq by lra. nra. }
  unfold t. rewrite (trunc_holds _ _ Hm). clear t Hm Hd.
  set (p := (IZR N * rnd q)%R).
  (* p is within 2^-35 of N q = secs / D *)
  set (z := (IZR N * q)%R). assert (Ez : (z * IZR D = IZR secs)%R) by (unfold z; nra).
  assert (P : (z - / 34359738368 <= p <= z + / 34359738368)%R) by (unfold p, z; nra).
  pose proof (Z.div_mod secs D ltac:(lia)) as Dm. pose proof (Z.mod_pos_bound secs D ltac:(lia)) as Rm.
  set (k := secs / D) in *. set (r := secs mod D) in *.
  assert (Hk0 : 0 <= k <= 86400) by (unfold k; split; [apply Z.div_pos; lia|]; assert (k * D <= secs) by lia; nia).
  assert (Ek : ((z - IZR k) * IZR D = IZR r)%R).
  { rewrite Rmult_minus_distr_r, Ez. rewrite Dm at 1. rewrite plus_IZR, mult_IZR. ring. }
  assert (Hr1 : (IZR r <= IZR D - 1)%R) by (rewrite <- minus_IZR; apply IZR_le; lia).
  assert (Hr0 : (0 <= IZR r)%R) by (apply IZR_le; lia).
  clearbody k r z. clear Dm.
  assert (Up : (z - IZR k <= 1 - / 86400)%R).
  { apply Rmult_le_reg_r with (IZR D); [lra|]. rewrite Ek.
    apply Rle_trans with (IZR D - 1)%R; [exact Hr1|]. assert (IZR D * / 86400 <= 1)%R by lra. lra. }
  assert (Low : (0 <= z - IZR k)%R).
  { apply Rmult_le_reg_r with (IZR D); [lra|]. rewrite Ek. lra. }
  assert (L0 : (0 <= rnd p)%R) by (rewrite <- (rnd_Z 0) by lia; apply rnd_le; unfold p; nra).
  assert (U : (rnd p <= IZR k + 1 - bpow radix2 (-20))%R).
  { assert (F : rnd (IZR k + 1 - bpow radix2 (-20)) = (IZR k + 1 - bpow radix2 (-20))%R).
    { apply rnd_rep. replace (IZR k + 1 - bpow radix2 (-20))%R with (IZR ((k + 1) * 2 ^ 20 - 1) * bpow radix2 (-20))%R.
      - apply rep_float; lia.
      - rewrite minus_IZR, mult_IZR, plus_IZR. change (IZR (2 ^ 20)) with (bpow radix2 20). rewrite Rmult_minus_distr_r, Rmult_assoc, <- bpow_plus. change (bpow radix2 (20 + -20)) with 1%R. set (u := bpow radix2 (-20)). ring. }
    rewrite <- F. apply rnd_le. assert (bpow radix2 (-20) = / 1048576)%R as -> by (cbn; lra). lra. }
  rewrite Ztrunc_floor by exact L0.
  assert (F1 : Zfloor (rnd p) <= k).
  { assert (Zfloor (rnd p) < k + 1)%Z; [|lia]. apply lt_IZR. rewrite plus_IZR. pose proof (Zfloor_lb (rnd p)). pose proof (bpow_gt_0 radix2 (-20)). lra. }
  split.
  - intros Hne. assert (k <= Zfloor (rnd p)); [|lia]. apply Zfloor_lub. rewrite <- (rnd_Z k) by lia. apply rnd_le.
    assert (/ 86400 <= z - IZR k)%R; [|lra].
    apply Rmult_le_reg_r with (IZR D); [lra|]. rewrite Ek. assert (1 <= IZR r)%R by (apply IZR_le; lia). lra.
  - assert (k - 1 <= Zfloor (rnd p)); [|lia]. apply Zfloor_lub. rewrite minus_IZR.
    rewrite <- (minus_IZR k 1), <- (rnd_Z (k - 1)) by lia. apply rnd_le. rewrite minus_IZR. lra.
Qed.

(** * the whole minutes of the day, by computation *)
Definition minute_ok (n : Z) : bool :=
  let '(h, m, s) := hms (frac_of (60 * n)) in
  (h =? n / 60) && ((m =? n mod 60) || (m =? n mod 60 - 1)) && (0 <=? m) && ((s =? 0) || (s =? 59)) && 
  (if n mod 15 =? 0 then (m =? n mod 60) && (s =? 0) else true).
Lemma all_minutes : all_range 0 1440 minute_ok = true.
Proof. vm_compute. reflexivity. Qed.
Lemma second_cases secs : 0 <= secs < 86400 -> exists h m s, hms (frac_of secs) = (h, m, s) /\ h = secs / 3600 /\ 0 <= m < 60 /\ 0 <= s < 60 /\
  (secs mod 60 = 0 -> (m = secs / 60 mod 60 \/ m = secs / 60 mod 60 - 1) /\ (s = 0 \/ s = 59)) /\
  (secs mod 60 <> 0 -> m = secs / 60 mod 60 /\ (s = secs mod 60 \/ s = secs mod 60 - 1)) /\
  (secs mod 900 = 0 -> m = secs / 60 mod 60 /\ s = secs mod 60).
Proof.
  intros H. destruct (Z.eq_dec (secs mod 60) 0) as [E|E].
  - pose proof (all_range_spec 0 1440 minute_ok ltac:(lia) all_minutes (secs / 60) ltac:(lia)) as M. unfold minute_ok in M.
    replace (60 * (secs / 60)) with secs in M by lia. destruct (hms (frac_of secs)) as [[h m] s].
    exists h, m, s. split; [reflexivity|].
    assert (E3 : secs / 60 / 60 = secs / 3600) by lia. rewrite E3 in M.
    assert (E4 : (secs mod 900 = 0) -> secs / 60 mod 15 = 0) by lia.
    set (m0 := secs / 60 mod 60) in *. set (h0 := secs / 3600) in *. assert (0 <= m0 < 60) by (unfold m0; lia). clearbody m0 h0. clear E3.
    destruct (secs / 60 mod 15 =? 0) eqn:E5; repeat split; try lia; try (intros; exfalso; lia).
  - destruct (units secs 24 3600 H) as [A1 A2]; try lia. destruct (units secs 1440 60 H) as [B1 B2]; try lia.
    destruct (units secs 86400 1 H) as [C1 C2]; try lia. cbv zeta in *.
    unfold hms. rewrite A1 by lia. rewrite B1 by lia. eexists _, _, _. split; [reflexivity|].
    set (t := fl_trunc (fmul (fl_of_Z 86400) (frac_of secs))) in *. clearbody t. rewrite Z.div_1_r in C2.
    rewrite !Z.rem_mod_nonneg by lia. repeat split; try lia.
Qed.

(** * milliseconds *)
Lemma msec_frac k : 0 <= k < 86400000 ->
  exists v, fl_trunc (fmul (fdiv (fl_of_Z k) (fl_of_Z 86400000)) (fl_of_Z 86400000)) = v /\ (v = k \/ v = k - 1) /\
    SFltb (fdiv (fl_of_Z k) (fl_of_Z 86400000)) (fl_of_Z 1) = true.
Proof.
  intros H.
  assert (D0 : IZR 86400000 <> 0%R) by (apply IZR_neq; lia).
  set (q := (IZR k / IZR 86400000)%R).
  assert (Hk : (0 <= IZR k <= 86399999)%R) by (split; apply IZR_le; lia).
  assert (Eq : (q * 86400000 = IZR k)%R) by (unfold q; field).
  assert (Hq : (0 <= q <= 1)%R) by lra.
  assert (Hd : holds (fdiv (fl_of_Z k) (fl_of_Z 86400000)) (rnd q)) by (apply holds_div; [apply holds_Z; lia|apply holds_Z; lia|exact D0|apply div_big; lia]).
  pose proof (rnd_near q Hq) as N. apply Rabs_le_inv in N.
  assert (B : bpow radix2 (-52) = (/ 4503599627370496)%R) by (cbn; lra). rewrite B in N.
  assert (Hp : (0 <= rnd q)%R).
  { rewrite <- (rnd_Z 0) by lia. apply rnd_le. apply Hq. }
  assert (Hm : holds (fmul (fdiv (fl_of_Z k) (fl_of_Z 86400000)) (fl_of_Z 86400000)) (rnd (rnd q * IZR 86400000))).
  { apply holds_mul; [exact Hd|apply holds_Z; lia|]. rewrite Rabs_pos_eq by nra.
    eapply Rle_trans; [|apply (fits 86400001); lia]. rewrite Rabs_pos_eq by lra. lra. }
  eexists. split; [reflexivity|]. split.
  - rewrite (trunc_holds _ _ Hm). set (p := (rnd q * IZR 86400000)%R) in *.
    assert (P : (IZR k - 1/2 <= p <= IZR k + 1/2)%R) by (unfold p; lra).
    assert (U : (rnd p <= IZR k + 1/2)%R).
    { replace (IZR k + 1/2)%R with (IZR (2 * k + 1) * bpow radix2 (-1))%R.
      - rewrite <- (rnd_rep (IZR (2 * k + 1) * bpow radix2 (-1))) by (apply rep_float; lia). apply rnd_le.
        rewrite plus_IZR, mult_IZR. change (bpow radix2 (-1)) with (/2)%R. lra.
      - rewrite plus_IZR, mult_IZR. change (bpow radix2 (-1)) with (/2)%R. field. }
    assert (L : (IZR k - 1/2 <= rnd p)%R).
    { replace (IZR k - 1/2)%R with (IZR (2 * k - 1) * bpow radix2 (-1))%R.
      - rewrite <- (rnd_rep (IZR (2 * k - 1) * bpow radix2 (-1))) by (apply rep_float; lia). apply rnd_le.
        rewrite minus_IZR, mult_IZR. change (bpow radix2 (-1)) with (/2)%R. lra.
      - rewrite minus_IZR, mult_IZR. change (bpow radix2 (-1)) with (/2)%R. field. }
    assert (L0 : (0 <= rnd p)%R) by (rewrite <- (rnd_Z 0) by lia; apply rnd_le; unfold p; nra).
    rewrite Ztrunc_floor by exact L0.
    assert (F1 : (Zfloor (rnd p) <= k)%Z).
    { assert (Zfloor (rnd p) < k + 1)%Z; [|lia]. apply lt_IZR. rewrite plus_IZR. pose proof (Zfloor_lb (rnd p)). lra. }
    assert (F2 : (k - 1 <= Zfloor (rnd p))%Z) by (apply Zfloor_lub; rewrite minus_IZR; lra).
    lia.
  - apply (holds_ltb _ _ (rnd q) 1 Hd (holds_Z 1 ltac:(lia))). lra.
Qed.

(** * text *)
Lemma cut_app sep a r : ~ In sep a -> cut sep (a ++ sep :: r) = (a, Some r).
Proof.
  induction a as [|c a IH]; intros H; cbn.
  - rewrite Ascii.eqb_refl. reflexivity.
  - destruct (Ascii.eqb_spec c sep) as [->|Hne]; [exfalso; apply H; left; reflexivity|].
    rewrite IH by (intros Hin; apply H; right; exact Hin). reflexivity.
Qed.
Lemma cut_none sep a : ~ In sep a -> cut sep a = (a, None).
Proof.
  induction a as [|c a IH]; intros H; cbn; [reflexivity|].
  destruct (Ascii.eqb_spec c sep) as [->|Hne]; [exfalso; apply H; left; reflexivity|].
  rewrite IH by (intros Hin; apply H; right; exact Hin). reflexivity.
Qed.
Lemma digit_not c k : is_digit c = false -> 0 <= k <= 9 -> digit k <> c.
Proof.
  intros Hc Hk E. subst c. assert (T : all_range 0 10 (fun k => is_digit (digit k)) = true) by (vm_compute; reflexivity).
  pose proof (all_range_spec 0 10 _ ltac:(lia) T k ltac:(lia)) as T'. cbv beta in T'. congruence.
Qed.
Lemma pad2_not c n : is_digit c = false -> 0 <= n < 100 -> ~ In c (list_ascii_of_string (pad2 n)).
Proof. intros Hc Hn. unfold pad2. cbn [list_ascii_of_string In]. intros [E|[E|[]]]; revert E; apply digit_not; try assumption; lia. Qed.
Lemma pad4_not c n : is_digit c = false -> 0 <= n < 10000 -> ~ In c (list_ascii_of_string (pad4 n)).
Proof.
  intros Hc Hn. unfold pad4. cbn [list_ascii_of_string In].
  intros [E|[E|H]]; [revert E; apply digit_not; try assumption; lia|revert E; apply digit_not; try assumption; lia|].
  revert H. apply pad2_not; [exact Hc|lia].
Qed.
Lemma las_app a b : list_ascii_of_string (a ++ b)%string = (list_ascii_of_string a ++ list_ascii_of_string b)%list.
Proof. induction a as [|c a IH]; cbn; [reflexivity|]. rewrite IH. reflexivity. Qed.
Lemma date_no_blank d : 1 <= d < 65536 -> ~ In " "%char (list_ascii_of_string (to_string d)).
Proof.
  intros H. pose proof (ymd_civil d H) as Hc.
  assert (Hs : supported (ymd d)) by (eapply civil_supported; [eassumption|lia]).
  unfold to_string. destruct (ymd d) as [[y m] dd]. pose proof (supported_year _ _ _ Hs) as (Hy & Hm & Hd).
  pose proof (month_len_range y m).
  rewrite las_app. cbn [list_ascii_of_string]. rewrite las_app. cbn [list_ascii_of_string].
  intros Hin. apply in_app_or in Hin as [Hin|Hin]; [revert Hin; apply pad4_not; [reflexivity|lia]|].
  destruct Hin as [E|Hin]; [discriminate E|].
  apply in_app_or in Hin as [Hin|Hin]; [revert Hin; apply pad2_not; [reflexivity|lia]|].
  destruct Hin as [E|Hin]; [discriminate E|]. revert Hin; apply pad2_not; [reflexivity|lia].
Qed.
Lemma stoi_text_pad2 n : 0 <= n < 60 -> stoi_text (pad2 n) = Ok n.
Proof.
  intros H. assert (T : all_range 0 60 (fun n => match stoi_text (pad2 n) with Ok v => v =? n | _ => false end) = true) by (vm_compute; reflexivity).
  pose proof (all_range_spec 0 60 _ ltac:(lia) T n ltac:(lia)) as T'. cbv beta in T'.
  destruct (stoi_text (pad2 n)) as [v| | |]; try discriminate. apply Z.eqb_eq in T'. congruence.
Qed.
Lemma of_las s : of_str (list_ascii_of_string s) = s.
Proof. apply string_of_list_ascii_of_string. Qed.
Lemma split_three a b c : a <> [] -> b <> [] -> c <> [] -> ~ In ":"%char a -> ~ In ":"%char b -> ~ In ":"%char c ->
  split (a ++ ":"%char :: b ++ ":"%char :: c) ":"%char true = [a; b; c].
Proof.
  intros Ha Hb Hc Na Nb Nc. unfold split.
  assert (L : (3 <= S (List.length (a ++ ":"%char :: b ++ ":"%char :: c)))%nat) by (rewrite app_length; cbn; rewrite app_length; cbn; lia).
  destruct (S (List.length (a ++ ":"%char :: b ++ ":"%char :: c))) as [|[|[|n]]]; try lia.
  assert (P : forall f x r, x <> [] -> ~ In ":"%char x -> split_fuel (S f) (x ++ ":"%char :: r) ":"%char true = x :: split_fuel f r ":"%char true).
  { intros f x r Hx Nx. cbn [split_fuel]. destruct (x ++ ":"%char :: r) as [|y l] eqn:E; [destruct x; discriminate E|]. rewrite <- E.
    rewrite cut_app by exact Nx. destruct x; [contradiction|reflexivity]. }
  rewrite P by assumption. rewrite P by assumption. cbn [split_fuel]. destruct c as [|y c]; [contradiction|].
  rewrite cut_none by exact Nc. reflexivity.
Qed.
Lemma from_text_clock d h m s : 1 <= d < 65536 -> 0 <= h < 24 -> 0 <= m < 60 -> 0 <= s < 60 ->
  let text := (to_string d ++ " " ++ pad2 h ++ ":" ++ pad2 m ++ ":" ++ pad2 s)%string in
  is_text text = true /\
  from_text text = Ok (if in_bad_window (ymd d) then d - 1 else d, frac_of (60 * (60 * h + m) + s)).
Proof.
  intros Hd Hh Hm Hs text.
  assert (E : list_ascii_of_string text = (list_ascii_of_string (to_string d) ++ " "%char :: (list_ascii_of_string (pad2 h) ++ ":"%char :: list_ascii_of_string (pad2 m) ++ ":"%char :: list_ascii_of_string (pad2 s)))%list).
  { unfold text. rewrite las_app. cbn [list_ascii_of_string String.append]. do 2 f_equal. }
  pose proof (string_round_trip d Hd) as [R1 R2].
  split.
  - unfold is_text. rewrite E, cut_app by (apply date_no_blank; exact Hd). rewrite of_las, R2.
    rewrite cut_app by (apply pad2_not; [reflexivity|lia]). reflexivity.
  - unfold from_text. rewrite E, cut_app by (apply date_no_blank; exact Hd). rewrite of_las, R1. cbn [obind].
    rewrite split_three; try (apply pad2_not; [reflexivity|lia]); try discriminate.
    cbn [List.length Nat.leb andb mapm]. rewrite !of_las. rewrite !stoi_text_pad2 by lia. cbn [obind].
    replace (forallb _ _ && _) with true.
    2:{ symmetry. cbn [forallb]. lia. }
    unfold mk_hms. replace (_ && _) with true by lia. reflexivity.
Qed.
