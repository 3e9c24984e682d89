(** Integer-level facts about rounding to nearest in [SpecFloat] (binary64, positive numbers). *)
From Coq Require Import ZArith Bool Lia ZifyBool.
From Coq Require Import Floats.SpecFloat.
From Verif Require Import DateModel.
Open Scope Z_scope.

Lemma shr_1_m r : 0 <= shr_m r -> shr_m (shr_1 r) = shr_m r / 2.
Proof.
  destruct r as [m r s]. cbn [shr_m shr_1]. intros H. destruct m as [|p|p]; [reflexivity| |lia].
  destruct p as [p|p|]; cbn [shr_m].
  - rewrite (Pos2Z.inj_xI p). rewrite Z.mul_comm, Z.div_add_l by lia. change (1 / 2) with 0. lia.
  - rewrite (Pos2Z.inj_xO p). rewrite Z.mul_comm, Z.div_mul by lia. reflexivity.
  - reflexivity.
Qed.

Lemma shr_iter_m p : forall r, 0 <= shr_m r -> shr_m (iter_pos shr_1 p r) = shr_m r / 2 ^ Z.pos p.
Proof.
  induction p as [p IH|p IH|]; intros r H; cbn [iter_pos].
  - assert (H1 : 0 <= shr_m (shr_1 r)) by (rewrite shr_1_m by assumption; apply Z.div_pos; lia).
    assert (H2 : 0 <= shr_m (iter_pos shr_1 p (shr_1 r))) by (rewrite IH by assumption; apply Z.div_pos; lia).
    rewrite IH by assumption. rewrite IH by assumption. rewrite shr_1_m by assumption.
    rewrite !Z.div_div by lia. f_equal.
    replace (Z.pos p~1) with (1 + (Z.pos p + Z.pos p)) by lia. rewrite !Z.pow_add_r by lia. lia.
  - assert (H2 : 0 <= shr_m (iter_pos shr_1 p r)) by (rewrite IH by assumption; apply Z.div_pos; lia).
    rewrite IH by assumption. rewrite IH by assumption. rewrite Z.div_div by lia. f_equal.
    replace (Z.pos p~0) with (Z.pos p + Z.pos p) by lia. rewrite Z.pow_add_r by lia. lia.
  - rewrite shr_1_m by assumption. reflexivity.
Qed.

Lemma digits2_pos_bounds p : 2 ^ (Z.pos (digits2_pos p) - 1) <= Z.pos p < 2 ^ Z.pos (digits2_pos p).
Proof.
  induction p as [p IH|p IH|]; cbn [digits2_pos].
  - rewrite Pos2Z.inj_succ. replace (Z.succ (Z.pos (digits2_pos p)) - 1) with (Z.succ (Z.pos (digits2_pos p) - 1)) by lia.
    rewrite !Z.pow_succ_r by lia. lia.
  - rewrite Pos2Z.inj_succ. replace (Z.succ (Z.pos (digits2_pos p)) - 1) with (Z.succ (Z.pos (digits2_pos p) - 1)) by lia.
    rewrite !Z.pow_succ_r by lia. lia.
  - cbn. lia.
Qed.

Lemma digits2_unique p d : 0 < d -> 2 ^ (d - 1) <= Z.pos p < 2 ^ d -> Z.pos (digits2_pos p) = d.
Proof.
  intros Hd H. pose proof (digits2_pos_bounds p) as B.
  destruct (Z.lt_trichotomy (Z.pos (digits2_pos p)) d) as [L|[E|L]]; [|assumption|].
  - assert (2 ^ Z.pos (digits2_pos p) <= 2 ^ (d - 1)) by (apply Z.pow_le_mono_r; lia). lia.
  - assert (2 ^ d <= 2 ^ (Z.pos (digits2_pos p) - 1)) by (apply Z.pow_le_mono_r; lia). lia.
Qed.

Lemma round_cases m l : round_nearest_even m l = m \/ round_nearest_even m l = m + 1.
Proof. destruct l as [|[ | | ]]; cbn; auto. destruct (Z.even m); auto. Qed.

Lemma shr_rec_m q l : shr_m (shr_record_of_loc q l) = q.
Proof. destruct l as [|[ | | ]]; reflexivity. Qed.

(** Rounding a positive mantissa with [53 + n] binary digits: it becomes one of the two neighbouring multiples of 2^n. *)
Lemma round_aux_pos q e l n : 0 <= n -> 2 ^ (52 + n) <= q < 2 ^ (53 + n) -> -1000 <= e -> e + n <= 900 ->
  exists R e', binary_round_aux 53 1024 false q e l = S754_finite false R e' /\ e <= e' /\ 2 ^ 52 <= Z.pos R < 2 ^ 53 /\
    (Z.pos R * 2 ^ (e' - e) = q / 2 ^ n * 2 ^ n \/ Z.pos R * 2 ^ (e' - e) = (q / 2 ^ n + 1) * 2 ^ n).
Proof.
  intros Hn Hq He1 He2.
  assert (Hq0 : 0 < q) by (assert (0 < 2 ^ (52 + n)) by (apply Z.pow_pos_nonneg; lia); lia).
  destruct q as [|qp|qp]; try lia.
  assert (Hd : Zdigits2 (Z.pos qp) = 53 + n).
  { cbn [Zdigits2]. apply digits2_unique; [lia|]. replace (53 + n - 1) with (52 + n) by lia. assumption. }
  assert (Hdiv : 2 ^ 52 <= Z.pos qp / 2 ^ n < 2 ^ 53).
  { rewrite Z.pow_add_r in Hq by lia. rewrite (Z.pow_add_r 2 53) in Hq by lia.
    assert (0 < 2 ^ n) by (apply Z.pow_pos_nonneg; lia). split.
    - apply Z.div_le_lower_bound; lia.
    - apply Z.div_lt_upper_bound; lia. }
  unfold binary_round_aux, shr_fexp at 1. rewrite Hd.
  assert (Hf : fexp 53 1024 (53 + n + e) - e = n) by (unfold fexp, emin; lia). rewrite Hf.
  set (rec := shr_record_of_loc (Z.pos qp) l).
  assert (Hrec : shr_m rec = Z.pos qp) by apply shr_rec_m.
  assert (Hshr : exists r1, shr rec e n = (r1, e + n) /\ shr_m r1 = Z.pos qp / 2 ^ n).
  { destruct n as [|np|np]; [| |lia]; cbn [shr].
    - exists rec. rewrite Z.add_0_r, Hrec. split; [reflexivity|]. change (2 ^ 0) with 1. rewrite Z.div_1_r. reflexivity.
    - eexists. split; [reflexivity|]. rewrite shr_iter_m by (rewrite Hrec; lia). rewrite Hrec. reflexivity. }
  destruct Hshr as (r1 & -> & Hr1).
  set (v := round_nearest_even (shr_m r1) (loc_of_shr_record r1)).
  assert (Hv : v = Z.pos qp / 2 ^ n \/ v = Z.pos qp / 2 ^ n + 1) by (unfold v; rewrite <- Hr1; apply round_cases).
  clearbody v. assert (Hv' : 2 ^ 52 <= v <= 2 ^ 53) by lia.
  destruct v as [|vp|vp]; [lia| |lia].
  unfold shr_fexp.
  destruct (Z.eq_dec (Z.pos vp) (2 ^ 53)) as [E|E].
  - assert (Hd2 : Zdigits2 (Z.pos vp) = 54) by (cbn [Zdigits2]; apply digits2_unique; lia). rewrite Hd2.
    assert (Hf2 : fexp 53 1024 (54 + (e + n)) - (e + n) = 1) by (unfold fexp, emin; lia). rewrite Hf2.
    cbn [shr iter_pos].
    match goal with |- context [shr_m ?r] => assert (Hm : shr_m r = 2 ^ 52) end.
    { rewrite shr_1_m by (rewrite shr_rec_m; lia). rewrite shr_rec_m, E. reflexivity. }
    rewrite Hm. change (2 ^ 52) with (Z.pos 4503599627370496).
    destruct (Zle_bool _ _) eqn:Eb; [|apply Z.leb_gt in Eb; lia].
    exists 4503599627370496%positive, (e + n + 1). split; [reflexivity|]. split; [lia|]. split; [lia|].
    replace (e + n + 1 - e) with (n + 1) by lia. rewrite Z.pow_add_r by lia.
    destruct Hv as [Hv|Hv]; [left|right]; rewrite <- Hv, E; lia.
  - assert (Hd2 : Zdigits2 (Z.pos vp) = 53) by (cbn [Zdigits2]; apply digits2_unique; lia). rewrite Hd2.
    assert (Hf2 : fexp 53 1024 (53 + (e + n)) - (e + n) = 0) by (unfold fexp, emin; lia). rewrite Hf2.
    cbn [shr shr_record_of_loc shr_m].
    destruct (Zle_bool _ _) eqn:Eb; [|apply Z.leb_gt in Eb; lia].
    exists vp, (e + n). split; [reflexivity|]. split; [lia|]. split; [lia|].
    replace (e + n - e) with n by lia.
    destruct Hv as [Hv|Hv]; [left|right]; rewrite Hv; reflexivity.
Qed.

Lemma shift_pos_Z d m : Z.pos (shift_pos d m) = Z.pos m * 2 ^ Z.pos d.
Proof. rewrite shift_pos_correct. rewrite Zpower_pos_nat, Zpower_nat_Z, positive_nat_Z. lia. Qed.

(** A positive mantissa of at most 53 digits is represented exactly. *)
Lemma normalize_exact m e d : 1 <= d <= 53 -> 2 ^ (d - 1) <= m < 2 ^ d -> -900 <= e <= 800 ->
  exists R, binary_normalize 53 1024 m e false = S754_finite false R (e + d - 53) /\ Z.pos R = m * 2 ^ (53 - d).
Proof.
  intros Hd Hm He. assert (0 < 2 ^ (d - 1)) by (apply Z.pow_pos_nonneg; lia).
  destruct m as [|mp|mp]; try lia. cbn [binary_normalize]. unfold binary_round.
  assert (Hdig : Z.pos (digits2_pos mp) = d) by (apply digits2_unique; lia). rewrite Hdig.
  assert (Hf : fexp 53 1024 (d + e) = e + d - 53) by (unfold fexp, emin; lia). rewrite Hf.
  unfold shl_align. replace (e + d - 53 - e) with (d - 53) by lia.
  assert (Hal : exists mz, (match d - 53 with Z.neg p => (shift_pos p mp, e + d - 53) | _ => (mp, e) end) = (mz, e + d - 53) /\ Z.pos mz = Z.pos mp * 2 ^ (53 - d)).
  { destruct (Z.eq_dec d 53) as [->|].
    - exists mp. change (53 - 53) with 0. cbn iota. split; [f_equal; lia | change (2 ^ 0) with 1; lia].
    - destruct (d - 53) as [|p|p] eqn:E; try lia. eexists. split; [reflexivity|].
      rewrite shift_pos_Z. f_equal. f_equal. lia. }
  destruct Hal as (mz & -> & Hmz).
  assert (Hr : 2 ^ 52 <= Z.pos mz < 2 ^ 53).
  { rewrite Hmz. assert (E52 : 2 ^ 52 = 2 ^ (d - 1) * 2 ^ (53 - d)) by (rewrite <- Z.pow_add_r by lia; f_equal; lia).
    assert (E53 : 2 ^ 53 = 2 ^ d * 2 ^ (53 - d)) by (rewrite <- Z.pow_add_r by lia; f_equal; lia).
    rewrite E52, E53.
    assert (0 < 2 ^ (53 - d)) by (apply Z.pow_pos_nonneg; lia).
    split; [apply Z.mul_le_mono_nonneg_r; lia | apply Z.mul_lt_mono_pos_r; lia]. }
  unfold binary_round_aux, shr_fexp at 1.
  assert (Hd2 : Zdigits2 (Z.pos mz) = 53) by (cbn [Zdigits2]; apply digits2_unique; lia). rewrite Hd2.
  assert (Hf2 : fexp 53 1024 (53 + (e + d - 53)) - (e + d - 53) = 0) by (unfold fexp, emin; lia). rewrite Hf2.
  cbn [shr shr_record_of_loc shr_m loc_of_shr_record round_nearest_even].
  unfold shr_fexp. rewrite Hd2, Hf2. cbn [shr shr_record_of_loc shr_m].
  destruct (Zle_bool _ _) eqn:Eb; [|apply Z.leb_gt in Eb; lia].
  exists mz. split; [reflexivity|assumption].
Qed.

(** Dividing two normalised positive numbers: the quotient is within two units of the exact integer quotient. *)
Lemma div_pos_bound m1 e1 m2 e2 : 2 ^ 52 <= Z.pos m1 < 2 ^ 53 -> 2 ^ 52 <= Z.pos m2 < 2 ^ 53 -> -300 <= e1 <= 300 -> -300 <= e2 <= 300 ->
  exists R e' q, SFdiv 53 1024 (S754_finite false m1 e1) (S754_finite false m2 e2) = S754_finite false R e' /\
    q = Z.pos m1 * 2 ^ 53 / Z.pos m2 /\
    e1 - e2 - 53 <= e' /\ 2 * (q / 2) <= Z.pos R * 2 ^ (e' - (e1 - e2 - 53)) <= q + 2.
Proof.
  intros H1 H2 He1 He2. unfold SFdiv, SFdiv_core_binary.
  assert (Hd1 : Zdigits2 (Z.pos m1) = 53) by (cbn [Zdigits2]; apply digits2_unique; lia).
  assert (Hd2 : Zdigits2 (Z.pos m2) = 53) by (cbn [Zdigits2]; apply digits2_unique; lia).
  rewrite Hd1, Hd2.
  assert (Hez : Z.min (fexp 53 1024 (53 + e1 - (53 + e2))) (e1 - e2) = e1 - e2 - 53) by (unfold fexp, emin; lia).
  rewrite Hez. replace (e1 - e2 - (e1 - e2 - 53)) with 53 by lia. rewrite Z.shiftl_mul_pow2 by lia.
  pose proof (Z_div_mod (Z.pos m1 * 2 ^ 53) (Z.pos m2) ltac:(lia)) as Hdm.
  assert (Hqd : fst (Z.div_eucl (Z.pos m1 * 2 ^ 53) (Z.pos m2)) = Z.pos m1 * 2 ^ 53 / Z.pos m2).
  { unfold Z.div. destruct (Z.div_eucl _ _); reflexivity. }
  destruct (Z.div_eucl (Z.pos m1 * 2 ^ 53) (Z.pos m2)) as [q r] eqn:Eq. cbn [fst] in Hqd.
  destruct Hdm as [Hdm Hb].
  assert (Hq : 2 ^ 52 <= q < 2 ^ 54).
  { clear - Hdm Hb H1 H2. split.
    - assert (2 ^ 52 * Z.pos m2 <= Z.pos m1 * 2 ^ 53) by lia. assert (2 ^ 52 < q + 1) by nia. lia.
    - assert (Z.pos m1 * 2 ^ 53 < 2 ^ 54 * Z.pos m2) by lia. nia. }
  assert (Hn : exists n, (n = 0 \/ n = 1) /\ 2 ^ (52 + n) <= q < 2 ^ (53 + n)).
  { destruct (Z.lt_ge_cases q (2 ^ 53)); [exists 0 | exists 1]; split; auto; cbn in *; lia. }
  destruct Hn as (n & Hn & Hqn).
  destruct (round_aux_pos q (e1 - e2 - 53) (new_location (Z.pos m2) r) n) as (R & e' & E1 & E2 & E3 & E4); try lia.
  cbn [xorb]. rewrite E1. exists R, e', q. split; [reflexivity|]. split; [assumption|]. split; [assumption|].
  destruct Hn as [->| ->].
  - change (2 ^ 0) with 1 in E4. rewrite Z.div_1_r in E4. pose proof (Z.mul_div_le q 2 ltac:(lia)). lia.
  - change (2 ^ 1) with 2 in E4. pose proof (Z.mul_div_le q 2 ltac:(lia)). lia.
Qed.

Lemma trunc_scaled R e' ez : ez <= e' -> ez < 0 ->
  fl_trunc (S754_finite false R e') = Z.pos R * 2 ^ (e' - ez) / 2 ^ (- ez).
Proof.
  intros H1 H2. cbn [fl_trunc]. destruct (0 <=? e') eqn:E.
  - replace (e' - ez) with (e' + - ez) by lia. rewrite Z.pow_add_r by lia. rewrite Z.mul_assoc, Z.div_mul; [reflexivity|].
    apply Z.pow_nonzero; lia.
  - replace (- ez) with (- e' + (e' - ez)) by lia. rewrite Z.pow_add_r by lia.
    rewrite Z.div_mul_cancel_r; [reflexivity| |]; apply Z.pow_nonzero; lia.
Qed.
