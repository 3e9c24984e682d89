From Coq Require Import ZArith Reals Bool Lia Lra Psatz Floats.SpecFloat.
From Flocq Require Import Core IEEE754.BinarySingleNaN.
From Verif Require Import Base DateModel FloatReal RoundModel.
Local Open Scope R_scope.
#[local] Instance Hprec : FLX.Prec_gt_0 prec := eq_refl _.
Lemma holds_format x r : holds x r -> generic_format radix2 fexp64 r.
Proof. intros (b & _ & _ & <-). apply generic_format_B2R. Qed.
Lemma holds_opp x r : holds x r -> holds (SFopp x) (- r).
Proof. intros (b & -> & F & <-). exists (Bopp b). split; [destruct b; reflexivity|]. split; [rewrite is_finite_Bopp; exact F|apply B2R_Bopp]. Qed.
Lemma holds_abs x r : holds x r -> holds (SFabs x) (Rabs r).
Proof. intros (b & -> & F & <-). exists (Babs b). split; [destruct b; reflexivity|]. split; [rewrite is_finite_Babs; exact F|apply B2R_Babs]. Qed.
Lemma rnd_near x r : generic_format radix2 fexp64 r -> Rabs (rnd x - x) <= Rabs (r - x).
Proof. intros H. destruct (round_N_pt radix2 fexp64 (fun n => negb (Z.even n)) x) as [_ N]. apply N, H. Qed.
Lemma half_holds : holds (fl_lit 1 2) (1 / 2).
Proof.
  unfold fl_lit. replace (1 / 2) with (rnd (1 / 2)); [apply holds_div; try apply holds_Z; try lia; [lra|]|].
  - rewrite Rabs_right by lra. apply Rle_trans with (bpow radix2 0); [cbn; lra|apply bpow_le; lia].
  - apply rnd_rep. replace (1 / 2) with (IZR 1 * bpow radix2 (-1)) by (cbn; lra). apply rep_float; lia.
Qed.
Definition pad : R := rnd (1 / 1000000000).
Lemma pad_holds : holds (fl_lit 1 1000000000) pad.
Proof.
  unfold fl_lit, pad. apply holds_div; try apply holds_Z; try lia; [lra|]. rewrite Rabs_right by lra. apply Rle_trans with (bpow radix2 0); [cbn; lra|apply bpow_le; lia].
Qed.
Lemma pad_small : 0 < pad <= 2 / 1000000000.
Proof.
  unfold pad. split.
  - apply Rlt_le_trans with (bpow radix2 (-30)); [apply bpow_gt_0|]. rewrite <- (rnd_rep (bpow radix2 (-30))); [apply rnd_le; cbn; lra|].
    replace (bpow radix2 (-30)) with (IZR 1 * bpow radix2 (-30)) by ring. apply rep_float; lia.
  - assert (G : generic_format radix2 fexp64 0) by apply generic_format_0. assert (N := rnd_near (1 / 1000000000) 0 G).
    rewrite (Rabs_left (0 - 1 / 1000000000)) in N by lra. apply Rabs_def2b in N || (apply Rabs_le_inv in N). lra.
Qed.
Definition limit : R := 2147483647.
Lemma sum_fits r p : Rabs r < limit -> 0 <= p <= 1 -> Rabs (r + p) <= big /\ Rabs (r + - p) <= big.
Proof.
  intros H Hp. unfold limit in H. assert (B : 4294967296 <= big) by (unfold big; apply Rle_trans with (bpow radix2 32); [cbn; lra|apply bpow_le; lia]).
  apply Rabs_def2 in H. split; apply Rabs_le; lra.
Qed.
(** the value after adding the signed pad and truncating, seen in absolute values *)
Lemma cast_ok x r p pf : holds x r -> holds pf p -> 0 <= p <= 1 / 2 -> Rabs r < limit ->
  to_int (fadd x (if SFltb (fl_of_Z 0) x then pf else SFopp pf)) = Ok (Ztrunc (rnd (r + (if Rlt_dec 0 r then p else - p)))).
Proof.
  intros Hx Hp P L. destruct (sum_fits r p L ltac:(lra)) as [F1 F2].
  assert (T : holds (fadd x (if SFltb (fl_of_Z 0) x then pf else SFopp pf)) (rnd (r + (if Rlt_dec 0 r then p else - p)))).
  { assert (C := holds_ltb (fl_of_Z 0) x 0 r (holds_Z 0 ltac:(lia)) Hx). destruct (Rlt_dec 0 r) as [G|G].
    - rewrite (proj2 C G). apply holds_add; assumption.
    - destruct (SFltb (fl_of_Z 0) x); [exfalso; apply G, C; reflexivity|]. apply holds_add; [assumption|apply holds_opp; assumption|assumption]. }
  set (y := fadd _ _) in *. set (v := rnd _) in *. assert (E := trunc_holds _ _ T).
  assert (V : Rabs v <= limit + 1 / 2).
  { assert (G : generic_format radix2 fexp64 (limit + 1 / 2)). { replace (limit + 1 / 2) with (IZR 4294967295 * bpow radix2 (-1)) by (unfold limit; cbn; lra). apply rep_float; lia. }
    unfold v. unfold rnd. apply abs_round_le_generic; [apply fexp_correct, Hprec|typeclasses eauto|exact G|]. apply Rabs_def2 in L. apply Rabs_le. destruct (Rlt_dec 0 r); lra. }
  assert (I : (Z.abs (Ztrunc v) <= 2147483647)%Z).
  { apply le_IZR. rewrite abs_IZR. assert (Q : Rabs (IZR (Ztrunc v)) < limit + 1 + 0).
    { assert (H1 : Rabs (IZR (Ztrunc v)) <= Rabs v). { rewrite <- abs_IZR. rewrite <- Ztrunc_abs. rewrite Ztrunc_floor by apply Rabs_pos. apply Zfloor_lb. } lra. }
    assert (H2 : (Z.abs (Ztrunc v) < 2147483648)%Z) by (apply lt_IZR; rewrite abs_IZR; unfold limit in Q; lra).
    rewrite <- abs_IZR. apply IZR_le. lia. }
  assert (R0 : int_range (fl_trunc y) = true) by (rewrite E; unfold int_range; lia).
  destruct T as (b & Eb & Fb & Rb). unfold to_int. rewrite R0, E. rewrite Eb. destruct b; try discriminate Fb; reflexivity.
Qed.
Lemma in_range x r : holds x r -> Rabs r < limit -> SFltb (SFabs x) (fl_of_Z 2147483647) = true.
Proof. intros H L. apply (holds_ltb _ _ (Rabs r) limit); [apply holds_abs, H|apply holds_Z; lia|exact L]. Qed.
Lemma out_range x r : holds x r -> limit <= Rabs r -> SFltb (SFabs x) (fl_of_Z 2147483647) = false.
Proof.
  intros H L. destruct (SFltb _ _) eqn:E; [|reflexivity]. apply (holds_ltb _ _ (Rabs r) limit) in E; [lra|apply holds_abs, H|apply holds_Z; lia].
Qed.
(** the mirrored result *)
Definition away (r p : R) : Z := Ztrunc (rnd (Rabs r + p)).
Lemma mirror r p : r <> 0 -> Ztrunc (rnd (r + (if Rlt_dec 0 r then p else - p))) = (if Rlt_dec 0 r then away r p else - away r p)%Z.
Proof.
  intros N. unfold away. destruct (Rlt_dec 0 r) as [G|G]; [rewrite Rabs_right by lra; reflexivity|]. rewrite Rabs_left by lra. replace (r + - p) with (- (- r + p)) by ring. rewrite rnd_opp, Ztrunc_opp. reflexivity.
Qed.
Lemma rep_Z n : (Z.abs n <= 2 ^ 53)%Z -> generic_format radix2 fexp64 (IZR n).
Proof. intros H. replace (IZR n) with (IZR n * bpow radix2 0)%R by (cbn; ring). apply rep_float; lia. Qed.
(** adding a half to a double from a half on and truncating is rounding half up *)
Lemma half_up r : generic_format radix2 fexp64 r -> 1 / 2 <= r < limit -> Ztrunc (rnd (r + 1 / 2)) = Zfloor (r + 1 / 2).
Proof.
  intros G H. set (y := r + 1 / 2). set (m := Zfloor y). assert (Lm := Zfloor_lb y). assert (Um := Zfloor_ub y). fold m in Lm, Um. unfold limit in H.
  assert (Bm : (1 <= m <= 2147483648)%Z). { split; [apply Zfloor_lub; unfold y; cbn; lra|]. apply le_IZR. unfold y in *. lra. }
  assert (Lo : IZR m <= rnd y) by (rewrite <- (rnd_Z m) by lia; apply rnd_le; exact Lm).
  assert (Hi : rnd y < IZR m + 1).
  { destruct (mag radix2 r) as [k Hk]. specialize (Hk ltac:(lra)). rewrite Rabs_right in Hk by lra.
    assert (K0 : (0 <= k)%Z). { assert (A : bpow radix2 (-1) < bpow radix2 k) by (cbn [bpow]; cbn; lra). apply lt_bpow in A. lia. }
    assert (K1 : (k <= 31)%Z). { assert (A : bpow radix2 (k - 1) < bpow radix2 31) by (apply Rle_lt_trans with r; [tauto|cbn; lra]). apply lt_bpow in A. lia. }
    assert (Em : mag radix2 r = k :> Z). { apply mag_unique. rewrite Rabs_right by lra. exact Hk. }
    assert (Er : r = IZR (Ztrunc (scaled_mantissa radix2 fexp64 r)) * bpow radix2 (k - 53)).
    { rewrite G at 1. unfold F2R. cbn [Fnum Fexp]. f_equal. f_equal. unfold cexp. rewrite Em. unfold SpecFloat.fexp, SpecFloat.emin, prec, emax. lia. }
    set (M := Ztrunc _) in Er. assert (Eh : 1 / 2 = IZR (2 ^ (52 - k)) * bpow radix2 (k - 53)).
    { rewrite (IZR_Zpower radix2) by lia. rewrite <- bpow_plus. replace (52 - k + (k - 53))%Z with (-1)%Z by lia. cbn; lra. }
    destruct (Rle_lt_dec y (bpow radix2 k)) as [A|A].
    - assert (Ey : y = IZR (M + 2 ^ (52 - k)) * bpow radix2 (k - 53)) by (rewrite plus_IZR, Rmult_plus_distr_r, <- Er, <- Eh; reflexivity).
      rewrite rnd_rep; [exact Um|]. rewrite Ey. apply rep_float; [|lia].
      assert (P : 0 <= IZR (M + 2 ^ (52 - k)) <= IZR (2 ^ 53)).
      { assert (B0 := bpow_gt_0 radix2 (k - 53)). split; apply (Rmult_le_reg_r (bpow radix2 (k - 53)) _ _ B0).
        - rewrite <- Ey. unfold y. lra.
        - rewrite <- Ey. change (IZR (2 ^ 53)) with (bpow radix2 53). rewrite <- bpow_plus. replace (53 + (k - 53))%Z with k by lia. exact A. }
      destruct P as [P1 P2]. apply le_IZR in P1. apply le_IZR in P2. lia.
    - assert (Eb : bpow radix2 k = IZR (2 ^ k)) by (symmetry; apply (IZR_Zpower radix2); exact K0).
      assert (Mk : m = (2 ^ k)%Z). { apply Zfloor_imp. rewrite plus_IZR, <- Eb. unfold y in *. lra. }
      rewrite Mk in *. apply Rle_lt_trans with (rnd (IZR (2 ^ k) + 1 / 2)); [apply rnd_le; unfold y; rewrite <- Eb; lra|]. rewrite rnd_rep; [lra|].
      replace (IZR (2 ^ k) + 1 / 2) with (IZR (2 * 2 ^ k + 1) * bpow radix2 (-1)) by (rewrite plus_IZR, mult_IZR; cbn; lra). apply rep_float; [|lia].
      assert (2 ^ k <= 2 ^ 31)%Z by (apply Z.pow_le_mono_r; lia). assert (0 < 2 ^ k)%Z by (apply Z.pow_pos_nonneg; lia). lia. }
  rewrite Ztrunc_floor by (apply Rle_trans with (IZR m); [apply IZR_le; lia|exact Lo]). apply Zfloor_imp. rewrite plus_IZR. lra.
Qed.
Lemma below_half r : 0 <= r <= 1 / 2 - bpow radix2 (-53) -> Ztrunc (rnd (r + 1 / 2)) = 0%Z.
Proof.
  intros H. assert (G : rnd (r + 1 / 2) <= 1 - bpow radix2 (-53)).
  { rewrite <- (rnd_rep (1 - bpow radix2 (-53))); [apply rnd_le; lra|]. replace (1 - bpow radix2 (-53)) with (IZR (2 ^ 53 - 1) * bpow radix2 (-53)) by (cbn; lra). apply rep_float; lia. }
  assert (L : 0 <= rnd (r + 1 / 2)) by (rewrite <- (rnd_Z 0) by lia; apply rnd_le; lra). assert (B := bpow_gt_0 radix2 (-53)).
  rewrite Ztrunc_floor by exact L. apply Zfloor_imp. cbn; lra.
Qed.
(** there is one double between *)
Lemma gap r : generic_format radix2 fexp64 r -> 1 / 2 - bpow radix2 (-53) < r < 1 / 2 -> r = 1 / 2 - bpow radix2 (-54).
Proof.
  intros G H. assert (Hb : bpow radix2 (-53) < 1 / 4) by (cbn; lra).
  assert (Em : mag radix2 r = (-1)%Z :> Z). { apply mag_unique. rewrite Rabs_right by lra. cbn [bpow] in *. cbn in *. lra. }
  assert (Er : r = IZR (Ztrunc (scaled_mantissa radix2 fexp64 r)) * bpow radix2 (-54)).
  { rewrite G at 1. unfold F2R. cbn [Fnum Fexp]. f_equal. f_equal. unfold cexp. rewrite Em. reflexivity. }
  set (M := Ztrunc _) in Er. assert (M = (2 ^ 53 - 1)%Z); [|rewrite Er, H0; cbn; lra].
  assert (IZR (2 ^ 53 - 2) < IZR M < IZR (2 ^ 53)).
  { assert (B0 := bpow_gt_0 radix2 (-54)). split; apply (Rmult_lt_reg_r (bpow radix2 (-54)) _ _ B0); rewrite <- Er; cbn in *; lra. }
  destruct H0 as [A B]. apply lt_IZR in A. apply lt_IZR in B. lia.
Qed.
