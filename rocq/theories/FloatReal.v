(** The executable binary64 operations of the model seen as rounded operations on real numbers (via Flocq). *)
From Coq Require Import ZArith Reals Bool Lia Lra Psatz Floats.SpecFloat.
From Flocq Require Import Core IEEE754.BinarySingleNaN.
From Verif Require Import DateModel.
Open Scope Z_scope.

#[local] Instance Hprec : FLX.Prec_gt_0 prec := eq_refl _.
#[local] Instance Hmax : Prec_lt_emax prec emax := eq_refl _.
Notation double := (binary_float prec emax).
Notation fexp64 := (SpecFloat.fexp prec emax).
Definition rnd (x : R) : R := round radix2 fexp64 ZnearestE x.

(** * Specification floats and Flocq's floats compute the same *)
Lemma round_nearest_even_equiv s m l : round_nearest_even m l = choice_mode mode_NE s m l.
Proof. case l; [reflexivity|intro c]. case c; [|reflexivity..]. now simpl; unfold Round.cond_incr; case Z.even. Qed.
Lemma binary_round_aux_equiv sx mx ex lx : SpecFloat.binary_round_aux prec emax sx mx ex lx = binary_round_aux prec emax mode_NE sx mx ex lx.
Proof.
  unfold SpecFloat.binary_round_aux, binary_round_aux. set (mrse' := shr_fexp _ _ _). case mrse'; intros mrs' e'; simpl. now rewrite (round_nearest_even_equiv sx).
Qed.
Lemma binary_round_equiv s m e : SpecFloat.binary_round prec emax s m e = binary_round prec emax mode_NE s m e.
Proof. unfold SpecFloat.binary_round, binary_round, shl_align_fexp. set (mez := shl_align _ _ _); case mez as [mz ez]. apply binary_round_aux_equiv. Qed.
Lemma binary_normalize_equiv m e szero : SpecFloat.binary_normalize prec emax m e szero = B2SF (binary_normalize prec emax Hprec Hmax mode_NE m e szero).
Proof. case m as [ |p|p]; [now simpl| |]; simpl; rewrite B2SF_SF2B; apply binary_round_equiv. Qed.
Lemma add_equiv (x y : double) : fadd (B2SF x) (B2SF y) = B2SF (Bplus mode_NE x y).
Proof.
  case x as [sx|sx| |sx mx ex Bx]; case y as [sy|sy| |sy my ey By]; [now (trivial || (unfold fadd; simpl; case Bool.eqb))..|]. apply binary_normalize_equiv.
Qed.
Lemma sub_equiv (x y : double) : fsub (B2SF x) (B2SF y) = B2SF (Bminus mode_NE x y).
Proof.
  case x as [sx|sx| |sx mx ex Bx]; case y as [sy|sy| |sy my ey By]; [now (trivial || (unfold fsub; simpl; case Bool.eqb))..|].
  unfold fsub. simpl. unfold Zminus. rewrite <- cond_Zopp_negb. apply binary_normalize_equiv.
Qed.
Lemma mul_equiv (x y : double) : fmul (B2SF x) (B2SF y) = B2SF (Bmult mode_NE x y).
Proof. case x as [sx|sx| |sx mx ex Bx]; case y as [sy|sy| |sy my ey By]; [now trivial..|]. unfold fmul. simpl. rewrite B2SF_SF2B. apply binary_round_aux_equiv. Qed.
Lemma div_equiv (x y : double) : fdiv (B2SF x) (B2SF y) = B2SF (Bdiv mode_NE x y).
Proof.
  case x as [sx|sx| |sx mx ex Bx]; case y as [sy|sy| |sy my ey By]; [now (trivial || (unfold fdiv; simpl; case Bool.eqb))..|].
  unfold fdiv. simpl. rewrite B2SF_SF2B. set (melz := SFdiv_core_binary _ _ _ _ _ _). case melz as [[mz ez] lz]. apply binary_round_aux_equiv.
Qed.

(** * Floats holding a given real number *)
Definition holds (x : spec_float) (r : R) : Prop := exists b : double, x = B2SF b /\ is_finite b = true /\ B2R b = r.
Definition big : R := bpow radix2 1000.
Lemma rnd_small (x : R) : (Rabs x <= big)%R -> Rlt_bool (Rabs (rnd x)) (bpow radix2 emax) = true.
Proof.
  intros H. apply Rlt_bool_true. apply Rle_lt_trans with big.
  - unfold rnd. apply abs_round_le_generic; [apply fexp_correct, Hprec|apply valid_rnd_N| |exact H]. unfold big. apply generic_format_bpow. unfold SpecFloat.fexp, SpecFloat.emin, prec, emax. lia.
  - unfold big. apply bpow_lt. unfold emax. lia.
Qed.
Lemma holds_add x y a b : holds x a -> holds y b -> (Rabs (a + b) <= big)%R -> holds (fadd x y) (rnd (a + b)).
Proof.
  intros (u & -> & Fu & <-) (v & -> & Fv & <-) H. rewrite add_equiv. pose proof (Bplus_correct _ _ Hprec Hmax mode_NE u v Fu Fv) as C.
  change (round_mode mode_NE) with ZnearestE in C. fold (rnd (B2R u + B2R v)) in C. rewrite (rnd_small _ H) in C. destruct C as (C1 & C2 & _). exists (Bplus mode_NE u v). auto.
Qed.
Lemma holds_sub x y a b : holds x a -> holds y b -> (Rabs (a - b) <= big)%R -> holds (fsub x y) (rnd (a - b)).
Proof.
  intros (u & -> & Fu & <-) (v & -> & Fv & <-) H. rewrite sub_equiv. pose proof (Bminus_correct _ _ Hprec Hmax mode_NE u v Fu Fv) as C.
  change (round_mode mode_NE) with ZnearestE in C. fold (rnd (B2R u - B2R v)) in C. rewrite (rnd_small _ H) in C. destruct C as (C1 & C2 & _). exists (Bminus mode_NE u v). auto.
Qed.
Lemma holds_mul x y a b : holds x a -> holds y b -> (Rabs (a * b) <= big)%R -> holds (fmul x y) (rnd (a * b)).
Proof.
  intros (u & -> & Fu & <-) (v & -> & Fv & <-) H. rewrite mul_equiv. pose proof (Bmult_correct _ _ Hprec Hmax mode_NE u v) as C.
  change (round_mode mode_NE) with ZnearestE in C. fold (rnd (B2R u * B2R v)) in C. rewrite (rnd_small _ H) in C. destruct C as (C1 & C2 & _). exists (Bmult mode_NE u v). rewrite Fu, Fv in C2. auto.
Qed.
Lemma holds_div x y a b : holds x a -> holds y b -> b <> 0%R -> (Rabs (a / b) <= big)%R -> holds (fdiv x y) (rnd (a / b)).
Proof.
  intros (u & -> & Fu & <-) (v & -> & Fv & <-) Hb H. rewrite div_equiv. pose proof (Bdiv_correct _ _ Hprec Hmax mode_NE u v Hb) as C.
  change (round_mode mode_NE) with ZnearestE in C. fold (rnd (B2R u / B2R v)) in C. rewrite (rnd_small _ H) in C. destruct C as (C1 & C2 & _). exists (Bdiv mode_NE u v). rewrite Fu in C2. auto.
Qed.
Lemma holds_ltb x y a b : holds x a -> holds y b -> SFltb x y = true <-> (a < b)%R.
Proof.
  intros (u & -> & Fu & <-) (v & -> & Fv & <-). pose proof (Bcompare_correct _ _ u v Fu Fv) as C. unfold SFltb. unfold Bcompare in C. rewrite C.
  destruct (Rcompare_spec (B2R u) (B2R v)); split; intros; try discriminate; try reflexivity; lra.
Qed.
Lemma holds_fun x a b : holds x a -> holds x b -> a = b.
Proof. intros (u & E1 & _ & <-) (v & E2 & _ & <-). rewrite E1 in E2. apply B2SF_inj in E2. now subst. Qed.

(** * Representable numbers *)
Lemma rep_float m e : Z.abs m <= 2 ^ 53 -> -1000 <= e <= 900 -> generic_format radix2 fexp64 (IZR m * bpow radix2 e).
Proof.
  intros Hm He. destruct (Z.eq_dec (Z.abs m) (2 ^ 53)) as [E|E].
  - assert (H : generic_format radix2 fexp64 (bpow radix2 (53 + e))) by (apply generic_format_bpow; unfold SpecFloat.fexp, SpecFloat.emin, prec, emax; lia). rewrite bpow_plus in H.
    assert (Hm2 : m = 2 ^ 53 \/ m = - 2 ^ 53) by lia. destruct Hm2 as [->| ->]; [exact H|]. rewrite opp_IZR, <- Ropp_mult_distr_l. now apply generic_format_opp.
  - apply generic_format_F2R' with (f := Float radix2 m e); [reflexivity|]. intros H0. cbn [Fexp]. unfold cexp.
    assert (Hmag : (mag radix2 (IZR m * bpow radix2 e) <= 53 + e)%Z).
    { rewrite mag_mult_bpow by (apply IZR_neq; intros ->; apply H0; cbn; now rewrite Rmult_0_l). assert (mag radix2 (IZR m) <= 53)%Z; [|lia].
      apply mag_le_bpow; [apply IZR_neq; intros ->; apply H0; cbn; now rewrite Rmult_0_l|]. rewrite <- abs_IZR. change (bpow radix2 53) with (IZR (2 ^ 53)). apply IZR_lt. lia. }
    unfold SpecFloat.fexp, SpecFloat.emin, prec, emax. lia.
Qed.
Lemma rnd_rep x : generic_format radix2 fexp64 x -> rnd x = x.
Proof. intros H. apply round_generic; [typeclasses eauto|exact H]. Qed.
Lemma rnd_Z n : Z.abs n <= 2 ^ 53 -> rnd (IZR n) = IZR n.
Proof. intros H. apply rnd_rep. replace (IZR n) with (IZR n * bpow radix2 0)%R by (cbn; ring). apply rep_float; lia. Qed.
Lemma rnd_le x y : (x <= y)%R -> (rnd x <= rnd y)%R.
Proof. apply round_le; typeclasses eauto. Qed.
Lemma rnd_opp x : rnd (- x) = (- rnd x)%R.
Proof. apply round_NE_opp. Qed.
Lemma fits n : Z.abs n <= 2 ^ 53 -> (Rabs (IZR n) <= big)%R.
Proof. intros H. rewrite <- abs_IZR. apply Rle_trans with (IZR (2 ^ 53)); [now apply IZR_le|]. change (IZR (2 ^ 53)) with (bpow radix2 53). apply bpow_le. lia. Qed.

(** * Integers *)
Definition bz (n : Z) : double := binary_normalize prec emax Hprec Hmax mode_NE n 0 false.
Lemma fl_bz n : fl_of_Z n = B2SF (bz n).
Proof. apply binary_normalize_equiv. Qed.
Lemma bz_ok n : Z.abs n <= 2 ^ 53 -> B2R (bz n) = IZR n /\ is_finite (bz n) = true /\ Bsign (bz n) = (n <? 0).
Proof.
  intros H. pose proof (binary_normalize_correct prec emax Hprec Hmax mode_NE n 0 false) as C. cbv zeta in C. change (round_mode mode_NE) with ZnearestE in C.
  assert (E : F2R (Float radix2 n 0) = IZR n) by (unfold F2R; cbn; ring). rewrite E in C. fold (rnd (IZR n)) in C. rewrite (rnd_small _ (fits _ H)), (rnd_Z _ H) in C. fold (bz n) in C. destruct C as (C1 & C2 & C3).
  split; [exact C1|]. split; [exact C2|]. rewrite C3. destruct (Rcompare_spec (IZR n) 0) as [D|D|D]; [apply lt_IZR in D|apply eq_IZR in D|apply lt_IZR in D]; symmetry; [apply Z.ltb_lt|apply Z.ltb_ge|apply Z.ltb_ge]; lia.
Qed.
Lemma holds_Z n : Z.abs n <= 2 ^ 53 -> holds (fl_of_Z n) (IZR n).
Proof. intros H. destruct (bz_ok n H) as (A & B & _). exists (bz n). split; [apply fl_bz|auto]. Qed.
Lemma bz_unique (b : double) n : Z.abs n <= 2 ^ 53 -> is_finite b = true -> B2R b = IZR n -> Bsign b = (n <? 0) -> b = bz n.
Proof. intros H F R S. destruct (bz_ok n H) as (A & B & C). apply B2R_Bsign_inj; congruence. Qed.
Lemma rcmp0 z : Rcompare (IZR z) 0 = Z.compare z 0.
Proof. rewrite Rcompare_IZR. reflexivity. Qed.
Lemma fadd_Z a b : Z.abs a <= 2 ^ 53 -> Z.abs b <= 2 ^ 53 -> Z.abs (a + b) <= 2 ^ 53 -> fadd (fl_of_Z a) (fl_of_Z b) = fl_of_Z (a + b).
Proof.
  intros Ha Hb Hc. destruct (bz_ok a Ha) as (A1 & A2 & A3). destruct (bz_ok b Hb) as (B1 & B2 & B3). rewrite !fl_bz, add_equiv. f_equal.
  pose proof (Bplus_correct _ _ Hprec Hmax mode_NE (bz a) (bz b) A2 B2) as C. change (round_mode mode_NE) with ZnearestE in C. rewrite A1, B1, <- plus_IZR in C. fold (rnd (IZR (a + b))) in C.
  rewrite (rnd_small _ (fits _ Hc)), (rnd_Z _ Hc), rcmp0, A3, B3 in C. destruct C as (C1 & C2 & C3). apply bz_unique; auto. rewrite C3. destruct (Z.compare_spec (a + b) 0); lia.
Qed.
Lemma fsub_Z a b : Z.abs a <= 2 ^ 53 -> Z.abs b <= 2 ^ 53 -> Z.abs (a - b) <= 2 ^ 53 -> fsub (fl_of_Z a) (fl_of_Z b) = fl_of_Z (a - b).
Proof.
  intros Ha Hb Hc. destruct (bz_ok a Ha) as (A1 & A2 & A3). destruct (bz_ok b Hb) as (B1 & B2 & B3). rewrite !fl_bz, sub_equiv. f_equal.
  pose proof (Bminus_correct _ _ Hprec Hmax mode_NE (bz a) (bz b) A2 B2) as C. change (round_mode mode_NE) with ZnearestE in C. rewrite A1, B1, <- minus_IZR in C. fold (rnd (IZR (a - b))) in C.
  rewrite (rnd_small _ (fits _ Hc)), (rnd_Z _ Hc), rcmp0, A3, B3 in C. destruct C as (C1 & C2 & C3). apply bz_unique; auto. rewrite C3. destruct (Z.compare_spec (a - b) 0); lia.
Qed.
Lemma fmul_Z a b : Z.abs a <= 2 ^ 53 -> Z.abs b <= 2 ^ 53 -> Z.abs (a * b) <= 2 ^ 53 -> (a * b = 0 -> 0 <= a /\ 0 <= b) -> fmul (fl_of_Z a) (fl_of_Z b) = fl_of_Z (a * b).
Proof.
  intros Ha Hb Hc H0. destruct (bz_ok a Ha) as (A1 & A2 & A3). destruct (bz_ok b Hb) as (B1 & B2 & B3). rewrite !fl_bz, mul_equiv. f_equal.
  pose proof (Bmult_correct _ _ Hprec Hmax mode_NE (bz a) (bz b)) as C. change (round_mode mode_NE) with ZnearestE in C. rewrite A1, B1, <- mult_IZR in C. fold (rnd (IZR (a * b))) in C.
  rewrite (rnd_small _ (fits _ Hc)), (rnd_Z _ Hc), A2, B2, A3, B3 in C. destruct C as (C1 & C2 & C3). apply bz_unique; auto. rewrite C3 by (destruct (Bmult mode_NE (bz a) (bz b)); [reflexivity|discriminate|discriminate|reflexivity]).
  clear - H0. destruct (Z.ltb_spec a 0), (Z.ltb_spec b 0), (Z.ltb_spec (a * b) 0); cbn; try reflexivity; exfalso; nia.
Qed.
Lemma fltb_Z a b : Z.abs a <= 2 ^ 53 -> Z.abs b <= 2 ^ 53 -> SFltb (fl_of_Z a) (fl_of_Z b) = (a <? b).
Proof.
  intros Ha Hb. apply eq_true_iff_eq. rewrite (holds_ltb _ _ _ _ (holds_Z _ Ha) (holds_Z _ Hb)), Z.ltb_lt. split; [apply lt_IZR|apply IZR_lt].
Qed.
(** the truncation of the model is truncation of the number held *)
Lemma trunc_holds x r : holds x r -> fl_trunc x = Ztrunc r.
Proof.
  intros (b & -> & F & <-). destruct b as [s|s| |s m e He]; try discriminate; cbn [B2SF fl_trunc B2R]; [now rewrite (Ztrunc_IZR 0)|].
  assert (P : Ztrunc (F2R (Float radix2 (Z.pos m) e)) = if 0 <=? e then Z.pos m * 2 ^ e else Z.pos m / 2 ^ (- e)).
  { unfold F2R. cbn [Fnum Fexp]. destruct (Z.leb_spec 0 e) as [L|L].
    - rewrite <- (IZR_Zpower radix2) by assumption. rewrite <- mult_IZR. apply Ztrunc_IZR.
    - rewrite Ztrunc_floor by (apply Rmult_le_pos; [apply IZR_le; lia|apply bpow_ge_0]). replace e with (- (- e)) at 1 by lia. rewrite bpow_opp. rewrite <- (IZR_Zpower radix2) by lia. apply Zfloor_div. change (radix_val radix2) with 2. assert (0 < 2 ^ (- e)) by (apply Z.pow_pos_nonneg; lia). lia. }
  destruct s; cbn [cond_Zopp]; [|symmetry; exact P]. replace (F2R (Float radix2 (- Z.pos m) e)) with (- F2R (Float radix2 (Z.pos m) e))%R by (unfold F2R; cbn [Fnum Fexp]; rewrite opp_IZR; ring).
  rewrite Ztrunc_opp. now rewrite P.
Qed.
(** Truncating the rounded quotient of integers: exact as long as the quotient is below 2^21 and the divisor at most 2^32. *)
Lemma quot_bounds x m : 0 <= x -> 0 < m <= 2 ^ 32 -> x / m < 2 ^ 21 -> (IZR (x / m) <= rnd (IZR x / IZR m) <= IZR (x / m) + 1 - bpow radix2 (-32))%R.
Proof.
  intros Hx Hm Hq. pose proof (Z.div_pos x m Hx ltac:(lia)) as Hq0. assert (M : (0 < IZR m)%R) by (apply IZR_lt; lia).
  pose proof (Z.div_mod x m ltac:(lia)) as D. pose proof (Z.mod_pos_bound x m ltac:(lia)) as B. set (q := x / m) in *. set (r := x mod m) in *. clearbody q r.
  assert (E : (IZR x / IZR m = IZR q + IZR r / IZR m)%R) by (rewrite D, plus_IZR, mult_IZR; field; lra).
  split.
  - rewrite <- (rnd_Z q) at 1 by lia. apply rnd_le. rewrite E. assert (0 <= IZR r / IZR m)%R; [|lra]. apply Rmult_le_pos; [apply IZR_le; lia|]. apply Rlt_le, Rinv_0_lt_compat, M.
  - set (t := (IZR q + 1 - bpow radix2 (-32))%R).
    assert (F : rnd t = t). { apply rnd_rep. replace t with (IZR ((q + 1) * 2 ^ 32 - 1) * bpow radix2 (-32))%R.
      - apply rep_float; lia.
      - unfold t. rewrite minus_IZR, mult_IZR, plus_IZR. change (IZR (2 ^ 32)) with (bpow radix2 32). rewrite Rmult_minus_distr_r, Rmult_assoc, <- bpow_plus. change (bpow radix2 (32 + -32)) with 1%R. set (z := bpow radix2 (-32)). ring. }
    rewrite <- F. apply rnd_le. rewrite E. unfold t. assert (H1 : (IZR r <= IZR m - 1)%R) by (rewrite <- minus_IZR; apply IZR_le; lia).
    assert (H2 : (IZR r / IZR m <= 1 - / IZR m)%R) by (apply Rle_trans with ((IZR m - 1) / IZR m)%R; [apply Rmult_le_compat_r; [apply Rlt_le, Rinv_0_lt_compat, M|exact H1]|right; field; lra]).
    assert (H3 : (bpow radix2 (-32) <= / IZR m)%R) by (change (bpow radix2 (-32)) with (/ IZR (2 ^ 32))%R; apply Rinv_le; [exact M|apply IZR_le; lia]). lra.
Qed.
Lemma div_big x m : Z.abs x <= 2 ^ 53 -> 0 < m -> (Rabs (IZR x / IZR m) <= big)%R.
Proof.
  intros Hx Hm. assert (M : (1 <= IZR m)%R) by (apply IZR_le; lia). unfold Rdiv. rewrite Rabs_mult. apply Rle_trans with (Rabs (IZR x) * 1)%R; [|rewrite Rmult_1_r; now apply fits].
  apply Rmult_le_compat_l; [apply Rabs_pos|]. rewrite Rabs_pos_eq by (apply Rlt_le, Rinv_0_lt_compat; lra). rewrite <- Rinv_1. apply Rinv_le; lra.
Qed.
Lemma quot_trunc x m : Z.abs x <= 2 ^ 53 -> 0 < m <= 2 ^ 32 -> Z.abs x / m < 2 ^ 21 -> fl_trunc (fdiv (fl_of_Z x) (fl_of_Z m)) = Z.quot x m.
Proof.
  intros Hx Hm Hq. assert (M0 : IZR m <> 0%R) by (apply IZR_neq; lia).
  pose proof (holds_div _ _ _ _ (holds_Z x Hx) (holds_Z m ltac:(lia)) M0 (div_big x m Hx ltac:(lia))) as H. rewrite (trunc_holds _ _ H).
  assert (P : forall y, 0 <= y -> y / m < 2 ^ 21 -> Ztrunc (rnd (IZR y / IZR m)) = y / m).
  { intros y Hy Hqy. pose proof (quot_bounds y m Hy Hm Hqy) as [B1 B2]. pose proof (Z.div_pos y m Hy ltac:(lia)) as Hq0. pose proof (IZR_le 0 _ Hq0) as Hq1.
    rewrite Ztrunc_floor by (apply Rle_trans with (IZR (y / m)); assumption). apply Zfloor_imp. rewrite plus_IZR. pose proof (bpow_gt_0 radix2 (-32)). lra. }
  destruct (Z.leb_spec 0 x) as [L|L].
  - rewrite Z.abs_eq in Hq by lia. rewrite P by assumption. symmetry. apply Z.quot_div_nonneg; lia.
  - rewrite Z.abs_neq in Hq by lia. replace x with (- - x) by lia. rewrite opp_IZR, Ropp_div, rnd_opp, Ztrunc_opp, P by lia. rewrite Z.quot_opp_l by lia. f_equal. symmetry. apply Z.quot_div_nonneg; lia.
Qed.
(** a proper fraction stays strictly between 0 and 1 *)
Lemma fraction n d : 0 < n < d -> d <= 2 ^ 32 -> exists u, holds (fdiv (fl_of_Z n) (fl_of_Z d)) u /\ (bpow radix2 (-32) <= u <= 1 - bpow radix2 (-32))%R.
Proof.
  intros Hn Hd. assert (D0 : IZR d <> 0%R) by (apply IZR_neq; lia).
  exists (rnd (IZR n / IZR d)). split; [apply holds_div; [apply holds_Z; lia|apply holds_Z; lia|exact D0|apply div_big; lia]|].
  assert (Dp : (0 < IZR d)%R) by (apply IZR_lt; lia). pose proof (quot_bounds n d ltac:(lia) ltac:(lia)) as B. rewrite Z.div_small in B by lia. specialize (B ltac:(lia)). split; [|lra].
  assert (E : rnd (bpow radix2 (-32)) = bpow radix2 (-32)) by (apply rnd_rep, generic_format_bpow; unfold SpecFloat.fexp, SpecFloat.emin, prec, emax; lia).
  rewrite <- E at 1. apply rnd_le. change (bpow radix2 (-32)) with (/ IZR (2 ^ 32))%R. apply Rle_trans with (/ IZR d)%R; [apply Rinv_le; [exact Dp|apply IZR_le; lia]|].
  unfold Rdiv. rewrite <- (Rmult_1_l (/ IZR d)) at 1. apply Rmult_le_compat_r; [apply Rlt_le, Rinv_0_lt_compat, Dp|apply IZR_le; lia].
Qed.
