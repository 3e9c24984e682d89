(** C62: whole numbers out of doubles. [holds x r]: the double x is finite and has the value r. *)
From Coq Require Import ZArith Reals Bool Lia Lra Psatz Floats.SpecFloat.
From Flocq Require Import Core.
From Verif Require Import Base DateModel FloatReal RoundModel.
From Verif Require RoundProofs.
Import RoundProofs.
Local Open Scope R_scope.
Lemma trunc_away r p : 0 <= p -> 0 <= Rabs r + p -> IZR (away r p) <= rnd (Rabs r + p) < IZR (away r p) + 1 /\ (0 <= away r p)%Z.
Proof.
  intros Hp H. unfold away. assert (L : 0 <= rnd (Rabs r + p)) by (rewrite <- (rnd_Z 0) by lia; apply rnd_le; exact H).
  rewrite Ztrunc_floor by exact L. split; [split; [apply Zfloor_lb|apply Zfloor_ub]|]. apply Zfloor_lub. exact L.
Qed.
(** AsInt drops the fraction, except that a number less than 2.01e-9 short of the next whole number counts as that number;
    the sign stays, and whole numbers come back unchanged. *)
Theorem C62_as_int x r : holds x r -> Rabs r < 2147483647 ->
  exists n, as_int x = Ok n /\ Rabs (IZR n) <= Rabs r + 201 / 100000000000 /\ Rabs r < Rabs (IZR n) + 1 /\ 0 <= IZR n * r /\ (forall k, r = IZR k -> n = k).
Proof.
  intros H L. unfold as_int. rewrite (in_range x r H L). assert (P := pad_small). rewrite (cast_ok x r pad _ H pad_holds) by (exact L || lra). eexists. split; [reflexivity|].
  assert (Pt : pad <= 1001 / 1000000000000).
  { apply Rle_trans with (IZR 1100 * bpow radix2 (-40)); [|cbn; lra]. unfold pad. rewrite <- (rnd_rep (IZR 1100 * bpow radix2 (-40))) by (apply rep_float; lia). apply rnd_le. cbn; lra. }
  assert (Gr : generic_format radix2 fexp64 (Rabs r)) by (apply generic_format_abs, (holds_format x), H).
  assert (A := Rabs_pos r). destruct (trunc_away r pad ltac:(lra) ltac:(lra)) as ((B1 & B2) & B3).
  assert (Lo : Rabs r <= rnd (Rabs r + pad)) by (rewrite <- (rnd_rep (Rabs r) Gr) at 1; apply rnd_le; lra).
  assert (Hi : rnd (Rabs r + pad) <= Rabs r + 2 * pad).
  { assert (N := rnd_near (Rabs r + pad) (Rabs r) Gr). replace (Rabs r - (Rabs r + pad)) with (- pad) in N by ring. rewrite Rabs_Ropp, (Rabs_right pad) in N by lra. apply Rabs_le_inv in N. lra. }
  assert (Q : forall n, IZR (Z.abs n) = IZR (away r pad) -> 0 <= IZR n * r -> Rabs (IZR n) <= Rabs r + 201 / 100000000000 /\ Rabs r < Rabs (IZR n) + 1 /\ 0 <= IZR n * r /\ (forall k, r = IZR k -> n = k)).
  { intros n En S0. rewrite <- abs_IZR, En. split; [lra|]. split; [lra|]. split; [exact S0|]. intros k Ek. apply eq_IZR in En.
    assert (Ea : Rabs r = IZR (Z.abs k)) by (rewrite Ek, abs_IZR; reflexivity).
    assert (X1 : (away r pad < Z.abs k + 1)%Z) by (apply lt_IZR; rewrite plus_IZR; lra). assert (X2 : (Z.abs k < away r pad + 1)%Z) by (apply lt_IZR; rewrite plus_IZR; lra). assert (E : Z.abs n = Z.abs k) by lia.
    rewrite Ek in S0. rewrite <- mult_IZR in S0. apply le_IZR in S0. destruct (Z.abs_eq_cases _ _ E) as [->| ->]; [reflexivity|]. assert (k = 0)%Z by nia. lia. }
  destruct (Req_dec r 0) as [Z0|N0].
  - subst r. apply Q; [|lra]. destruct (Rlt_dec 0 0) as [G|G]; [lra|]. rewrite Rplus_0_l, rnd_opp, Ztrunc_opp, Z.abs_opp. unfold away. rewrite Rabs_R0, Rplus_0_l. f_equal. apply Z.abs_eq.
    unfold away in B3. rewrite Rabs_R0, Rplus_0_l in B3. exact B3.
  - rewrite mirror by exact N0. assert (0 <= IZR (away r pad)) by (apply IZR_le; exact B3). destruct (Rlt_dec 0 r) as [G|G]; apply Q.
    + f_equal. lia.
    + nra.
    + f_equal. lia.
    + rewrite opp_IZR. nra.
Qed.
Print Assumptions C62_as_int.
(** NearestInt gives the nearest whole number, halves going away from zero, for every double but two. *)
Theorem C62_nearest x r : holds x r -> Rabs r < 2147483647 -> Rabs r <> 1 / 2 - bpow radix2 (-54) ->
  exists n, nearest_int x = Ok n /\ Rabs (IZR n - r) <= 1 / 2 /\ (Rabs (IZR n - r) = 1 / 2 -> Rabs r < Rabs (IZR n)).
Proof.
  intros H L N. unfold nearest_int. rewrite (in_range x r H L). rewrite (cast_ok x r (1 / 2) _ H half_holds) by (exact L || lra). eexists. split; [reflexivity|].
  assert (Gr : generic_format radix2 fexp64 (Rabs r)) by (apply generic_format_abs, (holds_format x), H). assert (A := Rabs_pos r).
  assert (V : IZR (away r (1 / 2)) <= Rabs r + 1 / 2 < IZR (away r (1 / 2)) + 1).
  { unfold away. destruct (Rle_lt_dec (1 / 2) (Rabs r)) as [C|C].
    - rewrite half_up by (exact Gr || (split; [exact C|exact L])). split; [apply Zfloor_lb|apply Zfloor_ub].
    - destruct (Rle_lt_dec (Rabs r) (1 / 2 - bpow radix2 (-53))) as [D|D]; [rewrite below_half by lra; cbn; lra|]. exfalso. apply N, gap; [exact Gr|lra]. }
  assert (G0 : forall n, IZR n = IZR (away r (1/2)) /\ 0 <= r \/ IZR n = - IZR (away r (1/2)) /\ r <= 0 -> Rabs (IZR n - r) <= 1 / 2 /\ (Rabs (IZR n - r) = 1 / 2 -> Rabs r < Rabs (IZR n))).
  { intros n [[E S0]|[E S0]]; rewrite E.
    - rewrite (Rabs_right r) in * by lra. split; [apply Rabs_le; lra|]. intros F. unfold Rabs in F at 1. destruct (Rcase_abs _) in F; [lra|]. apply Rlt_le_trans with (IZR (away r (1 / 2))); [lra|apply RRle_abs].
    - rewrite (Rabs_left1 r) in * by lra. split; [apply Rabs_le; lra|]. intros F. rewrite Rabs_Ropp. unfold Rabs in F at 1. destruct (Rcase_abs _) in F; [|lra]. apply Rlt_le_trans with (IZR (away r (1 / 2))); [lra|apply RRle_abs]. }
  apply G0. destruct (Req_dec r 0) as [Z0|N0].
  - right. split; [|lra]. subst r. destruct (Rlt_dec 0 0) as [G|G]; [lra|]. rewrite Rplus_0_l, rnd_opp, Ztrunc_opp. unfold away. rewrite Rabs_R0, Rplus_0_l. apply opp_IZR.
  - rewrite mirror by exact N0. destruct (Rlt_dec 0 r) as [G|G]; [left; split; [reflexivity|lra]|right; split; [apply opp_IZR|lra]].
Qed.
Print Assumptions C62_nearest.
(** The two: 0.49999999999999994, the largest double below a half, is rounded to 1, and its negative to -1. *)
Theorem C62_nearest_refuted : exists x, holds x (1 / 2 - bpow radix2 (-54)) /\ nearest_int x = Ok 1%Z /\ nearest_int (SFopp x) = Ok (-1)%Z.
Proof.
  exists (S754_finite false 9007199254740991 (-54)). split; [|split; vm_compute; reflexivity].
  assert (B : SpecFloat.bounded prec emax 9007199254740991 (-54) = true) by (vm_compute; reflexivity). exists (BinarySingleNaN.B754_finite false _ _ B). split; [reflexivity|]. split; [reflexivity|]. unfold BinarySingleNaN.B2R, F2R. cbn; lra.
Qed.
Print Assumptions C62_nearest_refuted.
(** Anything too large, infinite or not a number is refused; nothing is ever undefined. *)
Theorem C62_refused x : (exists r, holds x r /\ 2147483647 <= Rabs r) \/ x = S754_nan \/ (exists s, x = S754_infinity s) -> as_int x = Throw /\ nearest_int x = Throw.
Proof.
  intros [(r & H & L)|[->|([] & ->)]]; [|split; reflexivity..]. unfold as_int, nearest_int. rewrite (out_range x r H L). split; reflexivity.
Qed.
Print Assumptions C62_refused.
(** 64-bit numbers: returned unchanged if strictly inside the range, refused otherwise. *)
Theorem C62_wide z : (-9223372036854775808 < z < 9223372036854775808)%Z -> as_int_wide z = if (Z.abs z <? 2147483647)%Z then Ok z else Throw.
Proof. intros H. unfold as_int_wide. destruct (Z.eqb_spec z (-9223372036854775808)); [lia|reflexivity]. Qed.
Print Assumptions C62_wide.
(** ... but std::abs of the least one is undefined, and the three ints at the ends of the range are refused. *)
Theorem C62_wide_refuted : as_int_wide (-9223372036854775808) = UB /\ as_int_wide 2147483647 = Throw /\ as_int_wide (-2147483647) = Throw /\ as_int_wide (-2147483648) = Throw.
Proof. repeat split; reflexivity. Qed.
Print Assumptions C62_wide_refuted.
Example C62_case : holds (fl_of_Z 5) 5 /\ Rabs 5 < 2147483647 /\ Rabs 5 <> 1 / 2 - bpow radix2 (-54) /\ as_int (fl_of_Z 5) = Ok 5%Z /\
  nearest_int (fl_lit 5 2) = Ok 3%Z /\ nearest_int (fl_lit (-5) 2) = Ok (-3)%Z /\ as_int (fl_lit 29999999999 10000000000) = Ok 3%Z.
Proof.
  assert (B := bpow_gt_0 radix2 (-54)). rewrite (Rabs_right 5) by lra. split; [apply holds_Z; lia|]. split; [lra|]. split; [lra|]. repeat split; vm_compute; reflexivity.
Qed.
