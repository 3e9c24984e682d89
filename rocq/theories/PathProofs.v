From Coq Require Import ZArith List Bool Reals Lra Lia Psatz.
From Verif Require Import Base OMap DateModel DateTimeModel PathModel PathSpec.
Import ListNotations.
Local Open Scope R_scope.

Lemma nltb_true (x y : R) : nltb x y = true <-> x < y.
Proof. cbn. destruct (Rlt_dec x y); split; intros; try reflexivity; try discriminate; tauto. Qed.
Lemma nltb_false (x y : R) : nltb x y = false <-> y <= x.
Proof. cbn. destruct (Rlt_dec x y); split; intros; try reflexivity; try discriminate; lra. Qed.
Lemma nleb_true (x y : R) : nleb x y = true <-> x <= y.
Proof. cbn. destruct (Rle_dec x y); split; intros; try reflexivity; try discriminate; tauto. Qed.

(** * The ramp *)
Definition R_ramp (lo hi w x : R) : R := ramp (A := RealArith) lo hi w x.
Ltac ramp_cases := unfold R_ramp, ramp; cbn;
  repeat match goal with |- context [Rle_dec ?a ?b] => destruct (Rle_dec a b) | |- context [Rlt_dec ?a ?b] => destruct (Rlt_dec a b) end; cbn.
Lemma frac_bound a w : 0 < w -> 0 <= a <= w -> 0 <= a / w <= 1.
Proof. intros Hw H. split; [apply Rmult_le_pos; [lra|left; now apply Rinv_0_lt_compat]|]. apply Rmult_le_reg_r with w; [lra|]. unfold Rdiv. rewrite Rmult_assoc, Rinv_l; lra. Qed.
Lemma ramp_bounds lo hi w x : 0 <= R_ramp lo hi w x <= 1.
Proof.
  ramp_cases; try lra.
  all: match goal with |- context [?a / ?v] => enough (0 <= a / v <= 1) by lra; apply frac_bound; lra end.
Qed.
Lemma ramp_inside lo hi w x : lo <= x <= hi -> R_ramp lo hi w x = 1.
Proof. intros H. ramp_cases; lra. Qed.
Lemma ramp_outside lo hi w x : lo <= hi -> 0 <= w -> x < lo - w \/ x > hi + w -> R_ramp lo hi w x = 0.
Proof. intros H1 H2 [H|H]; ramp_cases; lra. Qed.
Lemma ramp_value lo hi w x : lo <= hi -> 0 < w -> R_ramp lo hi w x = Rmax 0 (1 - outside lo hi x / w).
Proof.
  intros H Hw. assert (forall a, a <= w -> Rmax 0 (1 - a / w) = 1 - a / w) as B1.
  { intros a Ha. apply Rmax_right. enough (a / w <= 1) by lra. apply Rmult_le_reg_r with w; [lra|]. unfold Rdiv. rewrite Rmult_assoc, Rinv_l; lra. }
  assert (forall a, w <= a -> Rmax 0 (1 - a / w) = 0) as B2.
  { intros a Ha. apply Rmax_left. enough (1 <= a / w) by lra. apply Rmult_le_reg_r with w; [lra|]. unfold Rdiv. rewrite Rmult_assoc, Rinv_l; lra. }
  unfold outside. destruct (Rle_lt_dec lo x) as [L1|L1]; [destruct (Rle_lt_dec x hi) as [L2|L2]|].
  - rewrite ramp_inside by lra. rewrite Rmax_left with (y := Rmax _ _) by (apply Rmax_lub; lra). rewrite B1; [field; lra|lra].
  - rewrite (Rmax_right (lo - x)) by lra. rewrite (Rmax_right 0 (x - hi)) by lra. destruct (Rle_lt_dec x (hi + w)).
    + rewrite B1 by lra. ramp_cases; lra.
    + rewrite B2 by lra. apply ramp_outside; lra.
  - rewrite (Rmax_left (lo - x)) by lra. rewrite (Rmax_right 0 (lo - x)) by lra. destruct (Rle_lt_dec (lo - w) x).
    + rewrite B1 by lra. ramp_cases; lra.
    + rewrite B2 by lra. apply ramp_outside; lra.
Qed.
Lemma Rmax_lip a b c : Rabs (Rmax a b - Rmax a c) <= Rabs (b - c).
Proof. unfold Rmax. destruct (Rle_dec a b), (Rle_dec a c); unfold Rabs; repeat destruct (Rcase_abs _); lra. Qed.
Lemma outside_lip lo hi x y : Rabs (outside lo hi x - outside lo hi y) <= Rabs (x - y).
Proof.
  unfold outside. eapply Rle_trans; [apply Rmax_lip|]. unfold Rmax. destruct (Rle_dec (lo - x) (x - hi)), (Rle_dec (lo - y) (y - hi)); unfold Rabs; repeat destruct (Rcase_abs _); lra.
Qed.
Lemma ramp_lip lo hi w x y : lo <= hi -> 0 < w -> Rabs (R_ramp lo hi w x - R_ramp lo hi w y) <= Rabs (x - y) / w.
Proof.
  intros H Hw. rewrite !ramp_value by assumption. eapply Rle_trans; [apply Rmax_lip|].
  replace (1 - outside lo hi x / w - (1 - outside lo hi y / w)) with ((outside lo hi y - outside lo hi x) * / w) by (field; lra).
  rewrite Rabs_mult, (Rabs_right (/ w)) by (left; now apply Rinv_0_lt_compat). apply Rmult_le_compat_r; [left; now apply Rinv_0_lt_compat|].
  rewrite (Rabs_minus_sym x y). apply outside_lip.
Qed.
Lemma ramp_indicator lo hi x : R_ramp lo hi 0 x = if Rle_dec lo x then if Rle_dec x hi then 1 else 0 else 0.
Proof. ramp_cases; lra. Qed.

(** * Date-times as numbers *)
Lemma dt_ltb_true (a b : Z * R) : good_time a -> good_time b -> dt_ltb a b = true <-> moment a < moment b.
Proof.
  destruct a as [d x], b as [e y]. intros [_ Ha] [_ Hb]. cbn [fst snd] in *. unfold dt_ltb, date_ltb, date_eqb, moment. cbn [fst snd].
  destruct (Z.ltb_spec d e) as [L|L]; cbn [orb].
  - split; [intros _|reflexivity]. apply Z.le_succ_l in L. apply IZR_le in L. unfold Z.succ in L. rewrite plus_IZR in L. lra.
  - destruct (Z.eqb_spec d e) as [->|N]; cbn [andb].
    + rewrite nltb_true. lra.
    + split; [discriminate|]. intros H. exfalso. assert (e + 1 <= d)%Z as L2 by lia. apply IZR_le in L2. rewrite plus_IZR in L2. lra.
Qed.
Lemma dt_cmp_eq (a b : Z * R) : good_time a -> good_time b -> dt_cmp a b = Eq <-> moment a = moment b.
Proof.
  intros Ha Hb. unfold dt_cmp. pose proof (dt_ltb_true a b Ha Hb) as L1. pose proof (dt_ltb_true b a Hb Ha) as L2.
  destruct (dt_ltb (A := RealArith) a b) eqn:E1.
  - split; [discriminate|]. intros E. exfalso. pose proof (proj1 L1 eq_refl). lra.
  - destruct (dt_ltb (A := RealArith) b a) eqn:E2.
    + split; [discriminate|]. intros E. exfalso. pose proof (proj1 L2 eq_refl). lra.
    + split; [intros _|reflexivity]. destruct (Rtotal_order (moment a) (moment b)) as [T|[T|T]]; [apply L1 in T; discriminate|exact T|apply L2 in T; discriminate].
Qed.
Lemma find_fix_at (f : list ((Z * R) * R)) (t : Z * R) : Forall (fun p => good_time (fst p)) f -> good_time t -> find_fix (A := RealArith) f t = fixed_at f (moment t).
Proof.
  intros Hf Ht. unfold find_fix. induction Hf as [|[u x] f Hu Hf IH]; [reflexivity|]. cbn [mfind fixed_at]. cbn [fst] in Hu. rewrite IH.
  pose proof (dt_cmp_eq u t Hu Ht) as E. destruct (Req_EM_T (moment u) (moment t)) as [e|n].
  - apply E in e. now rewrite e.
  - destruct (dt_cmp (A := RealArith) u t); [|reflexivity|reflexivity]. exfalso. apply n. now apply E.
Qed.
Lemma Int_part_eq x k : IZR k <= x < IZR k + 1 -> Int_part x = k.
Proof.
  intros H. destruct (base_Int_part x) as [L1 L2]. apply Z.le_antisymm; apply Z.lt_succ_r; apply lt_IZR; unfold Z.succ; rewrite plus_IZR; lra.
Qed.
Lemma dt_plus_ok (t : Z * R) (h : R) : good_time t -> 0 < h -> moment t + h < 65536 ->
  exists t', dt_plus (A := RealArith) t h = Ok t' /\ good_time t' /\ moment t' = moment t + h.
Proof.
  destruct t as [d x]. intros [Hd Hx] Hh Hm. unfold moment in *. cbn [fst snd] in *. unfold dt_plus. cbn [fst snd].
  assert (nltb (Arith := RealArith) (of_Z 0) h = true) as -> by now apply nltb_true. cbn [negb]. change (nadd (Arith := RealArith) x h) with (x + h).
  pose proof (base_Int_part (x + h)) as [I1 I2]. set (k := Int_part (x + h)) in *.
  assert (0 <= k)%Z as K0. { apply Z.lt_succ_r. apply lt_IZR. unfold Z.succ. rewrite plus_IZR. lra. }
  assert (IZR 0 <= IZR d) as D0 by (apply IZR_le; lia).
  assert (d + k < 65536)%Z as K1. { apply lt_IZR. rewrite plus_IZR. lra. }
  change (to_int (Arith := RealArith) (x + h)) with (as_int (Int_part (x + h))). fold k. unfold as_int.
  assert (int_range k = true) as -> by (unfold int_range; apply andb_true_intro; split; apply Z.leb_le; lia). cbn [obind].
  destruct (Z.ltb_spec 0 k) as [L|L].
  - eexists. split; [reflexivity|]. change (nsub (Arith := RealArith) (x + h) (of_Z k)) with (x + h - IZR k). unfold add_days, u16, good_time. cbn [fst snd].
    rewrite (Z.mod_small k) by lia. rewrite Z.mod_small by lia. rewrite plus_IZR. split; [split; [lia|lra]|lra].
  - assert (k = 0%Z) as K by lia. rewrite K in *. exists (d, x + h). split; [reflexivity|]. unfold good_time. cbn [fst snd]. split; [split; [lia|lra]|lra].
Qed.

(** * The loop over the monitoring times *)
Lemma loop_value (f : list ((Z * R) * R)) (to : Z * R) (lo hi h w : R) : Forall (fun p => good_time (fst p)) f -> good_time to -> 0 < h -> moment to + h <= 65536 ->
  forall n fuel (t : Z * R) prob, good_time t -> (n < fuel)%nat -> (forall i, (i < n)%nat <-> moment t + INR i * h < moment to) ->
  all_in_range_loop (A := RealArith) fuel f t to lo hi h w prob = Ok (prob * product (R_ramp lo hi w) f (moment t) h n).
Proof.
  intros Hf Hto Hh Hend. induction n as [|n IH]; intros fuel t prob Ht Hfu Hn; (destruct fuel as [|fuel]; [lia|]); cbn [all_in_range_loop product].
  - destruct (dt_ltb (A := RealArith) t to) eqn:E; [|now rewrite Rmult_1_r]. apply dt_ltb_true in E; [|assumption..].
    assert (0 < 0)%nat by (apply Hn; cbn [INR]; lra). lia.
  - assert (moment t < moment to) as L by (specialize (proj1 (Hn O) ltac:(lia)); cbn [INR]; lra).
    assert (dt_ltb (A := RealArith) t to = true) as -> by now apply dt_ltb_true.
    destruct (dt_plus_ok t h Ht Hh ltac:(lra)) as (t' & E1 & Ht' & M).
    assert (forall i, (i < n)%nat <-> moment t' + INR i * h < moment to) as Hn'.
    { intros i. rewrite M. specialize (Hn (S i)). rewrite S_INR in Hn. split; intros Hi; [assert (S i < S n)%nat as Hi2 by lia; apply Hn in Hi2; lra|]. enough (S i < S n)%nat by lia. apply Hn. lra. }
    unfold fix_in_range. rewrite (find_fix_at f t Hf Ht). destruct (fixed_at f (moment t)) as [x|]; cbn [obind].
    + rewrite E1. cbn [obind]. rewrite (IH fuel t' _ Ht' ltac:(lia) Hn'), M. f_equal. change (ramp (A := RealArith) lo hi w x) with (R_ramp lo hi w x). cbn. ring.
    + rewrite E1. cbn [obind]. rewrite (IH fuel t' _ Ht' ltac:(lia) Hn'), M. f_equal. ring.
Qed.
Lemma product_bounds p f : (forall x, 0 <= p x <= 1) -> forall n s h, 0 <= product p f s h n <= 1.
Proof.
  intros Hp. induction n as [|n IH]; intros s h; cbn [product]; [lra|]. specialize (IH (s + h) h).
  destruct (fixed_at f s) as [x|]; [specialize (Hp x)|]; nra.
Qed.
(** The number of monitoring times before the end. *)
Lemma grid_count a b h : 0 < h -> exists n : nat, forall i, (i < n)%nat <-> a + INR i * h < b.
Proof.
  intros Hh. destruct (Rle_lt_dec b a) as [L|L].
  { exists O. intros i. split; [lia|]. intros H. exfalso. pose proof (pos_INR i). nra. }
  set (y := (b - a) / h). assert (0 < y) as Hy by (apply Rdiv_lt_0_compat; lra).
  assert (forall i : nat, a + INR i * h < b <-> INR i < y) as Hi.
  { intros i. unfold y. split; intros H; [apply Rmult_lt_reg_r with h; [lra|]; replace ((b - a) / h * h) with (b - a) by (field; lra); lra|].
    apply Rmult_lt_compat_r with (r := h) in H; [|lra]. replace ((b - a) / h * h) with (b - a) in H by (field; lra). lra. }
  set (k := (- Int_part (- y))%Z). destruct (base_Int_part (- y)) as [I1 I2]. assert (IZR k - 1 < y <= IZR k) as Hk by (unfold k; rewrite opp_IZR; lra).
  assert (0 < k)%Z by (apply lt_IZR; lra). exists (Z.to_nat k). intros i. rewrite Hi, INR_IZR_INZ. split; intros H0.
  - assert (Z.of_nat i + 1 <= k)%Z as L2 by lia. apply IZR_le in L2. rewrite plus_IZR in L2. lra.
  - enough (Z.of_nat i < k)%Z by lia. apply lt_IZR. lra.
Qed.
