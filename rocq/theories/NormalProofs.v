(** Lemmas about the normal distribution function by spline and its inverse. *)
From Coq Require Import Reals List ZArith Lia Lra.
From Verif Require Import Base Vec InterpModel InterpSpec InterpProofs CubicModel CubicProofs BlackModel BlackSpec BlackProofs NormalModel NormalSpline.
Import ListNotations.
Local Open Scope R_scope.

(** * The distribution function by spline *)
Definition tail_value (z : R) : R := min_spline_f * exp (- (11180061 / 10 ^ 7) * (z * z - min_spline_x * min_spline_x)).
Lemma spline_exists : exists m, fit spline_x spline_f spline_lhs spline_rhs = Ok m /\ spline spline_x spline_f spline_lhs spline_rhs m.
Proof. apply (fit_ok spline_x spline_f knots_increasing); [cbn; lia|reflexivity|now left|now left]. Qed.
Lemma three : (2 < length spline_x)%nat. Proof. cbn; lia. Qed.
Lemma same : length spline_x = length spline_f. Proof. reflexivity. Qed.
Section Spline.
Variable m : list R.
Hypothesis Hm : spline spline_x spline_f spline_lhs spline_rhs m.
Hypothesis Hfit : fit spline_x spline_f spline_lhs spline_rhs = Ok m.
Notation g := (G0 spline_x spline_f m).
Notation g1 := (G1 spline_x spline_f m).
Lemma g_rate t : derivable_pt_lim g t (g1 t).
Proof using Hm. destruct Hm as [L I _ _]. exact (G0_d spline_x spline_f knots_increasing three same m L I t). Qed.
Lemma g1_pos t : min_spline_x <= t <= 0 -> 0 < g1 t.
Proof using Hm.
  intros Ht. unfold G1, P1. destruct (idx_place spline_x spline_f knots_increasing three same t) as (I0 & I1 & I2). set (k := idx spline_x t) in *. clearbody k.
  assert (Hk : (k <= 14)%nat) by exact I0. assert (Hs : nth k spline_x 0 < nth (S k) spline_x 0) by (apply knots_increasing; change (length spline_x) with 16%nat; lia). destruct (spline_slopes m Hm k Hk) as (S0 & S1 & S2).
  apply piece1_pos; [exact Hs| |exact S0|exact S1|exact S2]. split.
  - destruct I1 as [->|I1]; [|lra]. exact (proj1 Ht).
  - destruct I2 as [->|I2]; [|lra]. exact (proj2 Ht).
Qed.
Lemma g_first : g min_spline_x = min_spline_f.
Proof using Hm. destruct Hm as [L _ _ _]. exact (G_knot spline_x spline_f knots_increasing three same m L 0 ltac:(cbn; lia)). Qed.
Lemma g_last : g 0 = 1 / 2.
Proof using Hm. destruct Hm as [L _ _ _]. rewrite (G_knot spline_x spline_f knots_increasing three same m L 15 ltac:(cbn; lia) : g 0 = _). unfold spline_f. cbn [nth]. lra. Qed.
Lemma g_slope : g1 min_spline_x = 373538 / 10 ^ 9.
Proof using Hm.
  destruct Hm as [L _ Sl _]. destruct (G_first spline_x spline_f knots_increasing three same m L) as (_ & E & _). change (nth 0 spline_x 0) with min_spline_x in E. rewrite E.
  destruct Sl as [[_ Sl]|[[C _]|[C _]]]; [|discriminate C|discriminate C]. rewrite Sl. unfold spline_lhs. cbn [bvalue]. change (nth 0 spline_x 0) with min_spline_x. unfold spline_x, min_spline_x. cbn [nth]. field.
Qed.
Definition low (z : R) : R := if Rlt_dec z min_spline_x then tail_value z else g z.
Definition phi (z : R) : R := if Rlt_dec 0 z then 1 - low (- z) else low z.
Lemma low_ok z : ncdf_lower z = Ok (low z).
Proof using Hm Hfit.
  unfold ncdf_lower, low. destruct (Rlt_dec z min_spline_x); [reflexivity|]. rewrite Hfit. cbn [obind]. destruct Hm as [L _ _ _]. exact (cubic_ok spline_x spline_f knots_increasing three same m L z).
Qed.
Lemma phi_ok z : ncdf_by_spline z = Ok (phi z).
Proof using Hm Hfit. unfold ncdf_by_spline, phi. destruct (Rlt_dec 0 z); rewrite low_ok; reflexivity. Qed.
Lemma min_neg : min_spline_x < -3. Proof. unfold min_spline_x. lra. Qed.
Lemma tail_pos z : 0 < tail_value z.
Proof using. unfold tail_value. apply Rmult_lt_0_compat; [unfold min_spline_f; lra|apply exp_pos]. Qed.
Lemma tail_min : tail_value min_spline_x = min_spline_f.
Proof using. unfold tail_value. replace (_ * (_ - _)) with 0 by ring. rewrite exp_0. ring. Qed.
Lemma tail_lt x y : x < y -> y <= min_spline_x -> tail_value x < tail_value y.
Proof using. intros H Hy. unfold tail_value. apply Rmult_lt_compat_l; [unfold min_spline_f; lra|]. apply exp_increasing. pose proof min_neg. nra. Qed.
Lemma g_lt x y : min_spline_x <= x -> x < y -> y <= 0 -> g x < g y.
Proof using Hm. intros Hx H Hy. apply (mono_lt g g1); [exact H|intros; apply g_rate|intros; apply g1_pos; lra]. Qed.
Lemma low_lt x y : x < y -> y <= 0 -> low x < low y.
Proof using Hm.
  intros H Hy. unfold low. destruct (Rlt_dec x min_spline_x), (Rlt_dec y min_spline_x); [apply tail_lt; lra| |lra|apply g_lt; lra].
  apply Rlt_le_trans with min_spline_f; [rewrite <- tail_min; apply tail_lt; lra|]. rewrite <- g_first. destruct (Req_dec min_spline_x y) as [<-|]; [lra|]. apply Rlt_le, g_lt; lra.
Qed.
Lemma low_pos z : z <= 0 -> 0 < low z.
Proof using Hm. intros Hz. apply Rlt_trans with (low (z - 4)); [|apply low_lt; lra]. unfold low. destruct (Rlt_dec (z - 4) min_spline_x) as [|C]; [apply tail_pos|]. exfalso. apply C. unfold min_spline_x. lra. Qed.
Lemma low_zero : low 0 = 1 / 2.
Proof using Hm. unfold low. destruct (Rlt_dec 0 min_spline_x); [pose proof min_neg; lra|apply g_last]. Qed.
Lemma phi_sym z : phi (- z) = 1 - phi z.
Proof using Hm.
  unfold phi. destruct (Rlt_dec 0 (- z)), (Rlt_dec 0 z); [lra| |ring|].
  - rewrite Ropp_involutive. reflexivity.
  - assert (z = 0) as -> by lra. rewrite Ropp_0, low_zero. lra.
Qed.
Lemma phi_le z : z <= 0 -> phi z = low z. Proof. intros H. unfold phi. destruct (Rlt_dec 0 z); [lra|reflexivity]. Qed.
Lemma phi_lt x y : x < y -> phi x < phi y.
Proof using Hm.
  intros H. destruct (Rle_lt_dec y 0) as [Hy|Hy]; [rewrite !phi_le by lra; now apply low_lt|].
  destruct (Rle_lt_dec 0 x) as [Hx|Hx].
  - enough (phi (- y) < phi (- x)) as Q by (rewrite !phi_sym in Q; lra). rewrite !phi_le by lra. apply low_lt; lra.
  - apply Rlt_trans with (phi 0); [rewrite !phi_le by lra; apply low_lt; lra|]. enough (phi (- y) < phi (- 0)) as Q by (rewrite !phi_sym in Q; lra). rewrite !phi_le by lra. apply low_lt; lra.
Qed.
Lemma phi_in z : 0 < phi z < 1.
Proof using Hm.
  assert (forall z, 0 < phi z) as P.
  { intros t. destruct (Rle_lt_dec t 0); [rewrite phi_le by assumption; now apply low_pos|]. apply Rlt_trans with (phi 0); [rewrite phi_le by lra; apply low_pos; lra|now apply phi_lt]. }
  split; [apply P|]. pose proof (P (- z)) as Q. rewrite phi_sym in Q. lra.
Qed.
(** the slope from either side of the last knot *)
Lemma tail_rate z : derivable_pt_lim tail_value z (- (2 * (11180061 / 10 ^ 7)) * z * tail_value z).
Proof using.
  unfold tail_value. eapply rate_value.
  - apply derivable_pt_lim_scal. apply (derivable_pt_lim_comp (fun z => - (11180061 / 10 ^ 7) * (z * z - min_spline_x * min_spline_x)) exp); [|apply derivable_pt_lim_exp].
    apply derivable_pt_lim_scal. apply derivable_pt_lim_minus; [apply derivable_pt_lim_mult; apply derivable_pt_lim_id|apply derivable_pt_lim_const].
  - cbv beta. unfold id. ring.
Qed.
Lemma rate_cont f t l : derivable_pt_lim f t l -> continuity_pt f t.
Proof using. intros H. apply derivable_continuous_pt. exists l. exact H. Qed.
Lemma local_cont f h t (d : R) : 0 < d -> (forall s, Rabs (s - t) < d -> f s = h s) -> continuity_pt h t -> continuity_pt f t.
Proof using.
  intros Hd E C. apply (cont_glue f h h t d Hd); [| |exact C|exact C]; intros s Hs; apply E; unfold Rabs; destruct (Rcase_abs _); lra.
Qed.
Lemma low_cont t : t <= 0 -> continuity_pt low t.
Proof using Hm.
  intros Ht. destruct (Rlt_dec t min_spline_x) as [C|C].
  - apply (local_cont low tail_value t (min_spline_x - t)); [lra| |eapply rate_cont, tail_rate]. intros s Hs. apply Rabs_def2 in Hs. unfold low. destruct (Rlt_dec s min_spline_x); [reflexivity|lra].
  - destruct (Req_dec t min_spline_x) as [->|Hne].
    + apply (cont_glue low tail_value g min_spline_x 1); [lra| | |eapply rate_cont, tail_rate|eapply rate_cont, g_rate].
      * intros s Hs. unfold low. destruct (Rlt_dec s min_spline_x); [reflexivity|]. assert (s = min_spline_x) as -> by lra. rewrite g_first, tail_min. reflexivity.
      * intros s Hs. unfold low. destruct (Rlt_dec s min_spline_x); [lra|reflexivity].
    + apply (local_cont low g t (t - min_spline_x)); [lra| |eapply rate_cont, g_rate]. intros s Hs. apply Rabs_def2 in Hs. unfold low. destruct (Rlt_dec s min_spline_x); [lra|reflexivity].
Qed.
Lemma phi_cont : continuity phi.
Proof using Hm.
  intros t. assert (forall s, 0 <= s -> continuity_pt (fun z => 1 - low (- z)) s) as Cr.
  { intros s Hs. apply (continuity_pt_minus (fun _ => 1) (fun z => low (- z))); [apply continuity_pt_const; intros a b; reflexivity|].
    apply (continuity_pt_comp (fun z => - z) low); [apply (continuity_pt_opp id); apply derivable_continuous_pt, derivable_pt_id|apply low_cont; lra]. }
  destruct (Rtotal_order t 0) as [H|[->|H]].
  - apply (local_cont phi low t (- t)); [lra| |apply low_cont; lra]. intros s Hs. apply Rabs_def2 in Hs. apply phi_le. lra.
  - apply (cont_glue phi low (fun z => 1 - low (- z)) 0 1); [lra|intros s Hs; apply phi_le; lra| |apply low_cont; lra|apply Cr; lra].
    intros s Hs. unfold phi. destruct (Rlt_dec 0 s); [reflexivity|]. assert (s = 0) as -> by lra. rewrite Ropp_0, low_zero. lra.
  - apply (local_cont phi (fun z => 1 - low (- z)) t t); [lra| |apply Cr; lra]. intros s Hs. apply Rabs_def2 in Hs. unfold phi. destruct (Rlt_dec 0 s); [reflexivity|lra].
Qed.
Lemma phi_knot k : (k < 16)%nat -> phi (nth k spline_x 0) = nth k spline_f 0.
Proof using Hm.
  intros Hk. assert (Hk' : (k < length spline_x)%nat) by exact Hk. destruct Hm as [L _ _ _].
  assert (Hl : min_spline_x <= nth k spline_x 0 <= 0).
  { split; [destruct k as [|k]; [right; reflexivity|left; apply (knots_increasing 0%nat (S k)); change (length spline_x) with 16%nat; lia]|]. destruct (Nat.eq_dec k 15) as [->|Hne]; [right; reflexivity|left; apply (knots_increasing k 15%nat); change (length spline_x) with 16%nat; lia]. }
  rewrite phi_le by lra. unfold low. destruct (Rlt_dec (nth k spline_x 0) min_spline_x); [lra|]. exact (G_knot spline_x spline_f knots_increasing three same m L k Hk').
Qed.
End Spline.
(** a one-sided view of a rate *)
Lemma rate_sides f h1 h2 t l a b : derivable_pt_lim f t l -> derivable_pt_lim h1 t a -> derivable_pt_lim h2 t b ->
  (exists d, 0 < d /\ forall s, t - d < s <= t -> f s = h1 s) -> (exists d, 0 < d /\ forall s, t <= s < t + d -> f s = h2 s) -> a = b.
Proof.
  intros Hf H1 H2 (d1 & P1 & E1) (d2 & P2 & E2).
  assert (forall h c, derivable_pt_lim h t c -> (exists s d, (s = 1 \/ s = -1) /\ 0 < d /\ forall e, 0 < e < d -> f (t + s * e) = h (t + s * e)) -> f t = h t -> l = c) as Q.
  { intros h c Hh (s & d & Hs & Hd & E) Et. destruct (Req_dec l c) as [|Hne]; [assumption|exfalso]. set (e := Rabs (l - c) / 2). assert (0 < e) as He by (unfold e; pose proof (Rabs_pos_lt (l - c) ltac:(lra)); lra).
    destruct (Hf e He) as [x1 D1]. destruct (Hh e He) as [x2 D2]. set (w := Rmin d (Rmin x1 x2) / 2). pose proof (cond_pos x1). pose proof (cond_pos x2).
    assert (0 < Rmin d (Rmin x1 x2)) as Hw by (repeat apply Rmin_pos; assumption). pose proof (Rmin_l d (Rmin x1 x2)). pose proof (Rmin_r d (Rmin x1 x2)). pose proof (Rmin_l x1 x2). pose proof (Rmin_r x1 x2).
    assert (s * w <> 0) as Hn by (destruct Hs as [->| ->]; unfold w; lra). assert (Rabs (s * w) = w) as Ha by (destruct Hs as [->| ->]; unfold w, Rabs; destruct (Rcase_abs _); lra).
    specialize (D1 (s * w) Hn ltac:(rewrite Ha; unfold w; lra)). specialize (D2 (s * w) Hn ltac:(rewrite Ha; unfold w; lra)). rewrite (E w) in D1 by (unfold w; lra). rewrite Et in D1.
    set (q := (h (t + s * w) - h t) / (s * w)) in *. assert (Rabs (l - c) <= Rabs (q - l) + Rabs (q - c)). { replace (l - c) with (- (q - l) + (q - c)) by ring. eapply Rle_trans; [apply Rabs_triang|]. rewrite Rabs_Ropp. lra. }
    unfold e in *. lra. }
  transitivity l; [symmetry|].
  - apply (Q h1 a H1); [|apply E1; lra]. exists (-1), d1. repeat split; [now right|exact P1|]. intros e He. apply E1. lra.
  - apply (Q h2 b H2); [|apply E2; lra]. exists 1, d2. repeat split; [now left|exact P2|]. intros e He. apply E2. lra.
Qed.
