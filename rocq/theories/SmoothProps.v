(** C60: smoothing. *)
From Coq Require Import Reals List Arith Bool Lia Lra ZifyBool.
From Verif Require Import Base InterpModel BandSpec SmoothModel SmoothSpec.
From Verif Require SmoothProofs BandProofs.
Import ListNotations.
Local Open Scope R_scope.
Definition is_smoothed (x y weight : list R) (lambda : R) (z : list R) : Prop :=
  ascending x /\ (1 < length x)%nat /\ length y = length x /\ weights weight (length x) /\ 0 <= lambda /\ smoothed x y weight lambda = Ok z.

Lemma monotone_ok x : is_monotonic x = true <-> ascending x.
Proof.
  unfold ascending. induction x as [|a [|b x] IH]; [split; [cbn; lia|reflexivity]|split; [cbn; lia|reflexivity]|].
  cbn [is_monotonic]. destruct (Rle_dec a b) as [L|L].
  - rewrite IH. split.
    + intros H [|i] Hi; [exact L|]. apply (H i). cbn [length] in *. lia.
    + intros H i Hi. apply (H (S i)). cbn [length] in *. lia.
  - split; [discriminate|]. intros H. exfalso. apply L. apply (H 0%nat). cbn [length]. lia.
Qed.
Lemma link_eq x lambda i : (i < length x - 1)%nat -> coupling x lambda i = shifted_link x lambda i.
Proof.
  intros H. unfold coupling, shifted_link, wanted_link, dx_min. destruct (i =? 0)%nat eqn:E; [reflexivity|]. destruct (i =? length x - 1)%nat eqn:E1; [lia|].
  replace (S (i - 1)) with i by lia. reflexivity.
Qed.
Lemma coupling_nonneg x lambda i : 0 <= lambda -> 0 <= coupling x lambda i.
Proof.
  intros H. unfold coupling. destruct (i =? 0)%nat; [lra|]. destruct (i =? _)%nat; [lra|]. apply Rmult_le_pos; [exact H|]. apply Rlt_le, Rinv_0_lt_compat.
  eapply Rlt_le_trans; [|apply Rmax_r]. unfold dx_min. lra.
Qed.
Lemma weight_pos weight n i : weights weight n -> (i < n)%nat -> 0 < weight_at weight i.
Proof.
  intros [->|[L F]] Hi; [cbn; lra|]. destruct weight as [|v weight]; [cbn in L; lia|]. cbn [weight_at]. rewrite Forall_forall in F. apply F. apply nth_In. lia.
Qed.
Section Out.
Variables (x y weight z : list R) (lambda : R).
Hypothesis (H : is_smoothed x y weight lambda z).
Notation n := (length x).
Notation zf := (SmoothProofs.z n (coupling x lambda) (weight_at weight) (fun i => nth i y 0)).
Lemma out_eq : z = map zf (seq 0 n).
Proof.
  destruct H as (A & L & Ly & W & Hl & E). unfold smoothed in E. rewrite (proj2 (monotone_ok x) A) in E. cbn [negb] in E.
  rewrite Ly, Nat.eqb_refl in E. destruct (1 <? n)%nat eqn:E1; [|lia]. cbn [andb negb] in E.
  destruct ((0 <? length weight)%nat && (length weight <? n)%nat) eqn:E2; [discriminate|]. injection E as <-. reflexivity.
Qed.
Lemma out_nth i : (i < n)%nat -> nth i z 0 = zf i.
Proof.
  intros Hi. rewrite out_eq. rewrite (nth_indep _ 0 (zf 0%nat)) by (rewrite map_length, seq_length; exact Hi). rewrite map_nth, seq_nth by exact Hi. reflexivity.
Qed.
Lemma side : (1 < n)%nat /\ (forall i, (i < n)%nat -> 0 < weight_at weight i) /\ (forall i, (i < n)%nat -> 0 <= coupling x lambda i) /\ coupling x lambda (n - 1) = 0.
Proof.
  destruct H as (A & L & Ly & W & Hl & E). split; [exact L|]. split; [intros i Hi; exact (weight_pos weight n i W Hi)|]. split; [intros i _; apply coupling_nonneg; exact Hl|].
  unfold coupling. rewrite Nat.eqb_refl. destruct (n - 1 =? 0)%nat; reflexivity.
Qed.
End Out.
(** Smoothing succeeds on ascending abscissas with positive weights, one for each value or none. *)
Theorem C60_succeeds x y weight lambda : ascending x -> (1 < length x)%nat -> length y = length x -> weights weight (length x) ->
  exists z, smoothed x y weight lambda = Ok z.
Proof.
  intros A L Ly W. unfold smoothed. rewrite (proj2 (monotone_ok x) A). rewrite Ly, Nat.eqb_refl. destruct (1 <? length x)%nat eqn:E1; [|lia]. cbn [andb negb].
  destruct ((0 <? length weight)%nat && (length weight <? length x)%nat) eqn:E2; [|eexists; reflexivity]. exfalso. destruct W as [->|[W _]]; [cbn in E2; discriminate|lia].
Qed.
Print Assumptions C60_succeeds.
(** Unordered abscissas, sizes that do not match, or fewer than two values are rejected. *)
Theorem C60_rejects x y weight lambda : ~ ascending x \/ (length x <= 1)%nat \/ length y <> length x -> smoothed x y weight lambda = Throw.
Proof.
  intros B. unfold smoothed. destruct (is_monotonic x) eqn:M; [|reflexivity]. cbn [negb]. destruct B as [B|B]; [exfalso; apply B; apply monotone_ok; exact M|].
  replace ((length y =? length x)%nat && (1 <? length x)%nat) with false by lia. reflexivity.
Qed.
Print Assumptions C60_rejects.
(** The result minimizes misfit plus penalty, but with the penalties shifted by one place and none on the first pair. *)
Theorem C60_minimizes_partial x y weight lambda z : is_smoothed x y weight lambda z ->
  minimizes (length x) (the_weight weight) (shifted_link x lambda) y z.
Proof.
  intros H. destruct (side _ _ _ _ _ H) as (L & W & C & E0). split; [rewrite (out_eq _ _ _ _ _ H), map_length; apply seq_length|].
  intros u Lu. pose proof (SmoothProofs.minimal (length x) (coupling x lambda) (weight_at weight) (fun i => nth i y 0) L W C E0 (fun i => nth i u 0)) as M. cbv beta in M. unfold cost.
  rewrite (BandProofs.sum_ext (length x) (fun i => the_weight weight i * (nth i z 0 - nth i y 0) ^ 2)
    (fun i => weight_at weight i * (SmoothProofs.z (length x) (coupling x lambda) (weight_at weight) (fun i => nth i y 0) i - nth i y 0) ^ 2)) by (intros i Hi; rewrite (out_nth _ _ _ _ _ H i Hi); reflexivity).
  rewrite (BandProofs.sum_ext (length x - 1) (fun i => shifted_link x lambda i * (nth (S i) z 0 - nth i z 0) ^ 2)
    (fun i => coupling x lambda i * (SmoothProofs.z (length x) (coupling x lambda) (weight_at weight) (fun i => nth i y 0) (S i) - SmoothProofs.z (length x) (coupling x lambda) (weight_at weight) (fun i => nth i y 0) i) ^ 2))
    by (intros i Hi; rewrite (out_nth _ _ _ _ _ H i), (out_nth _ _ _ _ _ H (S i)), link_eq by lia; reflexivity).
  rewrite (BandProofs.sum_ext (length x - 1) (fun i => shifted_link x lambda i * (nth (S i) u 0 - nth i u 0) ^ 2)
    (fun i => coupling x lambda i * (nth (S i) u 0 - nth i u 0) ^ 2)) by (intros i Hi; rewrite link_eq by exact Hi; reflexivity).
  exact M.
Qed.
Print Assumptions C60_minimizes_partial.
(** It keeps the weighted total and stays within the range of the data. *)
Theorem C60_range x y weight lambda z lo hi : is_smoothed x y weight lambda z -> (forall i, (i < length x)%nat -> lo <= nth i y 0 <= hi) ->
  sum (length x) (fun i => the_weight weight i * nth i z 0) = sum (length x) (fun i => the_weight weight i * nth i y 0) /\
  forall i, (i < length x)%nat -> lo <= nth i z 0 <= hi.
Proof.
  intros H B. destruct (side _ _ _ _ _ H) as (L & W & C & E0). split.
  - rewrite (BandProofs.sum_ext _ _ _ (fun i Hi => f_equal (Rmult (the_weight weight i)) (out_nth _ _ _ _ _ H i Hi))).
    exact (SmoothProofs.mean (length x) (coupling x lambda) (weight_at weight) (fun i => nth i y 0) L W C E0).
  - intros i Hi. rewrite (out_nth _ _ _ _ _ H i Hi). split.
    + apply SmoothProofs.z_ge; try assumption. intros j Hj. apply B. exact Hj.
    + apply SmoothProofs.z_le; try assumption. intros j Hj. apply B. exact Hj.
Qed.
Print Assumptions C60_range.
(** The first value is never smoothed; with two values nothing is, however large lambda. *)
Theorem C60_first_refuted x y weight lambda z : is_smoothed x y weight lambda z -> nth 0 z 0 = nth 0 y 0 /\ (length x = 2%nat -> z = y).
Proof.
  intros H. destruct (side _ _ _ _ _ H) as (L & W & C & E0).
  assert (Z0 : nth 0 z 0 = nth 0 y 0) by (rewrite (out_nth _ _ _ _ _ H 0) by lia; apply (SmoothProofs.z_first (length x) (coupling x lambda)); try assumption; reflexivity).
  split; [exact Z0|]. intros L2.
  assert (Z1 : nth 1 z 0 = nth 1 y 0).
  { destruct (C60_range x y weight lambda z (Rmin (nth 0 y 0) (nth 1 y 0)) (Rmax (nth 0 y 0) (nth 1 y 0)) H) as [M _].
    - intros [|[|i]] Hi; [| |lia]; split; auto using Rmin_l, Rmin_r, Rmax_l, Rmax_r.
    - rewrite L2 in M. cbn [sum] in M. rewrite Z0 in M. pose proof (W 1%nat ltac:(lia)) as W1. change (weight_at weight 1) with (the_weight weight 1) in W1. nra. }
  assert (Lz : length z = 2%nat) by (rewrite (out_eq _ _ _ _ _ H), map_length, seq_length; exact L2).
  destruct H as (_ & _ & Ly & _). rewrite L2 in Ly. destruct z as [|z0 [|z1 [|]]], y as [|y0 [|y1 [|]]]; try discriminate. cbn in Z0, Z1. subst. reflexivity.
Qed.
Print Assumptions C60_first_refuted.
(** So it does not minimize what was asked for. *)
Theorem C60_minimizes_refuted : exists x y z, is_smoothed x y [] 1 z /\ ~ minimizes (length x) (the_weight []) (wanted_link x 1) y z.
Proof.
  assert (A : ascending [0; 1]) by (intros [|i] Hi; [cbn; lra|cbn in Hi; lia]).
  destruct (C60_succeeds [0; 1] [0; 1] [] 1 A ltac:(cbn; lia) eq_refl (or_introl eq_refl)) as [z E].
  assert (H : is_smoothed [0; 1] [0; 1] [] 1 z) by (repeat split; try assumption; try (cbn; lia); [left; reflexivity|lra]).
  exists [0; 1], [0; 1], z. split; [exact H|]. intros [_ M]. destruct (C60_first_refuted _ _ _ _ _ H) as [_ Z]. specialize (Z eq_refl). subst z.
  specialize (M [1 / 3; 2 / 3] eq_refl). unfold cost, wanted_link in M. cbn [length sum nth Nat.sub the_weight] in M.
  rewrite Rmax_left in M by lra. lra.
Qed.
Print Assumptions C60_minimizes_refuted.
Example C60_case : exists z, is_smoothed [0; 1; 1; 3] [5; 1; 2; 4] [1; 2; 1; 1] 3 z.
Proof.
  assert (A : ascending [0; 1; 1; 3]) by (intros [|[|[|i]]] Hi; [cbn; lra|cbn; lra|cbn; lra|cbn in Hi; lia]).
  assert (W : weights [1; 2; 1; 1] 4) by (right; split; [reflexivity|repeat constructor; lra]).
  destruct (C60_succeeds [0; 1; 1; 3] [5; 1; 2; 4] [1; 2; 1; 1] 3 A ltac:(cbn; lia) eq_refl W) as [z E]. exists z.
  repeat split; try assumption; try (cbn; lia); lra.
Qed.
