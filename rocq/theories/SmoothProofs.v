(** Proofs about smoothing. *)
From Coq Require Import Reals List Arith Bool Lia Lra Psatz ZifyBool.
From Verif Require Import Base InterpModel BandSpec BandProofs SmoothModel SmoothSpec.
Import ListNotations.
Local Open Scope R_scope.
Section Smooth.
Variables (n : nat) (c w y : nat -> R).
Hypotheses (Hn : (1 < n)%nat) (Hw : forall i, (i < n)%nat -> 0 < w i) (Hc : forall i, (i < n)%nat -> 0 <= c i) (Hlast : c (n - 1)%nat = 0).
Notation b := (beta c w).
Notation g := (gamma c w y).
Lemma beta_big i : (i < n)%nat -> w i + c i <= b i.
Proof.
  induction i as [|i IH]; intros H; cbn [beta]; [lra|]. assert (B := IH ltac:(lia)).
  pose proof (Hw i ltac:(lia)) as W. pose proof (Hc i ltac:(lia)) as C.
  assert (Q : c i * c i / b i <= c i). { apply Rmult_le_reg_r with (b i); [lra|]. unfold Rdiv. rewrite Rmult_assoc, Rinv_l by lra. nra. }
  lra.
Qed.
Lemma beta_pos i : (i < n)%nat -> 0 < b i.
Proof. intros H. pose proof (beta_big i H). pose proof (Hw i H). pose proof (Hc i H). lra. Qed.
Definition z (i : nat) : R := back c w y (n - 1) (n - 1 - i).
Lemma z_eq i : (i < n)%nat -> b i * z i = g i + c i * z (S i).
Proof.
  intros H. pose proof (beta_pos i H) as B. unfold z. destruct (Nat.eq_dec i (n - 1)) as [->|N].
  - rewrite Hlast, Nat.sub_diag. cbn [back]. field. lra.
  - replace (n - 1 - i)%nat with (S (n - 1 - S i)) by lia. cbn [back]. replace (n - 1 - S (n - 1 - S i))%nat with i by lia. field. lra.
Qed.
Definition before (f : nat -> R) (i : nat) : R := match i with O => 0 | S j => f j end.
(** flow from value i to the next *)
Definition flow (i : nat) : R := c i * (z (S i) - z i).
Lemma normal i : (i < n)%nat -> w i * (z i - y i) = flow i - before flow i.
Proof.
  intros H. pose proof (z_eq i H) as E. unfold flow, before. destruct i as [|i].
  - cbn [beta gamma] in E. lra.
  - cbn [beta gamma] in E. pose proof (z_eq i ltac:(lia)) as E1. pose proof (beta_pos i ltac:(lia)) as B.
    assert (E2 : z i = (g i + c i * z (S i)) / b i) by (rewrite <- E1; field; lra).
    assert (F : c i * (z (S i) - z i) = c i * z (S i) - c i * g i / b i - c i * c i / b i * z (S i)) by (rewrite E2; field; lra).
    rewrite F. lra.
Qed.
Lemma by_parts h m : sum (S m) (fun i => h i * (flow i - before flow i)) + sum m (fun i => flow i * (h (S i) - h i)) = h m * flow m.
Proof. induction m as [|m IH]; [cbn [sum before]; lra|]. cbn [sum before] in *. lra. Qed.
Lemma flow_last : flow (n - 1) = 0. Proof. unfold flow. rewrite Hlast. lra. Qed.
Lemma flat h : sum n (fun i => h i * (w i * (z i - y i))) + sum (n - 1) (fun i => flow i * (h (S i) - h i)) = 0.
Proof.
  pose proof (by_parts h (n - 1)) as E. rewrite flow_last in E. replace (S (n - 1)) with n in E by lia. rewrite Rmult_0_r in E. rewrite <- E. f_equal.
  apply sum_ext. intros i Hi. rewrite (normal i Hi). reflexivity.
Qed.
Lemma mean : sum n (fun i => w i * z i) = sum n (fun i => w i * y i).
Proof.
  pose proof (flat (fun _ => 1)) as E. rewrite (sum_ext (n - 1) _ (fun _ => 0)) in E by (intros; lra). rewrite sum_zero in E.
  rewrite (sum_ext n _ (fun i => w i * z i + (-1) * (w i * y i))) in E by (intros; lra). rewrite sum_plus, sum_scal in E. lra.
Qed.
Lemma minimal u : sum n (fun i => w i * (z i - y i) ^ 2) + sum (n - 1) (fun i => c i * (z (S i) - z i) ^ 2) <=
  sum n (fun i => w i * (u i - y i) ^ 2) + sum (n - 1) (fun i => c i * (u (S i) - u i) ^ 2).
Proof.
  pose proof (flat (fun i => u i - z i)) as E.
  assert (E1 : sum n (fun i => w i * (u i - y i) ^ 2) = sum n (fun i => w i * (z i - y i) ^ 2) + (2 * sum n (fun i => (u i - z i) * (w i * (z i - y i))) + sum n (fun i => w i * (u i - z i) ^ 2))).
  { rewrite <- sum_scal, <- !sum_plus. apply sum_ext. intros. ring. }
  assert (E2 : sum (n - 1) (fun i => c i * (u (S i) - u i) ^ 2) = sum (n - 1) (fun i => c i * (z (S i) - z i) ^ 2) +
    (2 * sum (n - 1) (fun i => flow i * (u (S i) - z (S i) - (u i - z i))) + sum (n - 1) (fun i => c i * (u (S i) - z (S i) - (u i - z i)) ^ 2))).
  { rewrite <- sum_scal, <- !sum_plus. apply sum_ext. intros. unfold flow. ring. }
  rewrite E1, E2.
  assert (P1 : 0 <= sum n (fun i => w i * (u i - z i) ^ 2)) by (apply sum_nonneg; intros i Hi; pose proof (Hw i Hi); apply Rmult_le_pos; [lra|apply pow2_ge_0]).
  assert (P2 : 0 <= sum (n - 1) (fun i => c i * (u (S i) - z (S i) - (u i - z i)) ^ 2)) by (apply sum_nonneg; intros i Hi; pose proof (Hc i ltac:(lia)); apply Rmult_le_pos; [lra|apply pow2_ge_0]).
  lra.
Qed.
Lemma gamma_le hi : (forall i, (i < n)%nat -> y i <= hi) -> forall i, (i < n)%nat -> g i <= hi * (b i - c i).
Proof.
  intros Hy. induction i as [|i IH]; intros H; cbn [gamma beta].
  - pose proof (Hy 0%nat H). pose proof (Hw 0%nat H). nra.
  - specialize (IH ltac:(lia)). pose proof (Hy (S i) H). pose proof (Hw (S i) H). pose proof (beta_pos i ltac:(lia)) as B. pose proof (Hc i ltac:(lia)).
    assert (Q : c i * g i / b i <= hi * (c i - c i * c i / b i)).
    { apply Rmult_le_reg_r with (b i); [exact B|]. replace (c i * g i / b i * b i) with (c i * g i) by (field; lra).
      replace (hi * (c i - c i * c i / b i) * b i) with (c i * (hi * (b i - c i))) by (field; lra). apply Rmult_le_compat_l; lra. }
    nra.
Qed.
Lemma z_le hi : (forall i, (i < n)%nat -> y i <= hi) -> forall i, (i < n)%nat -> z i <= hi.
Proof.
  intros Hy. assert (F : forall k, (k < n)%nat -> z (n - 1 - k) <= hi).
  { induction k as [|k IH]; intros H.
    - rewrite Nat.sub_0_r. pose proof (z_eq (n - 1) ltac:(lia)) as E. rewrite Hlast in E. pose proof (gamma_le hi Hy (n - 1)%nat ltac:(lia)) as G. rewrite Hlast in G.
      pose proof (beta_pos (n - 1) ltac:(lia)). apply Rmult_le_reg_l with (b (n - 1)%nat); lra.
    - specialize (IH ltac:(lia)). set (j := (n - 1 - S k)%nat) in *. replace (n - 1 - k)%nat with (S j) in IH by (unfold j; lia).
      assert (Hj : (j < n)%nat) by (unfold j; lia). pose proof (z_eq j Hj) as E. pose proof (gamma_le hi Hy j Hj) as G. pose proof (beta_pos j Hj). pose proof (Hc j Hj).
      apply Rmult_le_reg_l with (b j); [assumption|]. rewrite E. nra. }
  intros i Hi. replace i with (n - 1 - (n - 1 - i))%nat by lia. apply F. lia.
Qed.
Lemma gamma_ge hi : (forall i, (i < n)%nat -> hi <= y i) -> forall i, (i < n)%nat -> hi * (b i - c i) <= g i.
Proof.
  intros Hy. induction i as [|i IH]; intros H; cbn [gamma beta].
  - pose proof (Hy 0%nat H). pose proof (Hw 0%nat H). nra.
  - specialize (IH ltac:(lia)). pose proof (Hy (S i) H). pose proof (Hw (S i) H). pose proof (beta_pos i ltac:(lia)) as B. pose proof (Hc i ltac:(lia)).
    assert (Q : hi * (c i - c i * c i / b i) <= c i * g i / b i).
    { apply Rmult_le_reg_r with (b i); [exact B|]. replace (c i * g i / b i * b i) with (c i * g i) by (field; lra).
      replace (hi * (c i - c i * c i / b i) * b i) with (c i * (hi * (b i - c i))) by (field; lra). apply Rmult_le_compat_l; lra. }
    nra.
Qed.
Lemma z_ge hi : (forall i, (i < n)%nat -> hi <= y i) -> forall i, (i < n)%nat -> hi <= z i.
Proof.
  intros Hy. assert (F : forall k, (k < n)%nat -> hi <= z (n - 1 - k)).
  { induction k as [|k IH]; intros H.
    - rewrite Nat.sub_0_r. pose proof (z_eq (n - 1) ltac:(lia)) as E. rewrite Hlast in E. pose proof (gamma_ge hi Hy (n - 1)%nat ltac:(lia)) as G. rewrite Hlast in G.
      pose proof (beta_pos (n - 1) ltac:(lia)). apply Rmult_le_reg_l with (b (n - 1)%nat); lra.
    - specialize (IH ltac:(lia)). set (j := (n - 1 - S k)%nat) in *. replace (n - 1 - k)%nat with (S j) in IH by (unfold j; lia).
      assert (Hj : (j < n)%nat) by (unfold j; lia). pose proof (z_eq j Hj) as E. pose proof (gamma_ge hi Hy j Hj) as G. pose proof (beta_pos j Hj). pose proof (Hc j Hj).
      apply Rmult_le_reg_l with (b j); [assumption|]. rewrite E. nra. }
  intros i Hi. replace i with (n - 1 - (n - 1 - i))%nat by lia. apply F. lia.
Qed.
Lemma z_first : c 0%nat = 0 -> z 0 = y 0%nat.
Proof. intros E. pose proof (z_eq 0 ltac:(lia)) as Q. cbn [beta gamma] in Q. rewrite E in Q. pose proof (Hw 0%nat ltac:(lia)). nra. Qed.
End Smooth.
