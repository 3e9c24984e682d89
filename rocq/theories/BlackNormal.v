(** The normal law exists: the hypotheses of the theorems about option prices can be met. *)
From Coq Require Import Reals Lra.
From Coquelicot Require Import Coquelicot.
From Verif Require Import Base BlackModel BlackSpec BlackProofs.
Local Open Scope R_scope.

Definition bell (x : R) : R := exp (- (x * x / 2)).
Lemma bell_cont x : continuous bell x.
Proof. apply (ex_derive_continuous bell). unfold bell. auto_derive. exact Logic.I. Qed.
Definition area (x : R) : R := RInt bell 0 x.
Lemma area_rate x : derivable_pt_lim area x (bell x).
Proof.
  apply is_derive_Reals. apply (is_derive_RInt bell area 0 x); [|apply bell_cont]. apply filter_forall. intros y. apply (RInt_correct bell 0 y). apply (ex_RInt_continuous bell). intros z _. apply bell_cont.
Qed.
Lemma area_zero : area 0 = 0. Proof. unfold area. now rewrite RInt_point. Qed.
Lemma area_lt x y : x < y -> area x < area y.
Proof. intros H. apply (mono_lt area bell x y H); intros; [apply area_rate|apply exp_pos]. Qed.
Lemma area_bound x : area x <= exp (1 / 2).
Proof.
  destruct (Rle_lt_dec x 0) as [Hx|Hx].
  - assert (area x <= 0) as H; [|pose proof (exp_pos (1 / 2)); lra]. destruct Hx as [Hx| ->]; [pose proof (area_lt x 0 Hx); rewrite area_zero in *; lra|rewrite area_zero; lra].
  - assert (- (area 0 + exp (1 / 2 - 0)) <= - (area x + exp (1 / 2 - x))) as H.
    { apply (mono_le (fun y => - (area y + exp (1 / 2 - y))) (fun y => exp (1 / 2 - y) - bell y)); [lra| |].
      - intros y _. eapply rate_value.
        + apply derivable_pt_lim_opp. apply derivable_pt_lim_plus; [apply area_rate|]. apply (derivable_pt_lim_comp (fun y => 1 / 2 - y) exp); [apply derivable_pt_lim_minus; [apply derivable_pt_lim_const|apply derivable_pt_lim_id]|apply derivable_pt_lim_exp].
        + cbv beta. ring.
      - intros y _. unfold bell. destruct (Req_dec y 1) as [->|Hy]; [right; replace (- (1 * 1 / 2)) with (- (1 / 2)) by field; replace (1 / 2 - 1) with (- (1 / 2)) by field; ring|].
        assert (exp (- (y * y / 2)) < exp (1 / 2 - y)) by (apply exp_increasing; nra). lra. }
    rewrite area_zero, Rminus_0_r in H. pose proof (exp_pos (1 / 2 - x)). lra.
Qed.
Lemma area_odd x : area (- x) = - area x.
Proof.
  assert (forall y, derivable_pt_lim (fun z => area z + area (- z)) y 0) as D.
  { intros y. eapply rate_value.
    - apply derivable_pt_lim_plus; [apply area_rate|]. apply (derivable_pt_lim_comp (fun z => - z) area); [apply derivable_pt_lim_opp, derivable_pt_lim_id|apply area_rate].
    - cbv beta. unfold bell. replace (- y * - y) with (y * y) by ring. ring. }
  assert (forall y, 0 <= y -> area y + area (- y) = 0) as H.
  { intros y Hy. apply Rle_antisym.
    - assert (- (area 0 + area (- 0)) <= - (area y + area (- y))) as H; [|rewrite Ropp_0, area_zero in H; lra].
      apply (mono_le (fun z => - (area z + area (- z))) (fun _ => 0)); [assumption| |intros; cbv beta; apply Rle_refl]. intros z _. eapply rate_value; [apply derivable_pt_lim_opp, D|ring].
    - assert (area 0 + area (- 0) <= area y + area (- y)) as H; [|rewrite Ropp_0, area_zero in H; lra].
      apply (mono_le (fun z => area z + area (- z)) (fun _ => 0)); [assumption| |intros; cbv beta; apply Rle_refl]. intros z _. apply D. }
  destruct (Rle_lt_dec 0 x) as [Hx|Hx]; [pose proof (H x Hx); lra|]. pose proof (H (- x) ltac:(lra)) as H1. rewrite Ropp_involutive in H1. lra.
Qed.
Theorem normal_law_exists : exists N n, normal_law N n.
Proof.
  destruct (completeness (fun y => exists x, y = area x)) as (L & Hub & Hlub).
  { exists (exp (1 / 2)). intros y (x & ->). apply area_bound. }
  { exists (area 0). now exists 0. }
  assert (0 < L) as HL by (pose proof (Hub (area 1) ltac:(now exists 1)); pose proof (area_lt 0 1 ltac:(lra)); rewrite area_zero in *; lra).
  set (c := / (2 * L)). assert (0 < c) as Hc by (apply Rinv_0_lt_compat; lra).
  exists (fun x => 1 / 2 + c * area x), (fun x => c * bell x). constructor.
  - intros x. rewrite area_odd. field.
  - intros e He. assert (exists y, L - e / c < area y) as (y & Hy).
    { destruct (Rle_lt_dec L (L - e / c)) as [H|H]; [exfalso; pose proof (Rdiv_lt_0_compat e c He Hc); lra|]. apply Classical_Prop.NNPP. intros Hn. specialize (Hlub (L - e / c)). assert (L <= L - e / c); [|lra]. apply Hlub. intros z (x & ->). apply Rnot_lt_le. intros Hx. apply Hn. now exists x. }
    exists (- y). intros x Hx. pose proof (area_lt y (- x) ltac:(lra)) as H. pose proof (Hub (area (- x)) ltac:(now exists (- x))) as H'. rewrite area_odd in H, H'.
    assert (1 / 2 = c * L) as E by (unfold c; field; lra). rewrite E. apply Rabs_def1; [|nra]. assert (L - e / c < - area x) as H2 by lra. apply (Rmult_lt_compat_l c) in H2; [|assumption]. replace (c * (L - e / c)) with (c * L - e) in H2 by (field; lra). lra.
  - intros x. eapply rate_value.
    + apply derivable_pt_lim_plus; [apply derivable_pt_lim_const|]. apply derivable_pt_lim_mult; [apply derivable_pt_lim_const|apply area_rate].
    + cbv beta. ring.
  - exists c. split; [assumption|]. intros x. reflexivity.
Qed.
Print Assumptions normal_law_exists.
