(** Property C57: what the second sequence of BCGSolve is for. *)
From Coq Require Import Reals List Arith Lia Lra Bool ZArith.
From Verif Require Import Base LinNum BandSpec BandProofs LinProofs CholSpec CholAlgebra CgModel CgSpec CgAlgebra CgProofs.
Import ListNotations.
Local Open Scope R_scope.

(** the state after k turns of the loop *)
Fixpoint turns {L : Lin} n times times_right pre pre_right b x (k : nat) : bcg_state :=
  match k with O => bcg_start n times b x | S j => bcg_step times times_right pre pre_right (j =? 0)%nat (turns n times times_right pre pre_right b x j) end.
Definition transposed (a : nat -> nat -> R) (i j : nat) : R := a j i.
Definition product_of (n : nat) (u v : list R) : R := sum n (fun i => nth i u 0 * nth i v 0).

Section Two.
Variable d : R -> R -> R.
Notation L := (RealDiv d).
Variables (n : nat) (a m : nat -> nat -> R) (times times_right pre pre_right : list R -> list R) (b x : list R).
Hypothesis times_ok : multiplies n a times.
Hypothesis right_ok : multiplies n (transposed a) times_right.
Hypothesis pre_ok : multiplies n m pre.
Hypothesis pre_right_ok : multiplies n (transposed m) pre_right.
Hypothesis div_ok : forall u v, v <> 0 -> d u v = u / v.
Lemma transposed_dot (c : nat -> nat -> R) (f g : list R -> list R) (u v : list R) : multiplies n c f -> multiplies n (transposed c) g -> length u = n -> length v = n -> dot n (at_ (f u)) (at_ v) = dot n (at_ (g v)) (at_ u).
Proof.
  intros Hf Hg Hu Hv. destruct (Hf u Hu) as [_ Fu]. destruct (Hg v Hv) as [_ Gv]. unfold dot, at_.
  rewrite (sum_ext n _ (fun i => sum n (fun j => c i j * nth j u 0 * nth i v 0))) by (intros i Hi; rewrite Fu by exact Hi; unfold row_times; rewrite sum_scal_r; reflexivity).
  rewrite sum_swap. apply sum_ext. intros j Hj. rewrite Gv by exact Hj. unfold row_times. rewrite <- sum_scal_r. apply sum_ext. intros i Hi. unfold transposed. ring.
Qed.
Lemma combine_ok (c : R) (u z : list R) : length u = n -> length z = n ->
  let p := @zip L (@nadd L) (map (fun v => @nmul L v c) u) z in length p = n /\ forall i, (i < n)%nat -> at_ p i = at_ z i + c * at_ u i.
Proof.
  intros Hu Hz p. assert (Lm : length (map (fun v : R => v * c) u) = n) by (rewrite map_length; exact Hu). split; [unfold p; etransitivity; [apply zip_length|]; etransitivity; [apply (f_equal2 Nat.min); [exact Lm|exact Hz]|]; apply Nat.min_id|]. intros i Hi. unfold p, at_.
  etransitivity; [apply zip_nth; [eapply Nat.lt_le_trans; [exact Hi|]; apply Nat.eq_le_incl; symmetry; exact Lm|lia]|]. cbn [nadd nmul RealDiv].
  assert (E : nth i (map (fun v : R => v * c) u) 0 = nth i u 0 * c) by (etransitivity; [|exact (map_nth (fun v : R => v * c) u 0 i)]; apply nth_indep; lia).
  etransitivity; [apply (f_equal2 Rplus); [exact E|reflexivity]|]. ring.
Qed.
Lemma increment_ok (c : R) (u w : list R) : length u = n -> length w = n ->
  let r := @zip L (@increment L c) u w in length r = n /\ forall i, (i < n)%nat -> at_ r i = at_ u i + c * at_ w i.
Proof.
  intros Hu Hw r. split; [unfold r; etransitivity; [apply zip_length|]; lia|]. intros i Hi. unfold r, at_. etransitivity; [apply zip_nth; lia|]. reflexivity.
Qed.
Definition sizes (s : @bcg_state L) : Prop := @length R (bcg_r s) = n /\ @length R (bcg_rr s) = n /\ @length R (bcg_p s) = n /\ @length R (bcg_pp s) = n.
Definition apart (s : @bcg_state L) : Prop := dot n (at_ (bcg_rr s)) (at_ (bcg_p s)) = 0 /\ dot n (at_ (bcg_r s)) (at_ (bcg_pp s)) = 0.
Lemma turn_ok first (s : @bcg_state L) : sizes s -> (first = false -> apart s) ->
  let s' := @bcg_step L times times_right pre pre_right first s in
  sizes s' /\ (dot n (at_ (times (bcg_p s'))) (at_ (bcg_pp s')) <> 0 -> apart s').
Proof.
  intros (Lr & Lrr & Lp & Lpp) Hi. unfold bcg_step. cbv zeta. cbn [bcg_r bcg_rr bcg_p bcg_pp].
  destruct (pre_ok (bcg_r s) Lr) as [Lz _]. destruct (pre_right_ok (bcg_rr s) Lrr) as [Lzz _].
  pose proof (inner_dot d n (pre_right (bcg_rr s)) (bcg_r s) Lzz Lr) as Eb. set (beta := @inner L (@zero L) (pre_right (bcg_rr s)) (bcg_r s)) in *. clearbody beta.
  set (ratio := if first then @zero L else _). assert (Hr : ratio = 0 \/ apart s) by (destruct first; [left; reflexivity|right; now apply Hi]). clearbody ratio.
  set (p := @zip L _ _ (pre (bcg_r s))). set (pp := @zip L _ _ (pre_right (bcg_rr s))).
  assert (Cp : @length R p = n /\ forall i, (i < n)%nat -> at_ p i = at_ (pre (bcg_r s)) i + ratio * at_ (bcg_p s) i) by exact (combine_ok ratio (bcg_p s) (pre (bcg_r s)) Lp Lz).
  assert (Cpp : @length R pp = n /\ forall i, (i < n)%nat -> at_ pp i = at_ (pre_right (bcg_rr s)) i + ratio * at_ (bcg_pp s) i) by exact (combine_ok ratio (bcg_pp s) (pre_right (bcg_rr s)) Lpp Lzz).
  destruct Cp as [Lp' Vp]. destruct Cpp as [Lpp' Vpp]. clearbody p pp.
  destruct (times_ok p Lp') as [Lw _]. destruct (right_ok pp Lpp') as [Lww _].
  pose proof (inner_dot d n (times p) pp Lw Lpp') as Ew. set (alpha := ndiv _ _).
  destruct (increment_ok (@nopp L alpha) (bcg_r s) (times p) Lr Lw) as [Lr' Vr]. destruct (increment_ok (@nopp L alpha) (bcg_rr s) (times_right pp) Lrr Lww) as [Lrr' Vrr]. cbv zeta in *.
  split; [repeat split; assumption|]. intros Hd.
  assert (Ea : alpha = beta / dot n (at_ (times p)) (at_ pp)) by (unfold alpha; cbn [ndiv RealDiv]; etransitivity; [apply (f_equal2 d); [reflexivity|exact Ew]|now apply div_ok]). clearbody alpha.
  split; cbn [bcg_r bcg_rr bcg_p bcg_pp].
  - rewrite (dot_lin n _ _ _ _ _ Vrr). rewrite <- (transposed_dot a times times_right p pp times_ok right_ok Lp' Lpp'). cbn [nopp RealDiv].
    rewrite (dot_comm n (at_ (bcg_rr s)) (at_ p)), (dot_lin n _ _ _ _ _ Vp), (transposed_dot m pre pre_right (bcg_r s) (bcg_rr s) pre_ok pre_right_ok Lr Lrr), <- Eb, (dot_comm n (at_ (bcg_p s))).
    assert (E0 : ratio * dot n (at_ (bcg_rr s)) (at_ (bcg_p s)) = 0) by (destruct Hr as [->|[-> _]]; apply Rmult_0_l || apply Rmult_0_r). rewrite E0, Ea. cbn [num RealDiv]. field. exact Hd.
  - rewrite (dot_lin n _ _ _ _ _ Vr). cbn [nopp RealDiv].
    rewrite (dot_comm n (at_ (bcg_r s)) (at_ pp)), (dot_lin n _ _ _ _ _ Vpp), <- Eb, (dot_comm n (at_ (bcg_pp s))).
    assert (E0 : ratio * dot n (at_ (bcg_r s)) (at_ (bcg_pp s)) = 0) by (destruct Hr as [->|[_ ->]]; apply Rmult_0_l || apply Rmult_0_r). rewrite E0, Ea. cbn [num RealDiv]. field. exact Hd.
Qed.
End Two.

(** With a matrix and its transpose, each turn of BCGSolve leaves either residual orthogonal to the other side's direction, as long as no turn
    divides by zero.  This is what makes the second sequence more than a copy of the first. *)
Theorem C57_biorthogonal d n a m times times_right pre pre_right (b x : list R) k :
  multiplies n a times -> multiplies n (transposed a) times_right -> multiplies n m pre -> multiplies n (transposed m) pre_right ->
  (forall u v, v <> 0 -> d u v = u / v) -> length b = n -> length x = n ->
  let at_turn := @turns (RealDiv d) n times times_right pre pre_right b x in
  (forall j, (1 <= j <= k)%nat -> product_of n (times (bcg_p (at_turn j))) (bcg_pp (at_turn j)) <> 0) ->
  forall j, (1 <= j <= k)%nat -> product_of n (bcg_rr (at_turn j)) (bcg_p (at_turn j)) = 0 /\ product_of n (bcg_r (at_turn j)) (bcg_pp (at_turn j)) = 0.
Proof.
  intros Ha Hr Hm Hmr Hd Hb Hx at_turn Hz. assert (A : forall j, (j <= k)%nat -> sizes d n (at_turn j) /\ ((1 <= j)%nat -> apart d n (at_turn j))).
  { induction j as [|j IH]; intros Hj.
    - split; [|lia]. destruct (Ha x Hx) as [Lw _]. unfold at_turn, sizes. cbn [turns bcg_start bcg_r bcg_rr bcg_p bcg_pp]. assert (E : @length R (@zip (RealDiv d) (@nsub (RealDiv d)) b (times x)) = n) by (etransitivity; [apply zip_length|]; lia).
      repeat split; try exact E; apply repeat_length.
    - destruct (IH ltac:(lia)) as [Hs Hp]. destruct (turn_ok d n a m times times_right pre pre_right Ha Hr Hm Hmr Hd (j =? 0)%nat (at_turn j) Hs) as [Hs' Hp'].
      { intros E. apply Nat.eqb_neq in E. apply Hp. lia. }
      split; [exact Hs'|]. intros _. apply Hp'. exact (Hz (S j) ltac:(lia)). }
  intros j Hj. destruct (A j ltac:(lia)) as [_ Hp]. exact (Hp ltac:(lia)).
Qed.
Print Assumptions C57_biorthogonal.
(** a matrix that is not symmetric, two turns *)
Definition skew (i j : nat) : R := match i, j with O, O => 1 | O, S O => 1 | S O, S O => 3 | _, _ => 0 end.
Definition skew_times (v : list R) : list R := [nth 0 v 0 + nth 1 v 0; 3 * nth 1 v 0].
Definition skew_right (v : list R) : list R := [nth 0 v 0; nth 0 v 0 + 3 * nth 1 v 0].
Definition unit_at (i j : nat) : R := if (i =? j)%nat then 1 else 0.
Definition skew_turn (k : nat) : @bcg_state (RealDiv Rdiv) := @turns (RealDiv Rdiv) 2 skew_times skew_right (fun v => v) (fun v => v) [1; 1] [0; 0] k.
Lemma skew_one : skew_turn 1 = @BcgState (RealDiv Rdiv) [2/5; 2/5] [1/5; -1/5] [3/5; -3/5] [1; 1] [1; 1] 2.
Proof.
  unfold skew_turn, turns, bcg_start, bcg_step, skew_times, skew_right. cbv zeta. cbn [Nat.eqb bcg_x bcg_r bcg_rr bcg_p bcg_pp bcg_beta zip inner map nth repeat nadd nsub nmul ndiv nopp RealDiv]. unfold increment, zero. cbn [nadd nmul of_nat RealDiv INR].
  f_equal; repeat (apply (f_equal2 (@cons R))); try reflexivity; try (match goal with |- ?u = ?v => change (@eq R u v) end; field; lra).
Qed.
Lemma skew_two : bcg_p (skew_turn 2) = [8/25; -2/25] /\ bcg_pp (skew_turn 2) = [18/25; -12/25].
Proof.
  change (skew_turn 2) with (@bcg_step (RealDiv Rdiv) skew_times skew_right (fun v => v) (fun v => v) false (skew_turn 1)). rewrite skew_one.
  unfold bcg_step, skew_times, skew_right. cbv zeta. cbn [bcg_x bcg_r bcg_rr bcg_p bcg_pp bcg_beta zip inner map nth repeat nadd nsub nmul ndiv nopp RealDiv]. unfold zero. cbn [of_nat RealDiv INR].
  split; repeat (apply (f_equal2 (@cons R))); try reflexivity; try (match goal with |- ?u = ?v => change (@eq R u v) end; field; lra).
Qed.
Example C57_biorthogonal_case :
  multiplies 2 skew skew_times /\ multiplies 2 (transposed skew) skew_right /\ multiplies 2 unit_at (fun v => v) /\ multiplies 2 (transposed unit_at) (fun v => v) /\
  forall j, (1 <= j <= 2)%nat -> product_of 2 (skew_times (bcg_p (skew_turn j))) (bcg_pp (skew_turn j)) <> 0.
Proof.
  assert (two : forall i, (i < 2)%nat -> i = 0%nat \/ i = 1%nat) by lia.
  repeat split; try assumption; try (intros i Hi; destruct (two i Hi) as [->| ->]; unfold row_times, transposed, unit_at; cbn; lra).
  intros j Hj. assert (j = 1 \/ j = 2)%nat as [->| ->] by lia.
  - rewrite skew_one. unfold product_of, skew_times. cbn. lra.
  - destruct skew_two as [-> ->]. unfold product_of, skew_times. cbn. lra.
Qed.
