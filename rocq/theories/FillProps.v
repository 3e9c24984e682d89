(** C51: a filled grid keeps every required point, is strictly increasing and has no step longer than asked. *)
From Coq Require Import ZArith Reals List Bool Lra Lia.
From Coq.Floats Require Import SpecFloat.
From Verif Require Import Base DateModel DateTimeModel FillModel FillSpec FillProofs.
Import ListNotations.
Local Open Scope R_scope.

(** With increasing required points, added points further apart than [min_dx], and a smallest step of at most half the
    longest: the result is strictly increasing, has every required point, has a point within [min_dx] of every added
    one, and no step exceeds [max_dx] by more than a relative 2e-14. The fuel bounds the points put in one gap. *)
Theorem C51_fill fuel (original added : list R) (max_dx min_dx : R) :
  original <> [] -> increasing original -> steps_above min_dx added ->
  0 < max_dx -> 0 <= min_dx <= max_dx / 2 ->
  (forall x y, In x (original ++ added) -> In y (original ++ added) -> y - x < max_dx * 2147483647) ->
  (2 ^ 31 <= Z.of_nat fuel)%Z ->
  exists out, fill_data (A := RealArith) fuel original max_dx min_dx added = Ok out /\
    increasing out /\
    steps_at_most (max_dx / (1 - 2 / 10 ^ 14)) out /\
    incl original out /\
    forall x, In x added -> exists y, In y out /\ Rabs (x - y) <= min_dx.
Proof.
  intros Hne Hinc Hadd Hmax Hmin Hrange Hfuel.
  unfold fill_data.
  assert (Hs : increasing (sequence (A := RealArith) min_dx original added)).
  { unfold sequence. destruct added as [|a0 added]; [exact Hinc|].
    set (c := Rmin (hd 0 original) a0 - 1).
    assert (Hc1 : c < hd 0 original) by (pose proof (Rmin_l (hd 0 original) a0); unfold c; lra).
    assert (Hc2 : c < a0) by (pose proof (Rmin_r (hd 0 original) a0); unfold c; lra). clearbody c.
    apply (steps_tail _ c). apply union_increasing; try assumption; try lra.
    destruct original as [|o l]; [exact Logic.I|]. exact Hc1. }
  assert (Hsub : forall x, In x (sequence (A := RealArith) min_dx original added) -> In x (original ++ added)).
  { intros x. unfold sequence. destruct added; [rewrite app_nil_r; auto|exact (union_only (A := RealArith) _ _ _ x)]. }
  assert (Hl := sequence_left (A := RealArith) min_dx original added).
  assert (Hr : forall x, In x added -> exists y, In y (sequence (A := RealArith) min_dx original added) /\ Rabs (x - y) <= min_dx).
  { intros x Hx. unfold sequence. destruct added as [|a0 added]; [destruct Hx|].
    apply union_right; [lra|exact Hx]. }
  destruct (sequence (A := RealArith) min_dx original added) as [|x0 r] eqn:Es.
  - destruct original as [|o l]; [easy|]. destruct (Hl o (or_introl eq_refl)).
  - destruct (fill_ok max_dx min_dx fuel Hmax Hmin Hfuel r x0 Hs) as (l & El & Hst & Hin).
    { intros x Hx. apply Hrange; apply Hsub; [left; reflexivity|right; exact Hx]. }
    exists (x0 :: l). split; [exact (f_equal (fun o => obind o (fun t => Ok (x0 :: t))) El)|].
    assert (Hall : incl (x0 :: r) (x0 :: l)).
    { intros x [<-|Hx]; [left; reflexivity|right; apply Hin; exact Hx]. }
    split; [|split; [|split]].
    + revert Hst. apply steps_impl. intros x y [H _]. exact H.
    + revert Hst. apply steps_impl. intros x y [_ H]. exact H.
    + exact (incl_tran Hl Hall).
    + intros x Hx. destruct (Hr x Hx) as (y & Hy & Hd). exists y. split; [apply Hall; exact Hy|exact Hd].
Qed.
Print Assumptions C51_fill.

Example C51_fill_case : let original := [0; 1; 5/2] in let added := [1/2; 2] in
  original <> [] /\ increasing original /\ steps_above (1/100) added /\ 0 < 1/4 /\ 0 <= 1/100 <= (1/4) / 2 /\
  (forall x y, In x (original ++ added) -> In y (original ++ added) -> y - x < (1/4) * 2147483647).
Proof.
  cbv zeta. repeat match goal with |- _ /\ _ => split end; try lra; try easy.
  - repeat constructor; lra.
  - repeat constructor; lra.
  - intros x y Hx Hy. cbn in Hx, Hy. intuition lra.
Qed.

(** For any kind of number, binary64 included: a returned grid starts with the first point and has every required one. *)
Theorem C51_keeps {A : Arith} fuel (original added : list num) (max_dx min_dx : num) out :
  fill_data fuel original max_dx min_dx added = Ok out -> incl original out.
Proof.
  unfold fill_data.
  pose proof (sequence_left min_dx original added) as Hl.
  destruct (sequence min_dx original added) as [|x0 r]; [discriminate|].
  destruct (fill fuel max_dx min_dx x0 r) as [l| | |] eqn:El; cbn [obind]; try discriminate.
  intros E. assert (out = x0 :: l) by congruence. subst out.
  apply fill_incl in El. intros x Hx. destruct (Hl x Hx) as [<-|H]; [left; reflexivity|right; apply El; exact H].
Qed.
Print Assumptions C51_keeps.
Example C51_keeps_case : exists out,
  fill_data (A := FloatArith) 100 [fl_of_Z 0; fl_of_Z 1] (fl_lit 1 4) (fl_lit 1 100) [fl_lit 1 2] = Ok out /\ length out = 5%nat.
Proof. eexists. split; [vm_compute; reflexivity|reflexivity]. Qed.

(** A grid whose steps are all short enough is returned as it is. *)
Theorem C51_short fuel (original : list R) (max_dx min_dx : R) :
  original <> [] -> steps_at_most max_dx original ->
  fill_data (A := RealArith) fuel original max_dx min_dx [] = Ok original.
Proof.
  intros Hne H. unfold fill_data, sequence. destruct original as [|x r]; [easy|].
  assert (E : fill (A := RealArith) fuel max_dx min_dx x r = Ok r).
  { clear Hne. revert x H. induction r as [|y r IH]; intros x H; [reflexivity|].
    inversion H as [| |? ? ? Hxy Hr]; subst. cbn [fill].
    replace (nltb (Arith := RealArith) max_dx _) with false by (symmetry; apply nltb_R_false; cbn; lra).
    cbn [obind]. rewrite (IH y Hr). reflexivity. }
  rewrite E. reflexivity.
Qed.
Print Assumptions C51_short.
Example C51_short_case : [0; 1; 3/2] <> [] /\ steps_at_most 1 [0; 1; 3/2].
Proof. split; [easy|]. repeat constructor; lra. Qed.

(** An otherwise empty gap is divided evenly, by the smallest number of steps that fits (up to the tolerance). *)
Theorem C51_even fuel (a b max_dx min_dx : R) :
  0 < max_dx -> 0 <= min_dx <= max_dx / 2 -> max_dx < b - a < max_dx * 2147483647 -> (2 ^ 31 <= Z.of_nat fuel)%Z ->
  exists inner n, fill_data (A := RealArith) fuel [a; b] max_dx min_dx [] = Ok (a :: inner ++ [b]) /\
    steps (fun x y => y - x = (b - a) / IZR n) (a :: inner ++ [b]) /\
    (IZR n - 1) * max_dx <= b - a - max_dx * (2 / 10 ^ 14) < IZR n * max_dx.
Proof.
  intros Hmax Hmin Hg Hfuel. unfold fill_data, sequence. cbn [fill].
  change (nsub (Arith := RealArith) b a) with (b - a).
  replace (nltb (Arith := RealArith) max_dx _) with true by (symmetry; apply nltb_R; lra).
  set (g := b - a) in *. unfold trunc. rewrite eps14_R.
  change (nsub (Arith := RealArith) (ndiv (Arith := RealArith) g max_dx) (2 / 10 ^ 14)) with (g / max_dx - 2 / 10 ^ 14).
  set (q := g / max_dx). assert (Eq : q * max_dx = g) by (unfold q; field; lra).
  assert (Hq : 1 < q < 2147483647) by (split; nra).
  replace (nltb (Arith := RealArith) (q - 2 / 10 ^ 14) (of_Z (Arith := RealArith) 0)) with false
    by (symmetry; apply nltb_R_false; cbn; lra).
  change (to_int (Arith := RealArith) (q - 2 / 10 ^ 14)) with (as_int (Int_part (q - 2 / 10 ^ 14))).
  pose proof (Int_bounds (q - 2 / 10 ^ 14)) as HI.
  set (k := Int_part (q - 2 / 10 ^ 14)) in *.
  assert (Hk : (0 <= k < 2147483647)%Z).
  { split; [|apply lt_IZR; lra]. assert (-1 < k)%Z; [|lia]. apply lt_IZR. lra. }
  rewrite as_int_ok by lia. cbn [obind]. rewrite as_int_ok by lia. cbn [obind].
  change (ndiv (Arith := RealArith) g (of_Z (Arith := RealArith) (k + 1))) with (g / IZR (k + 1)).
  set (n := IZR (k + 1)). assert (Hn : q - 2 / 10 ^ 14 < n <= q - 2 / 10 ^ 14 + 1)
    by (unfold n; rewrite plus_IZR; lra).
  set (sp := g / n). assert (Esp : sp * n = g) by (unfold sp; field; lra).
  assert (Hsp : max_dx / 2 < sp).
  { apply Rmult_lt_reg_r with n; [lra|]. rewrite Esp, <- Eq. nra. }
  change (nadd (Arith := RealArith) a sp) with (a + sp).
  destruct (supplement_ok min_dx sp ltac:(lra) (Z.to_nat k) fuel b (a + sp)) as (ex & Ee & He).
  { rewrite INR_IZR_INZ, Z2Nat.id by lia. unfold n in Esp. rewrite plus_IZR in Esp. unfold g in Esp. nra. }
  { lia. }
  rewrite Ee. cbn [obind]. exists ex, (k + 1)%Z. split; [reflexivity|]. split.
  - replace (a + sp - sp) with a in He by ring. exact He.
  - fold n. rewrite <- Eq. split; nra.
Qed.
Print Assumptions C51_even.
Example C51_even_case : 0 < 1/4 /\ 0 <= 1/100 <= (1/4)/2 /\ 1/4 < 1 - 0 < (1/4) * 2147483647.
Proof. lra. Qed.

(** The longest step can be exceeded by a hair. *)
Theorem C51_tolerance_refuted : exists (a b : R), 
  fill_data (A := RealArith) 5 [a; b] 1 0 [] = Ok [a; (a + b) / 2; b] /\ a = 0 /\ b / 2 > 1.
Proof.
  exists 0, (2 + 1 / 10 ^ 14). split; [|split; lra].
  unfold fill_data, sequence. cbn [fill].
  replace (nltb (Arith := RealArith) 1 _) with true by (symmetry; apply nltb_R; cbn; lra).
  unfold trunc. rewrite eps14_R.
  replace (nsub (Arith := RealArith) (ndiv (Arith := RealArith) (nsub (Arith := RealArith) (2 + 1 / 10 ^ 14) 0) 1) (2 / 10 ^ 14)) with (2 - 1 / 10 ^ 14) by (cbn; lra).
  replace (nltb (Arith := RealArith) (2 - 1 / 10 ^ 14) (of_Z (Arith := RealArith) 0)) with false
    by (symmetry; apply nltb_R_false; cbn; lra).
  change (to_int (Arith := RealArith) (2 - 1 / 10 ^ 14)) with (as_int (Int_part (2 - 1 / 10 ^ 14))).
  assert (Ek : Int_part (2 - 1 / 10 ^ 14) = 1%Z).
  { pose proof (Int_bounds (2 - 1 / 10 ^ 14)) as [H1 H2].
    assert (Int_part (2 - 1 / 10 ^ 14) < 2)%Z by (apply lt_IZR; lra).
    assert (0 < Int_part (2 - 1 / 10 ^ 14))%Z by (apply lt_IZR; lra). lia. }
  rewrite Ek. cbn [obind as_int]. change (as_int 1) with (Ok 1%Z). cbn [obind]. change (as_int (1 + 1)) with (Ok 2%Z). cbn [obind].
  cbn [supplement].
  replace (nltb (Arith := RealArith) _ _) with true by (symmetry; apply nltb_R; cbn; lra).
  replace (nltb (Arith := RealArith) _ _) with false by (symmetry; apply nltb_R_false; cbn; lra).
  cbn [obind]. apply f_equal. cbn. apply f_equal. apply (f_equal (fun v : R => [v; 2 + 1 / 10 ^ 14])).
  change (@eq R (0 + (2 + 1 / 10 ^ 14 - 0) / 2) ((0 + (2 + 1 / 10 ^ 14)) / 2)). lra.
Qed.
Print Assumptions C51_tolerance_refuted.

(** With a smallest step above half the longest, a step may be half as long again as the longest allowed. *)
Theorem C51_min_dx_refuted : fill_data (A := RealArith) 5 [0; 3/2] 1 1 [] = Ok [0; 3/2].
Proof.
  unfold fill_data, sequence. cbn [fill].
  replace (nltb (Arith := RealArith) 1 _) with true by (symmetry; apply nltb_R; cbn; lra).
  unfold trunc. rewrite eps14_R.
  replace (nsub (Arith := RealArith) (ndiv (Arith := RealArith) (nsub (Arith := RealArith) (3/2) 0) 1) (2 / 10 ^ 14)) with (3/2 - 2 / 10 ^ 14) by (cbn; lra).
  replace (nltb (Arith := RealArith) (3/2 - 2 / 10 ^ 14) (of_Z (Arith := RealArith) 0)) with false
    by (symmetry; apply nltb_R_false; cbn; lra).
  change (to_int (Arith := RealArith) (3/2 - 2 / 10 ^ 14)) with (as_int (Int_part (3/2 - 2 / 10 ^ 14))).
  assert (Ek : Int_part (3/2 - 2 / 10 ^ 14) = 1%Z).
  { pose proof (Int_bounds (3/2 - 2 / 10 ^ 14)) as [H1 H2].
    assert (Int_part (3/2 - 2 / 10 ^ 14) < 2)%Z by (apply lt_IZR; lra).
    assert (0 < Int_part (3/2 - 2 / 10 ^ 14))%Z by (apply lt_IZR; lra). lia. }
  rewrite Ek. change (as_int 1) with (Ok 1%Z). cbn [obind]. change (as_int (1 + 1)) with (Ok 2%Z). cbn [obind].
  cbn [supplement].
  replace (nltb (Arith := RealArith) _ _) with false by (symmetry; apply nltb_R_false; cbn; lra).
  reflexivity.
Qed.
Print Assumptions C51_min_dx_refuted.

(** Two added points within [min_dx] of one required point: the grid is not in order (0.98 after 1). *)
Theorem C51_order_refuted :
  exists out, fill_data (A := FloatArith) 9 [fl_of_Z 1; fl_of_Z 2] (fl_of_Z 5) (fl_lit 1 10) [fl_lit 95 100; fl_lit 98 100] = Ok out /\
    out = [fl_of_Z 1; fl_lit 98 100; fl_of_Z 2].
Proof. eexists. split; vm_compute; reflexivity. Qed.
Print Assumptions C51_order_refuted.

(** With the default smallest step 0, rounding leaves two points 1.1e-16 apart: 1 in ten steps gets an eleventh. *)
Theorem C51_near_duplicate_refuted :
  exists out, fill_data (A := FloatArith) 20 [fl_of_Z 0; fl_of_Z 1] (fl_lit 1 10) (fl_of_Z 0) [] = Ok out /\
    length out = 12%nat /\ nth 10 out (fl_of_Z 0) = fsub (fl_of_Z 1) (fdiv (fl_of_Z 1) (fl_of_Z (2 ^ 53))).
Proof. eexists. split; [vm_compute; reflexivity|]. split; vm_compute; reflexivity. Qed.
Print Assumptions C51_near_duplicate_refuted.

(** Far from the origin the supplementary step is absorbed by rounding and the loop never ends. *)
Theorem C51_absorbed_refuted fuel :
  fill_data (A := FloatArith) fuel [fl_of_Z (10 ^ 17); fl_of_Z (10 ^ 17 + 128)] (fl_of_Z 1) (fl_of_Z 0) [] = OutOfFuel.
Proof.
  assert (H : forall fuel, supplement (A := FloatArith) fuel (fl_of_Z 0) (fl_of_Z 1) (fl_of_Z (10 ^ 17 + 128)) (fl_of_Z (10 ^ 17)) = OutOfFuel).
  { induction fuel0 as [|n IH]; [reflexivity|]. cbn [supplement].
    replace (nltb (Arith := FloatArith) _ _) with true by (vm_compute; reflexivity).
    replace (nadd (Arith := FloatArith) (fl_of_Z (10 ^ 17)) (fl_of_Z 1)) with (fl_of_Z (10 ^ 17)) by (vm_compute; reflexivity).
    rewrite IH. reflexivity. }
  unfold fill_data, sequence. cbn [fill].
  replace (nltb (Arith := FloatArith) _ _) with true by (vm_compute; reflexivity).
  replace (trunc (A := FloatArith) _) with (Ok 127%Z) by (vm_compute; reflexivity).
  cbn [obind]. replace (as_int (127 + 1)) with (Ok 128%Z) by reflexivity. cbn [obind].
  replace (ndiv (Arith := FloatArith) _ _) with (fl_of_Z 1) by (vm_compute; reflexivity).
  replace (nadd (Arith := FloatArith) (fl_of_Z (10 ^ 17)) (fl_of_Z 1)) with (fl_of_Z (10 ^ 17)) by (vm_compute; reflexivity).
  rewrite H. reflexivity.
Qed.
Print Assumptions C51_absorbed_refuted.

(** No required and no added point is undefined, and so is a longest step of 0. *)
Theorem C51_empty_refuted {A : Arith} fuel (max_dx min_dx : num) : fill_data fuel [] max_dx min_dx [] = UB.
Proof. reflexivity. Qed.
Print Assumptions C51_empty_refuted.
Theorem C51_zero_refuted fuel :
  fill_data (A := FloatArith) fuel [fl_of_Z 0; fl_of_Z 1] (fl_of_Z 0) (fl_of_Z 0) [] = UB.
Proof. vm_compute. reflexivity. Qed.
Print Assumptions C51_zero_refuted.
