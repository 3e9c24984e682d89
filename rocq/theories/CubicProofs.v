(** Proofs about the cubic spline. *)
From Coq Require Import Reals List Arith Bool ZArith Lia Lra.
From Verif Require Import Base Vec InterpModel InterpSpec InterpProofs CubicModel.
Import ListNotations.
Open Scope R_scope.
Notation dlim := derivable_pt_lim.

(** * Calculus *)
Lemma dlim_eq f g x l l' : dlim f x l -> l = l' -> (forall z, f z = g z) -> dlim g x l'.
Proof. intros H -> E. exact (derivable_pt_lim_ext f g x l' E H). Qed.
Lemma dlim_cubic c0 c1 c2 c3 s t : dlim (fun z => c0 + c1 * (z - s) + c2 * (z - s) * (z - s) + c3 * (z - s) * (z - s) * (z - s)) t (c1 + 2 * c2 * (t - s) + 3 * c3 * (t - s) * (t - s)).
Proof.
  assert (dlim (fun z => z - s) t 1) as H1.
  { eapply dlim_eq; [apply (derivable_pt_lim_minus id (fun _ => s) t 1 0); [apply derivable_pt_lim_id|apply derivable_pt_lim_const]|ring|reflexivity]. }
  pose proof (derivable_pt_lim_mult _ _ t _ _ H1 H1) as H2. pose proof (derivable_pt_lim_mult _ _ t _ _ H2 H1) as H3.
  pose proof (derivable_pt_lim_scal _ c1 t _ H1) as K1. pose proof (derivable_pt_lim_scal _ c2 t _ H2) as K2. pose proof (derivable_pt_lim_scal _ c3 t _ H3) as K3.
  eapply dlim_eq; [apply (derivable_pt_lim_plus _ _ t _ _ (derivable_pt_lim_plus _ _ t _ _ (derivable_pt_lim_plus _ _ t _ _ (derivable_pt_lim_const c0 t) K1) K2) K3)| |].
  - unfold mult_fct. ring.
  - intros z. unfold plus_fct, mult_real_fct, mult_fct, fct_cte. ring.
Qed.
(** a function that is g to the left of c and h to the right *)
Lemma dlim_glue f g h c l (d : R) : 0 < d -> (forall t, c - d < t <= c -> f t = g t) -> (forall t, c <= t < c + d -> f t = h t) -> dlim g c l -> dlim h c l -> dlim f c l.
Proof.
  intros Hd Hg Hh Dg Dh eps He. destruct (Dg eps He) as [d1 H1]. destruct (Dh eps He) as [d2 H2].
  assert (0 < Rmin d (Rmin d1 d2)) as Hm by (repeat apply Rmin_pos; [exact Hd|apply cond_pos|apply cond_pos]). exists (mkposreal _ Hm). intros e Hne Habs. cbn in Habs.
  assert (Rabs e < d /\ Rabs e < d1 /\ Rabs e < d2) as (A1 & A2 & A3).
  { pose proof (Rmin_l d (Rmin d1 d2)). pose proof (Rmin_r d (Rmin d1 d2)). pose proof (Rmin_l d1 d2). pose proof (Rmin_r d1 d2). lra. }
  apply Rabs_def2 in A1. destruct (Rlt_le_dec e 0) as [Hneg|Hpos].
  - rewrite (Hg (c + e)) by lra. rewrite (Hg c) by lra. now apply H1.
  - rewrite (Hh (c + e)) by lra. rewrite (Hh c) by lra. now apply H2.
Qed.
Lemma cont_glue f g h c (d : R) : 0 < d -> (forall t, c - d < t <= c -> f t = g t) -> (forall t, c <= t < c + d -> f t = h t) -> continuity_pt g c -> continuity_pt h c -> continuity_pt f c.
Proof.
  intros Hd Hg Hh Cg Ch eps He. destruct (Cg eps He) as (d1 & P1 & H1). destruct (Ch eps He) as (d2 & P2 & H2).
  exists (Rmin d (Rmin d1 d2)). split; [repeat apply Rmin_pos; assumption|]. intros y [Hy1 Hy2]. cbn in *. unfold R_dist in *.
  assert (Rabs (y - c) < d /\ Rabs (y - c) < d1 /\ Rabs (y - c) < d2) as (A1 & A2 & A3).
  { pose proof (Rmin_l d (Rmin d1 d2)). pose proof (Rmin_r d (Rmin d1 d2)). pose proof (Rmin_l d1 d2). pose proof (Rmin_r d1 d2). lra. }
  apply Rabs_def2 in A1. destruct (Rlt_le_dec (y - c) 0) as [Hneg|Hpos].
  - rewrite (Hg y) by lra. rewrite (Hg c) by lra. apply H1. split; [exact Hy1|exact A2].
  - rewrite (Hh y) by lra. rewrite (Hh c) by lra. apply H2. split; [exact Hy1|exact A3].
Qed.

(** * One piece *)
Section Piece.
Variables x0 x1 f0 f1 m0 m1 : R.
Hypothesis Hx : x0 < x1.
Notation h := (x1 - x0).
Definition piece (t : R) : R := let b := (t - x0) / h in let a := 1 - b in a * f0 + b * f1 - a * b * ((1 + a) * m0 + (1 + b) * m1) * (h * h) / 6.
Definition piece1 (t : R) : R := let b := (t - x0) / h in let a := 1 - b in (f1 - f0) / h - (3 * a * a - 1) / 6 * h * m0 + (3 * b * b - 1) / 6 * h * m1.
Definition piece2 (t : R) : R := let b := (t - x0) / h in (1 - b) * m0 + b * m1.
Lemma piece_d t : dlim piece t (piece1 t).
Proof.
  eapply dlim_eq; [apply (dlim_cubic f0 ((f1 - f0) / h - h * m0 / 3 - h * m1 / 6) (m0 / 2) ((m1 - m0) / h / 6) x0 t)| |].
  - unfold piece1. field. lra.
  - intros z. unfold piece. field. lra.
Qed.
Lemma piece1_d t : dlim piece1 t (piece2 t).
Proof.
  eapply dlim_eq; [apply (dlim_cubic ((f1 - f0) / h - h * m0 / 3 - h * m1 / 6) m0 ((m1 - m0) / h / 2) 0 x0 t)| |].
  - unfold piece2. field. lra.
  - intros z. unfold piece1. field. lra.
Qed.
Lemma piece2_d t : dlim piece2 t ((m1 - m0) / h).
Proof.
  eapply dlim_eq; [apply (dlim_cubic m0 ((m1 - m0) / h) 0 0 x0 t)| |].
  - ring.
  - intros z. unfold piece2. field. lra.
Qed.
Lemma piece_left : piece x0 = f0 /\ piece1 x0 = (f1 - f0) / h - h / 6 * (2 * m0 + m1) /\ piece2 x0 = m0.
Proof. unfold piece, piece1, piece2. repeat split; field; lra. Qed.
Lemma piece_right : piece x1 = f1 /\ piece1 x1 = (f1 - f0) / h + h / 6 * (m0 + 2 * m1) /\ piece2 x1 = m1.
Proof. unfold piece, piece1, piece2. repeat split; field; lra. Qed.
End Piece.

(** * The fit *)
Lemma increasing_iff l : is_increasing l = true <-> increasing l.
Proof.
  split.
  - induction l as [|a l IH]; intros H i j Hij; [cbn in Hij; lia|]. destruct l as [|b l]; [cbn in Hij; lia|]. cbn [is_increasing] in H. destruct (Rlt_dec a b) as [Hab|]; [|discriminate]. specialize (IH H).
    destruct i as [|i], j as [|j]; cbn [length] in Hij; try lia; [|apply (IH i j); cbn [length]; lia].
    destruct j as [|j]; [exact Hab|]. apply Rlt_trans with b; [exact Hab|]. apply (IH 0%nat (S j)). cbn [length]. lia.
  - induction l as [|a l IH]; intros H; [reflexivity|]. destruct l as [|b l]; [reflexivity|]. cbn [is_increasing].
    destruct (Rlt_dec a b) as [_|N]; [|elim N; apply (H 0%nat 1%nat); cbn; lia]. apply IH. intros i j Hij. apply (H (S i) (S j)). cbn [length] in *. lia.
Qed.
Section Fit.
Variables x f : list R.
Hypothesis Hinc : increasing x.
Hypothesis Hlen : (2 < length x)%nat.
Hypothesis Hf : length x = length f.
Notation n := (length x).
Notation X k := (nth k x 0).
Notation F k := (nth k f 0).
Definition slope (k : nat) : R := (F (S k) - F k) / (X (S k) - X k).
Lemma decompose_ok i prev : (0 < i)%nat -> (S i < n)%nat -> -1 < snd prev <= 1 ->
  exists c, decompose x f i prev = Ok c /\ -1 < snd c <= 0 /\
    forall m0 m1 m2, m0 = fst prev + snd prev * m1 -> m1 = fst c + snd c * m2 ->
      (X i - X (i - 1)) * m0 + 2 * (X (S i) - X (i - 1)) * m1 + (X (S i) - X i) * m2 = 6 * (slope i - slope (i - 1)).
Proof using Hinc Hlen Hf.
  intros Hi Hn Hu. unfold decompose. rewrite !(get_ok x _ 0), !(get_ok f _ 0) by lia. cbn [obind]. eexists. split; [reflexivity|]. cbn [fst snd].
  pose proof (Hinc (i - 1)%nat i ltac:(lia)) as H1. pose proof (Hinc i (S i) ltac:(lia)) as H2. replace (S (i - 1)) with i in * by lia.
  unfold slope. replace (S (i - 1)) with i by lia.
  set (xp := X (i - 1)) in *. set (xi := X i) in *. set (xn := X (S i)) in *. set (sig := (xi - xp) / (xn - xp)). destruct prev as [gp up]. cbn [fst snd] in *.
  assert (0 < sig < 1) as Hs. { unfold sig. split; [apply Rdiv_lt_0_compat; lra|]. apply (Rmult_lt_reg_r (xn - xp)); [lra|]. unfold Rdiv. rewrite Rmult_assoc, Rinv_l by lra. lra. }
  assert (1 < sig * up + 2) as Hp by nra.
  split.
  - split.
    + apply (Rmult_lt_reg_r (sig * up + 2)); [lra|]. unfold Rdiv. rewrite Rmult_assoc, Rinv_l by lra. nra.
    + apply (Rmult_le_reg_r (sig * up + 2)); [lra|]. unfold Rdiv. rewrite Rmult_assoc, Rinv_l by lra. lra.
  - intros m0 m1 m2 E0 E1. set (temp := (F (S i) - F i) / (xn - xi) - (F i - F (i - 1)%nat) / (xi - xp)) in *.
    assert ((sig * up + 2) * (xn - xp) * m1 = 6 * temp - (xi - xp) * gp + (sig - 1) * (xn - xp) * m2) as E2 by (rewrite E1; field; lra).
    assert (sig * (xn - xp) = xi - xp) as E3 by (unfold sig; field; lra).
    assert ((xi - xp) * m0 = (xi - xp) * gp + sig * (xn - xp) * up * m1) as E4 by (rewrite E0, E3; ring).
    rewrite E4. replace (xn - xi) with ((xn - xp) - sig * (xn - xp)) by (rewrite E3; ring). lra.
Qed.
(** the whole forward loop *)
Lemma forward_ok k : forall i prev, (0 < i)%nat -> (i + k < n)%nat -> -1 < snd prev <= 1 ->
  exists l, forward x f k i prev = Ok l /\ length l = k /\ Forall (fun c => -1 < snd c <= 0) l /\
    forall j, (j < k)%nat -> forall m0 m1 m2, m0 = fst (nth j (prev :: l) (0, 0)) + snd (nth j (prev :: l) (0, 0)) * m1 -> m1 = fst (nth j l (0, 0)) + snd (nth j l (0, 0)) * m2 ->
      (X (i + j) - X (i + j - 1)) * m0 + 2 * (X (S (i + j)) - X (i + j - 1)) * m1 + (X (S (i + j)) - X (i + j)) * m2 = 6 * (slope (i + j) - slope (i + j - 1)).
Proof using Hinc Hlen Hf.
  induction k as [|k IH]; intros i prev Hi Hn Hu; cbn [forward].
  - exists []. repeat split; auto. intros j Hj. lia.
  - destruct (decompose_ok i prev Hi ltac:(lia) Hu) as (c & E & Hc & R). rewrite E. cbn [obind].
    destruct (IH (S i) c ltac:(lia) ltac:(lia) ltac:(lra)) as (l & El & Hl & HF & HR). rewrite El. cbn [obind]. exists (c :: l). split; [reflexivity|]. split; [cbn; lia|].
    split; [now constructor|]. intros [|j] Hj m0 m1 m2 E0 E1.
    + rewrite Nat.add_0_r. cbn [nth] in *. now apply R.
    + cbn [nth] in E1. change (nth (S j) (prev :: c :: l) (0, 0)) with (nth j (c :: l) (0, 0)) in E0. rewrite Nat.add_succ_r. apply (HR j); [lia|exact E0|exact E1].
Qed.
Lemma backsub_length l m : length (backsub l m) = S (length l).
Proof. induction l as [|[g u] l IH]; cbn; [reflexivity|]. now rewrite IH. Qed.
Lemma backsub_row l m : forall j, (j < length l)%nat -> nth j (backsub l m) 0 = fst (nth j l (0, 0)) + snd (nth j l (0, 0)) * nth (S j) (backsub l m) 0.
Proof.
  induction l as [|[g u] l IH]; intros j Hj; cbn [length] in Hj; [lia|]. destruct j as [|j]; cbn [backsub nth fst snd].
  - destruct (backsub l m) as [|y t] eqn:E; [pose proof (backsub_length l m) as B; rewrite E in B; discriminate|]. reflexivity.
  - apply IH. lia.
Qed.
Lemma backsub_last l m : nth (length l) (backsub l m) 0 = m.
Proof. induction l as [|[g u] l IH]; cbn; [reflexivity|exact IH]. Qed.

(** the equations of a spline *)
Record spline (lhs rhs : boundary) (m : list R) : Prop := Spline {
  sp_len : length m = n;
  sp_inner : forall i, (0 < i)%nat -> (S i < n)%nat ->
    (X i - X (i - 1)) * nth (i - 1) m 0 + 2 * (X (S i) - X (i - 1)) * nth i m 0 + (X (S i) - X i) * nth (S i) m 0 = 6 * (slope i - slope (i - 1));
  sp_left : (order lhs = 1%Z /\ 2 * nth 0 m 0 + nth 1 m 0 = 6 / (X 1 - X 0) * (slope 0 - bvalue lhs)) \/ (order lhs = 2%Z /\ nth 0 m 0 = bvalue lhs) \/
            (order lhs = 3%Z /\ (nth 1 m 0 - nth 0 m 0) / (X 1 - X 0) = bvalue lhs);
  sp_right : (order rhs = 1%Z /\ nth (n - 2) m 0 + 2 * nth (n - 1) m 0 = 6 / (X (n - 1) - X (n - 2)) * (bvalue rhs - slope (n - 2))) \/ (order rhs = 2%Z /\ nth (n - 1) m 0 = bvalue rhs) \/
             (order rhs = 3%Z /\ (nth (n - 1) m 0 - nth (n - 2) m 0) / (X (n - 1) - X (n - 2)) = bvalue rhs) }.
Definition known (b : boundary) : Prop := order b = 1%Z \/ order b = 2%Z \/ order b = 3%Z.
Lemma left_ok lhs : known lhs -> exists c, left_end x f lhs = Ok c /\ -1 < snd c <= 1 /\ forall m0 m1, m0 = fst c + snd c * m1 ->
  (order lhs = 1%Z /\ 2 * m0 + m1 = 6 / (X 1 - X 0) * (slope 0 - bvalue lhs)) \/ (order lhs = 2%Z /\ m0 = bvalue lhs) \/ (order lhs = 3%Z /\ (m1 - m0) / (X 1 - X 0) = bvalue lhs).
Proof using Hinc Hlen Hf.
  intros K. pose proof (Hinc 0%nat 1%nat ltac:(lia)) as H1. unfold left_end. rewrite !(get_ok x _ 0), !(get_ok f _ 0) by lia. cbn [obind]. destruct K as [K|[K|K]]; rewrite K; cbn [Z.eqb Pos.eqb].
  - eexists. split; [reflexivity|]. cbn [fst snd]. split; [lra|]. intros m0 m1 ->. left. split; [reflexivity|]. unfold slope. field. lra.
  - eexists. split; [reflexivity|]. cbn [fst snd]. split; [lra|]. intros m0 m1 ->. right. left. split; [reflexivity|]. ring.
  - eexists. split; [reflexivity|]. cbn [fst snd]. split; [lra|]. intros m0 m1 ->. right. right. split; [reflexivity|]. field. lra.
Qed.
Lemma right_ok rhs prev : known rhs -> -1 < snd prev <= 0 -> exists m, right_end x f rhs prev = Ok m /\ forall mp, mp = fst prev + snd prev * m ->
  (order rhs = 1%Z /\ mp + 2 * m = 6 / (X (n - 1) - X (n - 2)) * (bvalue rhs - slope (n - 2))) \/ (order rhs = 2%Z /\ m = bvalue rhs) \/
  (order rhs = 3%Z /\ (m - mp) / (X (n - 1) - X (n - 2)) = bvalue rhs).
Proof using Hinc Hlen Hf.
  intros K Hu. pose proof (Hinc (n - 2)%nat (n - 1)%nat ltac:(lia)) as H1. unfold right_end. rewrite !(get_ok x _ 0), !(get_ok f _ 0) by lia. cbn [obind].
  unfold slope. replace (S (n - 2)) with (n - 1)%nat by lia. destruct K as [K|[K|K]]; rewrite K; cbn [Z.eqb Pos.eqb].
  - eexists. split; [reflexivity|]. intros mp ->. left. split; [reflexivity|]. field. lra.
  - eexists. split; [reflexivity|]. intros mp ->. right. left. split; reflexivity.
  - eexists. split; [reflexivity|]. intros mp ->. right. right. split; [reflexivity|]. field. lra.
Qed.
Lemma last_in {A} (l : list A) (c d : A) : l <> [] -> last l c = nth (length l - 1) l d /\ In (last l c) l.
Proof.
  intros Hne. destruct (exists_last Hne) as (l' & a & ->). rewrite last_last, app_length. cbn [length]. replace (length l' + 1 - 1)%nat with (length l') by lia. split.
  - now rewrite nth_middle.
  - apply in_or_app. right. now left.
Qed.
Lemma fit_ok lhs rhs : known lhs -> known rhs -> exists m, fit x f lhs rhs = Ok m /\ spline lhs rhs m.
Proof using Hinc Hlen Hf.
  intros Kl Kr. unfold fit. apply Nat.ltb_lt in Hlen as Hlt. rewrite Hlt, (proj2 (increasing_iff x) Hinc), Hf, Nat.eqb_refl, <- Hf. cbn [andb].
  destruct (left_ok lhs Kl) as (c & E & Hu & L). rewrite E. cbn [obind]. destruct (forward_ok (n - 2) 1 c ltac:(lia) ltac:(lia) Hu) as (l & El & Hl & HF & HR). rewrite El. cbn [obind].
  assert (l <> []) as Hne by (intros ->; cbn in Hl; lia). destruct (last_in l c (0, 0) Hne) as [Elast Ilast]. rewrite Forall_forall in HF.
  destruct (right_ok rhs (last l c) Kr (HF _ Ilast)) as (m & Em & Rm). rewrite Em. cbn [obind]. exists (backsub (c :: l) m). split; [reflexivity|].
  set (B := backsub (c :: l) m). assert (length B = n) as HB by (unfold B; rewrite backsub_length; cbn [length]; lia).
  assert (forall j, (j < n - 1)%nat -> nth j B 0 = fst (nth j (c :: l) (0, 0)) + snd (nth j (c :: l) (0, 0)) * nth (S j) B 0) as Hrow.
  { intros j Hj. apply backsub_row. cbn [length]. lia. }
  assert (nth (n - 1) B 0 = m) as Hm by (pose proof (backsub_last (c :: l) m) as Q; cbn [length] in Q; fold B in Q; rewrite Hl in Q; replace (n - 1)%nat with (S (n - 2)) by lia; exact Q).
  constructor.
  - exact HB.
  - intros i Hi Hn. pose proof (HR (i - 1)%nat ltac:(lia) (nth (i - 1) B 0) (nth i B 0) (nth (S i) B 0)) as R. replace (1 + (i - 1))%nat with i in R by lia. apply R.
    + pose proof (Hrow (i - 1)%nat ltac:(lia)) as Q. replace (S (i - 1)) with i in Q by lia. exact Q.
    + pose proof (Hrow i ltac:(lia)) as Q. destruct i as [|i]; [lia|]. change (nth (S i) (c :: l) (0, 0)) with (nth i l (0, 0)) in Q. replace (S i - 1)%nat with i by lia. exact Q.
  - apply L. apply (Hrow 0%nat). lia.
  - rewrite Hm. apply Rm. pose proof (Hrow (n - 2)%nat ltac:(lia)) as Q. replace (S (n - 2)) with (n - 1)%nat in Q by lia. rewrite Hm in Q. rewrite Elast, Hl.
    replace (n - 2 - 1)%nat with (n - 3)%nat by lia. replace (nth (n - 2) (c :: l) (0, 0)) with (nth (n - 3) l (0, 0)) in Q by (replace (n - 2)%nat with (S (n - 3)) by lia; reflexivity). exact Q.
Qed.

(** * The curve *)
Definition idx (t : R) : nat := (Nat.min (n - 1) (Nat.max 1 (lower_bound x t)) - 1)%nat.
Lemma idx_place t : (idx t <= n - 2)%nat /\ (idx t = 0%nat \/ X (idx t) < t) /\ (idx t = (n - 2)%nat \/ t <= X (S (idx t))).
Proof using Hinc Hlen Hf.
  pose proof (lower_bound_le x t) as L. pose proof (lower_bound_lt x t) as L1. pose proof (lower_bound_ge x t) as L2. unfold idx.
  set (k := lower_bound x t) in *. clearbody k. split; [lia|]. split.
  - destruct (Nat.eq_dec (Nat.min (n - 1) (Nat.max 1 k) - 1) 0) as [E|E]; [now left|right]. apply L1. lia.
  - destruct (Nat.eq_dec (Nat.min (n - 1) (Nat.max 1 k) - 1) (n - 2)) as [E|E]; [now left|right].
    destruct (Nat.eq_dec k 0) as [->|Hk].
    + apply Rle_trans with (X 0); [apply L2; lia|]. apply Rlt_le, Hinc. lia.
    + replace (S (Nat.min (n - 1) (Nat.max 1 k) - 1)) with k by lia. apply L2. lia.
Qed.
Lemma idx_is k t : (k <= n - 2)%nat -> (k = 0%nat \/ X k < t) -> (k = (n - 2)%nat \/ t <= X (S k)) -> idx t = k.
Proof using Hinc Hlen Hf.
  intros Hk H1 H2. destruct (idx_place t) as (P0 & P1 & P2). destruct (Nat.lt_trichotomy (idx t) k) as [C|[C|C]]; [|exact C|]; exfalso.
  - destruct H1 as [->|H1]; [lia|]. destruct P2 as [P2|P2]; [lia|]. destruct (Nat.eq_dec (S (idx t)) k) as [E|E]; [rewrite E in P2; lra|].
    pose proof (Hinc (S (idx t)) k ltac:(lia)). lra.
  - destruct P1 as [P1|P1]; [lia|]. destruct H2 as [->|H2]; [lia|]. destruct (Nat.eq_dec (S k) (idx t)) as [E|E]; [rewrite E in H2; lra|].
    pose proof (Hinc (S k) (idx t) ltac:(lia)). lra.
Qed.
(** near every point the curve is one piece to the left and one to the right *)
Lemma idx_near c : exists d kl kr, 0 < d /\ (kl <= n - 2)%nat /\ (kr <= n - 2)%nat /\ (forall t, c - d < t <= c -> idx t = kl) /\ (forall t, c < t < c + d -> idx t = kr) /\
  (kl = kr \/ (kr = S kl /\ c = X (S kl))).
Proof using Hinc Hlen Hf.
  destruct (idx_place c) as (P0 & P1 & P2). set (k := idx c) in *.
  assert (exists d, 0 < d /\ forall t, c - d < t <= c -> idx t = k) as (d1 & Hd1 & L).
  { destruct P1 as [P1|P1].
    - exists 1. split; [lra|]. intros t Ht. apply idx_is; [lia|now left|]. destruct P2 as [P2|P2]; [now left|right; lra].
    - exists (c - X k). split; [lra|]. intros t Ht. apply idx_is; [lia|right; lra|]. destruct P2 as [P2|P2]; [now left|right; lra]. }
  assert (exists d kr, 0 < d /\ (kr <= n - 2)%nat /\ (forall t, c < t < c + d -> idx t = kr) /\ (k = kr \/ (kr = S k /\ c = X (S k)))) as (d2 & kr & Hd2 & Hkr & Rt & Hor).
  { destruct P2 as [P2|P2].
    - exists 1, k. repeat split; auto; [lra|]. intros t Ht. apply idx_is; [lia| |now left]. destruct P1 as [P1|P1]; [now left|right; lra].
    - destruct (Nat.eq_dec k (n - 2)) as [Ek|Ek].
      + exists 1, k. repeat split; auto; [lra|]. intros t Ht. apply idx_is; [lia| |now left]. destruct P1 as [P1|P1]; [now left|right; lra].
      + destruct (Rle_lt_or_eq_dec _ _ P2) as [P3|P3].
        * exists (X (S k) - c), k. repeat split; auto; [lra|]. intros t Ht. apply idx_is; [lia| |right; lra]. destruct P1 as [P1|P1]; [now left|right; lra].
        * pose proof (Hinc (S k) (S (S k)) ltac:(lia)) as Hn. exists (X (S (S k)) - c), (S k). repeat split; auto; [lra|lia|]. intros t Ht. apply idx_is; [lia|right; lra|right; lra]. }
  exists (Rmin d1 d2), k, kr. pose proof (Rmin_l d1 d2). pose proof (Rmin_r d1 d2). split; [now apply Rmin_pos|]. repeat split; auto.
  - intros t Ht. apply L. lra.
  - intros t Ht. apply Rt. lra.
Qed.

Variable m : list R.
Hypothesis Hm : length m = n.
Notation M k := (nth k m 0).
Hypothesis Hinner : forall i, (0 < i)%nat -> (S i < n)%nat ->
    (X i - X (i - 1)) * M (i - 1)%nat + 2 * (X (S i) - X (i - 1)) * M i + (X (S i) - X i) * M (S i) = 6 * (slope i - slope (i - 1)).
Definition P0 (k : nat) : R -> R := piece (X k) (X (S k)) (F k) (F (S k)) (M k) (M (S k)).
Definition P1 (k : nat) : R -> R := piece1 (X k) (X (S k)) (F k) (F (S k)) (M k) (M (S k)).
Definition P2 (k : nat) : R -> R := piece2 (X k) (X (S k)) (M k) (M (S k)).
Definition G0 (t : R) : R := P0 (idx t) t.
Definition G1 (t : R) : R := P1 (idx t) t.
Definition G2 (t : R) : R := P2 (idx t) t.
Lemma step_lt k : (k <= n - 2)%nat -> X k < X (S k).
Proof using Hinc Hlen Hf Hm. intros H. apply Hinc. lia. Qed.
Lemma meet k : (S k <= n - 2)%nat -> P0 k (X (S k)) = P0 (S k) (X (S k)) /\ P1 k (X (S k)) = P1 (S k) (X (S k)) /\ P2 k (X (S k)) = P2 (S k) (X (S k)).
Proof using Hinc Hlen Hf Hm Hinner.
  intros Hk. pose proof (step_lt k ltac:(lia)) as H1. pose proof (step_lt (S k) Hk) as H2.
  destruct (piece_right (X k) (X (S k)) (F k) (F (S k)) (M k) (M (S k)) H1) as (A0 & A1 & A2).
  destruct (piece_left (X (S k)) (X (S (S k))) (F (S k)) (F (S (S k))) (M (S k)) (M (S (S k))) H2) as (B0 & B1 & B2).
  unfold P0, P1, P2. rewrite A0, A1, A2, B0, B1, B2. repeat split.
  pose proof (Hinner (S k) ltac:(lia) ltac:(lia)) as E. replace (S k - 1)%nat with k in E by lia. unfold slope in E. lra.
Qed.
(** the left and the right piece at c *)
Lemma near c : exists d kl kr, 0 < d /\ (kl <= n - 2)%nat /\ (kr <= n - 2)%nat /\ idx c = kl /\
  (forall (P : nat -> R -> R) t, c - d < t <= c -> P (idx t) t = P kl t) /\
  (forall (P : nat -> R -> R) t, P kl c = P kr c -> c <= t < c + d -> P (idx t) t = P kr t) /\
  P0 kl c = P0 kr c /\ P1 kl c = P1 kr c /\ P2 kl c = P2 kr c.
Proof using Hinc Hlen Hf Hm Hinner.
  destruct (idx_near c) as (d & kl & kr & Hd & Hl & Hr & L & Rt & Hor). exists d, kl, kr. assert (idx c = kl) as Ec by (apply L; lra).
  split; [exact Hd|]. split; [exact Hl|]. split; [exact Hr|]. split; [exact Ec|]. split; [|split].
  - intros P t Ht. now rewrite L.
  - intros P t E Ht. destruct (Rle_lt_or_eq_dec _ _ (proj1 Ht)) as [C|<-]; [rewrite Rt by lra; reflexivity|]. now rewrite Ec.
  - destruct Hor as [->|[-> E]]; [repeat split|]. rewrite E. apply meet. lia.
Qed.
Lemma P0_d k t : (k <= n - 2)%nat -> dlim (P0 k) t (P1 k t).
Proof using Hinc Hlen Hf Hm. intros H. apply piece_d. now apply step_lt. Qed.
Lemma P1_d k t : (k <= n - 2)%nat -> dlim (P1 k) t (P2 k t).
Proof using Hinc Hlen Hf Hm. intros H. apply piece1_d. now apply step_lt. Qed.
Lemma P2_d k t : (k <= n - 2)%nat -> dlim (P2 k) t ((M (S k) - M k) / (X (S k) - X k)).
Proof using Hinc Hlen Hf Hm. intros H. apply piece2_d. now apply step_lt. Qed.
Lemma G0_d t : dlim G0 t (G1 t).
Proof using Hinc Hlen Hf Hm Hinner.
  destruct (near t) as (d & kl & kr & Hd & Hl & Hr & E & L & Rt & E0 & E1 & E2). unfold G1. rewrite E.
  apply (dlim_glue G0 (P0 kl) (P0 kr) t _ d Hd (L P0) (fun s => Rt P0 s E0)); [now apply P0_d|rewrite E1; now apply P0_d].
Qed.
Lemma G1_d t : dlim G1 t (G2 t).
Proof using Hinc Hlen Hf Hm Hinner.
  destruct (near t) as (d & kl & kr & Hd & Hl & Hr & E & L & Rt & E0 & E1 & E2). unfold G2. rewrite E.
  apply (dlim_glue G1 (P1 kl) (P1 kr) t _ d Hd (L P1) (fun s => Rt P1 s E1)); [now apply P1_d|rewrite E2; now apply P1_d].
Qed.
Lemma G2_c : continuity G2.
Proof using Hinc Hlen Hf Hm Hinner.
  intros t. destruct (near t) as (d & kl & kr & Hd & Hl & Hr & E & L & Rt & E0 & E1 & E2).
  apply (cont_glue G2 (P2 kl) (P2 kr) t d Hd (L P2) (fun s => Rt P2 s E2)); apply derivable_continuous_pt; eexists; now apply P2_d.
Qed.
(** on a piece the second derivative is a straight line, so the third derivative is constant *)
Lemma G2_d k t : (k <= n - 2)%nat -> (k = 0%nat \/ X k < t) -> (k = (n - 2)%nat \/ t < X (S k)) -> dlim G2 t ((M (S k) - M k) / (X (S k) - X k)).
Proof using Hinc Hlen Hf Hm Hinner.
  intros Hk H1 H2. assert (exists d, 0 < d /\ forall s, t - d < s < t + d -> idx s = k) as (d & Hd & H).
  { assert (exists d, 0 < d /\ forall s, t - d < s -> k = 0%nat \/ X k < s) as (d1 & D1 & Q1).
    { destruct H1 as [H1|H1]; [exists 1|exists (t - X k)]; (split; [lra|]); intros s Hs; [now left|right; lra]. }
    assert (exists d, 0 < d /\ forall s, s < t + d -> k = (n - 2)%nat \/ s <= X (S k)) as (d2 & D2 & Q2).
    { destruct H2 as [H2|H2]; [exists 1|exists (X (S k) - t)]; (split; [lra|]); intros s Hs; [now left|right; lra]. }
    exists (Rmin d1 d2). pose proof (Rmin_l d1 d2). pose proof (Rmin_r d1 d2). split; [now apply Rmin_pos|]. intros s Hs. apply idx_is; [exact Hk|apply Q1; lra|apply Q2; lra]. }
  apply (dlim_glue G2 (P2 k) (P2 k) t _ d Hd); [| |now apply P2_d|now apply P2_d]; intros s Hs; unfold G2; rewrite H by lra; reflexivity.
Qed.
Lemma idx_knot_r k : (S k <= n - 1)%nat -> idx (X (S k)) = k.
Proof using Hinc Hlen Hf Hm.
  intros Hk. apply idx_is; [lia| |right; lra]. right. apply Hinc. lia.
Qed.
Lemma idx_first : idx (X 0) = 0%nat.
Proof using Hinc Hlen Hf Hm. apply idx_is; [lia|now left|right]. apply Rlt_le, Hinc. lia. Qed.
Lemma G_first : G0 (X 0) = F 0 /\ G1 (X 0) = slope 0 - (X 1 - X 0) / 6 * (2 * M 0%nat + M 1%nat) /\ G2 (X 0) = M 0%nat.
Proof using Hinc Hlen Hf Hm. unfold G0, G1, G2. rewrite idx_first. apply piece_left. apply step_lt. lia. Qed.
Lemma G_next k : (S k <= n - 1)%nat -> G0 (X (S k)) = F (S k) /\ G1 (X (S k)) = slope k + (X (S k) - X k) / 6 * (M k + 2 * M (S k)) /\ G2 (X (S k)) = M (S k).
Proof using Hinc Hlen Hf Hm. intros Hk. unfold G0, G1, G2. rewrite idx_knot_r by exact Hk. apply piece_right. apply step_lt. lia. Qed.
Lemma G_knot k : (k < n)%nat -> G0 (X k) = F k.
Proof using Hinc Hlen Hf Hm. intros Hk. destruct k as [|k]; [apply G_first|apply G_next; lia]. Qed.
Lemma cubic_ok t : cubic x f m t = Ok (G0 t).
Proof using Hinc Hlen Hf Hm.
  unfold cubic. pose proof (lower_bound_le x t) as L.
  set (inner := (do xg <- get x _; _ : outcome R)). assert (inner = Ok (G0 t)) as E.
  { unfold inner. destruct (idx_place t) as (I0 & _ & _). assert (Nat.min (n - 1) (Nat.max 1 (lower_bound x t)) = S (idx t)) as -> by (unfold idx; lia).
    replace (S (idx t) - 1)%nat with (idx t) by lia. rewrite !(get_ok x _ 0), !(get_ok f _ 0), !(get_ok m _ 0) by lia. reflexivity. }
  clearbody inner. rewrite E. destruct (Nat.eqb_spec (lower_bound x t) n) as [Q|Q]; [reflexivity|]. rewrite (get_ok x _ 0) by lia. cbn [obind].
  destruct (Req_EM_T (X (lower_bound x t)) t) as [T|T]; [|reflexivity]. rewrite (get_ok f _ 0) by lia. f_equal. rewrite <- T at 2. symmetry. apply G_knot. lia.
Qed.
End Fit.
