(** Proofs for C90: the difference quotients on a smooth function. *)
From Coq Require Import Reals List Arith Bool Lia Lra.
From Verif Require Import Base Vec InterpModel InterpSpec BandModel BandSpec BandProofs PdeSpec PdeProofs PdeProps RollSpec RollProofs.
Import ListNotations.
Local Open Scope R_scope.

Lemma rate_eq f x a b : a = b -> derivable_pt_lim f x a -> derivable_pt_lim f x b.
Proof. now intros ->. Qed.
Lemma growth g g' h h' S : 0 <= S -> (forall s, 0 <= s <= S -> derivable_pt_lim g s (g' s) /\ derivable_pt_lim h s (h' s) /\ Rabs (g' s) <= h' s) -> Rabs (g S - g 0) <= h S - h 0.
Proof.
  intros HS H. destruct (Req_dec S 0) as [->|Hne]; [replace (g 0 - g 0) with 0 by ring; rewrite Rabs_R0; lra|]. assert (Hp : 0 < S) by lra. apply Rabs_le. split.
  - destruct (MVT_cor2 (h + g)%F (fun s => h' s + g' s) 0 S Hp) as (c & E & Hc); [intros c Hc; destruct (H c Hc) as (A & B & _); now apply derivable_pt_lim_plus|]. unfold plus_fct in E. destruct (H c ltac:(lra)) as (_ & _ & C). apply abs_between in C. nra.
  - destruct (MVT_cor2 (h - g)%F (fun s => h' s - g' s) 0 S Hp) as (c & E & Hc); [intros c Hc; destruct (H c Hc) as (A & B & _); now apply derivable_pt_lim_minus|]. unfold minus_fct in E. destruct (H c ltac:(lra)) as (_ & _ & C). apply abs_between in C. nra.
Qed.
Lemma rate_shift f x s l : derivable_pt_lim f (x + s) l -> derivable_pt_lim (fun s => f (x + s)) s l.
Proof.
  intros H. apply (rate_eq _ _ (l * (0 + 1))); [ring|]. apply (derivable_pt_lim_comp (fun s => x + s) f); [apply derivable_pt_lim_plus; [apply derivable_pt_lim_const|apply derivable_pt_lim_id]|exact H].
Qed.
Lemma rate_pow2 c s : derivable_pt_lim (fun s => c * (s * s)) s (c * (2 * s)).
Proof.
  apply (rate_eq _ _ (0 * (s * s) + c * (1 * s + s * 1))); [ring|]. apply (derivable_pt_lim_mult (fun _ => c) (fun s => s * s)); [apply derivable_pt_lim_const|].
  apply (derivable_pt_lim_mult (fun s => s) (fun s => s)); apply derivable_pt_lim_id.
Qed.
Lemma rate_pow1 c s : derivable_pt_lim (fun s => c * s) s c.
Proof. apply (rate_eq _ _ (0 * s + c * 1)); [ring|]. apply (derivable_pt_lim_mult (fun _ => c) (fun s => s)); [apply derivable_pt_lim_const|apply derivable_pt_lim_id]. Qed.
Lemma rate_pow3 c s : derivable_pt_lim (fun s => c * (s * s * s)) s (c * (3 * (s * s))).
Proof.
  apply (rate_eq _ _ (0 * (s * s * s) + c * ((1 * s + s * 1) * s + s * s * 1))); [ring|]. apply (derivable_pt_lim_mult (fun _ => c) (fun s => s * s * s)); [apply derivable_pt_lim_const|].
  apply (derivable_pt_lim_mult (fun s => s * s) (fun s => s)); [|apply derivable_pt_lim_id]. apply (derivable_pt_lim_mult (fun s => s) (fun s => s)); apply derivable_pt_lim_id.
Qed.
Lemma taylor_right f f1 f2 f3 x M : forall S, 0 <= S ->
  (forall y, x <= y <= x + S -> derivable_pt_lim f y (f1 y) /\ derivable_pt_lim f1 y (f2 y) /\ derivable_pt_lim f2 y (f3 y) /\ Rabs (f3 y) <= M) ->
  Rabs (f (x + S) - f x - S * f1 x - S * S / 2 * f2 x) <= M / 6 * (S * S * S).
Proof.
  intros S HS H.
  assert (A2 : forall s, 0 <= s <= S -> Rabs (f2 (x + s) - f2 x) <= M * s).
  { intros s Hs. pose proof (growth (fun s => f2 (x + s)) (fun s => f3 (x + s)) (fun s => M * s) (fun _ => M) s ltac:(lra)) as K. cbn beta in K. rewrite Rplus_0_r in K. replace (M * s) with (M * s - M * 0) by ring. apply K.
    intros r Hr. destruct (H (x + r) ltac:(lra)) as (_ & _ & B & C). split; [now apply rate_shift|]. split; [apply rate_pow1|exact C]. }
  assert (A1 : forall s, 0 <= s <= S -> Rabs (f1 (x + s) - f1 x - s * f2 x) <= M / 2 * (s * s)).
  { intros s Hs. pose proof (growth (fun s => f1 (x + s) - f2 x * s) (fun s => f2 (x + s) - f2 x) (fun s => M / 2 * (s * s)) (fun s => M * s) s ltac:(lra)) as K. cbn beta in K. rewrite Rplus_0_r in K.
    replace (f1 (x + s) - f1 x - s * f2 x) with (f1 (x + s) - f2 x * s - (f1 x - f2 x * 0)) by ring. replace (M / 2 * (s * s)) with (M / 2 * (s * s) - M / 2 * (0 * 0)) by ring. apply K.
    intros r Hr. destruct (H (x + r) ltac:(lra)) as (_ & B & _). split; [apply derivable_pt_lim_minus; [now apply rate_shift|apply rate_pow1]|]. split; [apply (rate_eq _ _ (M / 2 * (2 * r))); [field|apply rate_pow2]|apply A2; lra]. }
  pose proof (growth (fun s => f (x + s) - f1 x * s - f2 x / 2 * (s * s)) (fun s => f1 (x + s) - f1 x - f2 x / 2 * (2 * s)) (fun s => M / 6 * (s * s * s)) (fun s => M / 2 * (s * s)) S HS) as K. cbn beta in K. rewrite Rplus_0_r in K.
  replace (f (x + S) - f x - S * f1 x - S * S / 2 * f2 x) with (f (x + S) - f1 x * S - f2 x / 2 * (S * S) - (f x - f1 x * 0 - f2 x / 2 * (0 * 0))) by field. replace (M / 6 * (S * S * S)) with (M / 6 * (S * S * S) - M / 6 * (0 * 0 * 0)) by ring. apply K.
  intros r Hr. destruct (H (x + r) ltac:(lra)) as (B & _). split; [|split].
  - apply derivable_pt_lim_minus; [apply derivable_pt_lim_minus; [now apply rate_shift|apply rate_pow1]|apply rate_pow2].
  - apply (rate_eq _ _ (M / 6 * (3 * (r * r)))); [field|apply rate_pow3].
  - replace (f1 (x + r) - f1 x - f2 x / 2 * (2 * r)) with (f1 (x + r) - f1 x - r * f2 x) by field. apply A1. lra.
Qed.
Lemma rate_mirror f y l : derivable_pt_lim f (- y) l -> derivable_pt_lim (fun y => f (- y)) y (- l).
Proof. intros H. apply (rate_eq _ _ (l * - (1))); [ring|]. apply (derivable_pt_lim_comp Ropp f); [|exact H]. apply derivable_pt_lim_opp. apply derivable_pt_lim_id. Qed.
Lemma taylor_left f f1 f2 f3 x M S : 0 <= S ->
  (forall y, x - S <= y <= x -> derivable_pt_lim f y (f1 y) /\ derivable_pt_lim f1 y (f2 y) /\ derivable_pt_lim f2 y (f3 y) /\ Rabs (f3 y) <= M) ->
  Rabs (f (x - S) - f x + S * f1 x - S * S / 2 * f2 x) <= M / 6 * (S * S * S).
Proof.
  intros HS H. pose proof (taylor_right (fun y => f (- y)) (fun y => - f1 (- y)) (fun y => f2 (- y)) (fun y => - f3 (- y)) (- x) M S HS) as K. cbn beta in K. rewrite Ropp_involutive in K.
  replace (- (- x + S)) with (x - S) in K by ring. replace (f (x - S) - f x + S * f1 x - S * S / 2 * f2 x) with (f (x - S) - f x - S * - f1 x - S * S / 2 * f2 x) by ring. apply K.
  intros y Hy. destruct (H (- y) ltac:(lra)) as (A & B & C & D). split; [now apply rate_mirror|]. split; [|split].
  - apply (rate_eq _ _ (- (- f2 (- y)))); [ring|]. apply derivable_pt_lim_opp. now apply (rate_mirror f1).
  - now apply rate_mirror.
  - now rewrite Rabs_Ropp.
Qed.
(** the two difference quotients at an inner point *)
Lemma quotients x i f f1 f2 f3 M h : grid x -> inner (length (locations x)) i -> 0 <= M ->
  (forall y, (locations x).[i - 1] <= y <= (locations x).[S i] -> derivable_pt_lim f y (f1 y) /\ derivable_pt_lim f1 y (f2 y) /\ derivable_pt_lim f2 y (f3 y) /\ Rabs (f3 y) <= M) ->
  (locations x).[i] - (locations x).[i - 1] <= h -> (locations x).[S i] - (locations x).[i] <= h ->
  Rabs (sum (length (locations x)) (fun j => diff dx_coef x i j * (at_points f x).[j]) - f1 (locations x).[i]) <= M * (h * h) / 6 /\
  Rabs (sum (length (locations x)) (fun j => diff dxx_coef x i j * (at_points f x).[j]) - f2 (locations x).[i]) <= M * h / 3.
Proof.
  intros G Hi HM H Hhl Hhu. pose proof (grid_steps x i G Hi) as [Hl Hu]. rewrite !(diff_row _ x _ (at_points f x) i eq_refl G (map_length _ _) Hi). destruct Hi as [Hi Hn]. cbv zeta. rewrite !at_points_nth by lia.
  unfold coef_l, coef_m, coef_u, dx_coef, dxx_coef. cbn [fst snd]. set (a := (locations x).[i - 1]) in *. set (b := (locations x).[i]) in *. set (e := (locations x).[S i]) in *. clearbody a b e.
  pose proof (taylor_right f f1 f2 f3 b M (e - b) ltac:(lra)) as TR. replace (b + (e - b)) with e in TR by ring. specialize (TR ltac:(intros y Hy; apply H; lra)).
  pose proof (taylor_left f f1 f2 f3 b M (b - a) ltac:(lra)) as TL. replace (b - (b - a)) with a in TL by ring. specialize (TL ltac:(intros y Hy; apply H; lra)).
  set (l := b - a) in *. set (w := e - b) in *. clearbody l w. set (ru := f e - f b - w * f1 b - w * w / 2 * f2 b) in *. set (rl := f a - f b + l * f1 b - l * l / 2 * f2 b) in *.
  apply abs_between in TR. apply abs_between in TL. assert (Hlw : 0 < l + w) by lra. split.
  - replace (- w / l / (l + w) * f a + (w / l - l / w) / (l + w) * f b + l / w / (l + w) * f e - f1 b) with ((l / w * ru - w / l * rl) / (l + w)).
    2: { unfold ru, rl. field. lra. }
    assert (B : Rabs (l / w * ru - w / l * rl) <= M / 6 * (l * w) * (l + w)).
    { apply Rabs_le. assert (0 < l / w) by (apply Rdiv_lt_0_compat; lra). assert (0 < w / l) by (apply Rdiv_lt_0_compat; lra).
      assert (E1 : l / w * (M / 6 * (w * w * w)) = M / 6 * (l * w) * w) by (field; lra). assert (E2 : w / l * (M / 6 * (l * l * l)) = M / 6 * (l * w) * l) by (field; lra).
      assert (l / w * ru <= l / w * (M / 6 * (w * w * w))) by (apply Rmult_le_compat_l; lra). assert (l / w * - (M / 6 * (w * w * w)) <= l / w * ru) by (apply Rmult_le_compat_l; lra).
      assert (w / l * rl <= w / l * (M / 6 * (l * l * l))) by (apply Rmult_le_compat_l; lra). assert (w / l * - (M / 6 * (l * l * l)) <= w / l * rl) by (apply Rmult_le_compat_l; lra). lra. }
    unfold Rdiv at 1. rewrite Rabs_mult, (Rabs_pos_eq (/ (l + w))) by (left; now apply Rinv_0_lt_compat). apply Rmult_le_reg_r with (l + w); [exact Hlw|]. rewrite Rmult_assoc, Rinv_l, Rmult_1_r by lra.
    eapply Rle_trans; [exact B|]. apply Rmult_le_compat_r; [lra|]. assert (l * w <= h * h) by nra. nra.
  - replace (1 / l / (1 / 2 * (l + w)) * f a + - (1 / l + 1 / w) / (1 / 2 * (l + w)) * f b + 1 / w / (1 / 2 * (l + w)) * f e - f2 b) with ((2 / w * ru + 2 / l * rl) / (l + w)).
    2: { unfold ru, rl. field. lra. }
    assert (B : Rabs (2 / w * ru + 2 / l * rl) <= M / 3 * (w * w + l * l)).
    { apply Rabs_le. assert (0 < 2 / w) by (apply Rdiv_lt_0_compat; lra). assert (0 < 2 / l) by (apply Rdiv_lt_0_compat; lra).
      assert (E1 : 2 / w * (M / 6 * (w * w * w)) = M / 3 * (w * w)) by (field; lra). assert (E2 : 2 / l * (M / 6 * (l * l * l)) = M / 3 * (l * l)) by (field; lra).
      assert (2 / w * ru <= 2 / w * (M / 6 * (w * w * w))) by (apply Rmult_le_compat_l; lra). assert (2 / w * - (M / 6 * (w * w * w)) <= 2 / w * ru) by (apply Rmult_le_compat_l; lra).
      assert (2 / l * rl <= 2 / l * (M / 6 * (l * l * l))) by (apply Rmult_le_compat_l; lra). assert (2 / l * - (M / 6 * (l * l * l)) <= 2 / l * rl) by (apply Rmult_le_compat_l; lra). lra. }
    unfold Rdiv at 1. rewrite Rabs_mult, (Rabs_pos_eq (/ (l + w))) by (left; now apply Rinv_0_lt_compat). apply Rmult_le_reg_r with (l + w); [exact Hlw|]. rewrite Rmult_assoc, Rinv_l, Rmult_1_r by lra.
    eapply Rle_trans; [exact B|]. assert (w * w + l * l <= h * (l + w)) by nra. nra.
Qed.
Lemma time_step p p1 p2 t dt th M : 0 <= dt -> 0 <= th <= 1 -> 0 <= M -> (forall s, t <= s <= t + dt -> derivable_pt_lim p s (p1 s) /\ derivable_pt_lim p1 s (p2 s) /\ Rabs (p2 s) <= M) ->
  Rabs (p (t + dt) - p t - dt * (th * p1 (t + dt) + (1 - th) * p1 t)) <= dt * (M * dt).
Proof.
  intros Hd Ht HM H. destruct (Req_dec dt 0) as [->|Hne]; [rewrite Rplus_0_r; replace (p t - p t - 0 * (th * p1 t + (1 - th) * p1 t)) with 0 by ring; rewrite Rabs_R0; lra|].
  assert (L : forall r s, t <= r <= s -> s <= t + dt -> Rabs (p1 s - p1 r) <= M * (s - r)).
  { intros r s Hr Hs. pose proof (growth (fun k => p1 (r + k)) (fun k => p2 (r + k)) (fun k => M * k) (fun _ => M) (s - r) ltac:(lra)) as K. cbn beta in K. rewrite Rplus_0_r in K. replace (r + (s - r)) with s in K by ring. replace (M * (s - r)) with (M * (s - r) - M * 0) by ring. apply K.
    intros k Hk. destruct (H (r + k) ltac:(lra)) as (_ & B & C). split; [now apply rate_shift|]. split; [apply rate_pow1|exact C]. }
  destruct (MVT_cor2 p p1 t (t + dt) ltac:(lra)) as (c & E & Hc); [intros c Hc; apply (H c Hc)|]. rewrite E. replace (t + dt - t) with dt by ring.
  replace (p1 c * dt - dt * (th * p1 (t + dt) + (1 - th) * p1 t)) with (dt * (th * (p1 c - p1 (t + dt)) + (1 - th) * (p1 c - p1 t))) by ring. rewrite Rabs_mult, (Rabs_pos_eq dt Hd). apply Rmult_le_compat_l; [exact Hd|].
  pose proof (L t c ltac:(lra) ltac:(lra)) as L1. pose proof (L c (t + dt) ltac:(lra) ltac:(lra)) as L2. apply abs_between in L1. apply abs_between in L2. assert (M * (c - t) <= M * dt) by (apply Rmult_le_compat_l; lra). assert (M * (t + dt - c) <= M * dt) by (apply Rmult_le_compat_l; lra).
  apply Rabs_le. assert (0 <= 1 - th) by lra. split; nra.
Qed.
Section Consistent.
Variables (x : mesh) (td tdd : tri) (d dd : nat -> nat -> R).
Let n := length (locations x).
Hypothesis G : grid x.
Hypothesis Ed : dx_op x = Ok td.
Hypothesis Edd : dxx_op x = Ok tdd.
Hypothesis Rd : reads td n d.
Hypothesis Rdd : reads tdd n dd.
Lemma apply_gen c w i : inner n i -> sum n (fun j => generator_of n d dd c i j * w.[j]) =
  (c_mu c).[i] * sum n (fun j => diff dx_coef x i j * w.[j]) + (c_var c).[i] / 2 * sum n (fun j => diff dxx_coef x i j * w.[j]) - (c_rate c).[i] * w.[i].
Proof.
  intros [Hi Hn]. rewrite (sum_ext n _ (fun j => (c_mu c).[i] * (diff dx_coef x i j * w.[j]) + ((c_var c).[i] / 2 * (diff dxx_coef x i j * w.[j]) + - (c_rate c).[i] * (identity i j * w.[j])))).
  - rewrite !sum_plus, !sum_scal, (sum_identity n i (fun j => w.[j])) by lia. ring.
  - intros j Hj. unfold generator_of, generator. destruct (Nat.ltb_spec 0 i); [|lia]. destruct (Nat.ltb_spec (S i) n); [|lia]. cbn [andb].
    rewrite (reads_diff _ x td d G Ed Rd i j) by (fold n; lia). rewrite (reads_diff _ x tdd dd G Edd Rdd i j) by (fold n; lia). ring.
Qed.
Lemma defect_gen g dt th a b i : (i < n)%nat -> defect n g dt th a b i = b.[i] - a.[i] - dt * (th * sum n (fun j => g i j * b.[j]) + (1 - th) * sum n (fun j => g i j * a.[j])).
Proof.
  intros Hi. unfold defect. rewrite (sum_ext n (fun j => (identity i j - dt * th * g i j) * b.[j]) (fun j => identity i j * b.[j] + - (dt * th) * (g i j * b.[j]))) by (intros; ring).
  rewrite (sum_ext n (fun j => (identity i j + dt * (1 - th) * g i j) * a.[j]) (fun j => identity i j * a.[j] + dt * (1 - th) * (g i j * a.[j]))) by (intros; ring).
  rewrite !sum_plus, !sum_scal, (sum_identity n i (fun j => a.[j]) Hi), (sum_identity n i (fun j => b.[j]) Hi). ring.
Qed.
Variables (T m2 m3 : R) (mu var rate : R -> R) (u : R -> R -> R) (h m v dtm : R).
Hypothesis HS : solution (locations x).[0] (locations x).[n - 1] T m2 m3 mu var rate u.
Hypothesis Hm2 : 0 <= m2.
Hypothesis Hm3 : 0 <= m3.
Hypothesis Hh : forall i, (S i < n)%nat -> (locations x).[S i] - (locations x).[i] <= h.
Hypothesis Hm : forall i, inner n i -> Rabs (mu (locations x).[i]) <= m /\ Rabs (var (locations x).[i]) <= v.
Lemma inside i : (i < n)%nat -> (locations x).[0] <= (locations x).[i] <= (locations x).[n - 1].
Proof.
  intros Hi. destruct G as (Hn & Hinc & _). fold n in Hn. split.
  - destruct i as [|i]; [lra|]. left. apply Hinc. fold n. lia.
  - destruct (Nat.eq_dec i (n - 1)) as [->|]; [lra|]. left. apply Hinc. fold n. lia.
Qed.
Lemma map_at f i : (i < n)%nat -> (map f (locations x)).[i] = f (locations x).[i].
Proof. intros H. exact (at_points_nth f x i H). Qed.
Lemma one_step c t : uses x mu var rate dtm c -> 0 <= c_dt c -> 0 <= c_theta c <= 1 -> 0 <= t -> t + c_dt c <= T -> forall i, (i < n)%nat ->
  Rabs (defect n (generator_of n d dd c) (c_dt c) (c_theta c) (at_points (u t) x) (at_points (u (t + c_dt c)) x) i) <= c_dt c * (m2 * dtm + m3 * (m * (h * h) / 6 + v * h / 6)).
Proof.
  intros (U1 & U2 & U3 & U4) Hdt Hth Ht HT i Hi. rewrite defect_gen by exact Hi. set (dt := c_dt c) in *. set (th := c_theta c) in *.
  destruct HS as [(ut & utt & HtT & ux & uxx & uxxx & HxX & Heq) Hends].
  assert (Hh0 : 0 <= h). { destruct G as (Hn & Hinc & _). fold n in Hn. pose proof (Hh 0%nat ltac:(lia)). pose proof (Hinc 0%nat 1%nat ltac:(fold n; lia)). lra. }
  assert (H00 : 0 <= m /\ 0 <= v). { destruct G as (Hn & _). fold n in Hn. destruct (Hm 1%nat ltac:(split; lia)) as [A B]. pose proof (Rabs_pos (mu (locations x).[1])). pose proof (Rabs_pos (var (locations x).[1])). lra. }
  assert (Hb0 : 0 <= m2 * dtm + m3 * (m * (h * h) / 6 + v * h / 6)).
  { apply Rplus_le_le_0_compat; apply Rmult_le_pos; try lra. apply Rplus_le_le_0_compat; (apply Rmult_le_pos; [|lra]); apply Rmult_le_pos; try lra. nra. }
  rewrite !at_points_nth by (fold n; exact Hi). destruct (Nat.eq_dec i 0) as [E0|N0]; [|destruct (Nat.eq_dec (S i) n) as [E1|N1]].
  - subst i. assert (Z : forall w : list R, sum n (fun j => generator_of n d dd c 0 j * w.[j]) = 0) by (intros w; rewrite (sum_ext n _ (fun _ => 0)); [apply sum_zero|intros; unfold generator_of, generator; cbn; ring]).
    rewrite !Z. rewrite (proj1 (Hends (t + dt) ltac:(lra))), (proj1 (Hends t ltac:(lra))). rewrite !Rmult_0_r, Rplus_0_r, Rmult_0_r. replace (_ - _ - 0) with 0 by ring. rewrite Rabs_R0. nra.
  - assert (Z : forall w : list R, sum n (fun j => generator_of n d dd c i j * w.[j]) = 0).
    { intros w. rewrite (sum_ext n _ (fun _ => 0)); [apply sum_zero|]. intros j _. unfold generator_of, generator. destruct (Nat.ltb_spec (S i) n); [lia|]. rewrite andb_false_r. ring. }
    rewrite !Z. replace i with (n - 1)%nat by lia. rewrite (proj2 (Hends (t + dt) ltac:(lra))), (proj2 (Hends t ltac:(lra))). rewrite !Rmult_0_r, Rplus_0_r, Rmult_0_r. replace (_ - _ - 0) with 0 by ring. rewrite Rabs_R0. nra.
  - assert (Hin : inner n i) by (split; lia). rewrite !(apply_gen c _ i Hin), U1, U2, U3, !map_at, !at_points_nth by (fold n; exact Hi). set (z := (locations x).[i]) in *.
    assert (Hz : (locations x).[0] < z < (locations x).[n - 1]). { destruct G as (_ & Hinc & _). unfold z. split; apply Hinc; fold n; lia. }
    assert (Q : forall s, 0 <= s <= T -> Rabs ((mu z * sum n (fun j => diff dx_coef x i j * (at_points (u s) x).[j]) + var z / 2 * sum n (fun j => diff dxx_coef x i j * (at_points (u s) x).[j]) - rate z * u s z) - ut s z) <= m3 * (m * (h * h) / 6 + v * h / 6)).
    { intros s Hs. destruct (quotients x i (u s) (ux s) (uxx s) (uxxx s) m3 h G Hin Hm3) as [Q1 Q2].
      - intros y Hy. apply HxX; [exact Hs|]. pose proof (inside (i - 1) ltac:(lia)). pose proof (inside (S i) ltac:(lia)). lra.
      - pose proof (Hh (i - 1)%nat ltac:(lia)) as K. now replace (S (i - 1)) with i in K by lia.
      - apply Hh. lia.
      - fold n z in Q1, Q2. rewrite (Heq s z Hs Hz). set (q1 := sum n (fun j => diff dx_coef x i j * _)) in *. set (q2 := sum n (fun j => diff dxx_coef x i j * _)) in *.
        replace (mu z * q1 + var z / 2 * q2 - rate z * u s z - (mu z * ux s z + var z / 2 * uxx s z - rate z * u s z)) with (mu z * (q1 - ux s z) + var z / 2 * (q2 - uxx s z)) by ring.
        eapply Rle_trans; [apply Rabs_triang|]. rewrite !Rabs_mult. destruct (Hm i Hin) as [B1 B2]. fold z in B1, B2. pose proof (Rabs_pos (q1 - ux s z)). pose proof (Rabs_pos (q2 - uxx s z)). pose proof (Rabs_pos (mu z)).
        assert (Rabs (var z / 2) <= v / 2) by (unfold Rdiv; rewrite Rabs_mult, (Rabs_pos_eq (/ 2)) by lra; lra). pose proof (Rabs_pos (var z / 2)).
        assert (Rabs (mu z) * Rabs (q1 - ux s z) <= m * (m3 * (h * h) / 6)) by (apply Rmult_le_compat; assumption). assert (Rabs (var z / 2) * Rabs (q2 - uxx s z) <= v / 2 * (m3 * h / 3)) by (apply Rmult_le_compat; assumption). lra. }
    pose proof (Q t ltac:(lra)) as Q1. pose proof (Q (t + dt) ltac:(lra)) as Q2. clear Q. set (g1 := mu z * _ + _ - rate z * u t z) in *. set (g2 := mu z * _ + _ - rate z * u (t + dt) z) in *.
    pose proof (time_step (fun s => u s z) (fun s => ut s z) (fun s => utt s z) t dt th m2 Hdt Hth Hm2) as K. cbn beta in K. specialize (K ltac:(intros s Hs; apply HtT; lra)).
    set (E := m3 * (m * (h * h) / 6 + v * h / 6)) in *. replace (u (t + dt) z - u t z - dt * (th * g2 + (1 - th) * g1)) with ((u (t + dt) z - u t z - dt * (th * ut (t + dt) z + (1 - th) * ut t z)) - dt * (th * (g2 - ut (t + dt) z) + (1 - th) * (g1 - ut t z))) by ring.
    apply abs_between in K. apply abs_between in Q1. apply abs_between in Q2. assert (m2 * dt <= m2 * dtm) by (apply Rmult_le_compat_l; lra). assert (dt * (m2 * dt) <= dt * (m2 * dtm)) by (apply Rmult_le_compat_l; lra).
    assert (C : - E <= th * (g2 - ut (t + dt) z) + (1 - th) * (g1 - ut t z) <= E) by (split; nra). set (cc := th * (g2 - _) + _) in *. apply Rabs_le. assert (dt * cc <= dt * E) by (apply Rmult_le_compat_l; lra). assert (dt * - E <= dt * cc) by (apply Rmult_le_compat_l; lra). split; lra.
Qed.
Fixpoint values (t : R) (cs : list call) : list (list R) := match cs with [] => [] | c :: cs => at_points (u (t + c_dt c)) x :: values (t + c_dt c) cs end.
Lemma values_nearly : forall cs t, Forall (uses x mu var rate dtm) cs -> Forall (stable n d dd) cs -> 0 <= t -> t + elapsed cs <= T -> nearly n d dd (m2 * dtm + m3 * (m * (h * h) / 6 + v * h / 6)) cs (at_points (u t) x) (values t cs).
Proof.
  induction cs as [|c cs IH]; intros t Hu Hs Ht HT; cbn [nearly values]; [exact I|]. apply Forall_cons_iff in Hu. apply Forall_cons_iff in Hs. destruct Hu as [Hc Hu]. destruct Hs as [Sc Hs]. change (elapsed (c :: cs)) with (c_dt c + elapsed cs) in HT.
  assert (0 <= elapsed cs). { clear - Hs. induction Hs as [|a l Ha Hl IH]; cbn; [lra|]. pose proof (proj1 Ha). unfold elapsed in *. lra. }
  pose proof Sc as (S1 & S2 & _). split; [apply map_length|]. split; [intros i Hi; apply one_step; try assumption; lra|]. apply IH; try assumption; lra.
Qed.
Lemma values_last : forall cs t, last (values t cs) (at_points (u t) x) = at_points (u (t + elapsed cs)) x.
Proof.
  induction cs as [|c cs IH]; intros t; [cbn; now rewrite Rplus_0_r|]. change (elapsed (c :: cs)) with (c_dt c + elapsed cs). cbn [values]. rewrite <- Rplus_assoc, <- IH.
  destruct (values (t + c_dt c) cs) as [|w ws]; [reflexivity|]. cbn [last]. clear. revert w. induction ws as [|a ws IH]; intros w; [reflexivity|apply IH].
Qed.
End Consistent.
