(** C39, the time step of the finite-difference solver, and C49, its difference operators. *)
From Coq Require Import Reals List Arith Bool Lia Lra.
From Verif Require Import Base Vec InterpModel InterpSpec BandModel BandSpec BandProofs PdeSpec PdeProofs.
Import ListNotations.
Open Scope R_scope.

Lemma set_good f n c : good f n -> fits n c -> good (set_coefficients f c) n.
Proof. intros [G1 G2 G3 G4 G5 G6 G7 G8 G9] (F1 & F2 & F3). constructor; cbn; auto. Qed.
Lemma generator_ext n r m v d dd d' dd' i j : d i j = d' i j -> dd i j = dd' i j -> generator n r m v d dd i j = generator n r m v d' dd' i j.
Proof. intros H1 H2. unfold generator. now rewrite H1, H2. Qed.
Lemma theta_step_ext n g g' dt th a b : (forall i j, (i < n)%nat -> (j < n)%nat -> g i j = g' i j) -> theta_step n g dt th a b -> theta_step n g' dt th a b.
Proof.
  intros H (mid & P & Q). exists mid. split.
  - apply (product_ext n (fun i j => identity i j + dt * (1 - th) * g i j)); [|exact P]. intros i j Hi Hj. now rewrite H.
  - apply (product_ext n (fun i j => identity i j - dt * th * g i j)); [|exact Q]. intros i j Hi Hj. now rewrite H.
Qed.
Definition has (f : fd) (n : nat) (d dd : nat -> nat -> R) : Prop := good f n /\ forall i j, (i < n)%nat -> (j < n)%nat -> entry (fdx f) i j = d i j /\ entry (fdxx f) i j = dd i j.
Lemma has_gen f n d dd c : has f n d dd -> forall i j, (i < n)%nat -> (j < n)%nat -> gen (set_coefficients f c) n i j = generator_of n d dd c i j.
Proof. intros [_ H] i j Hi Hj. unfold gen, generator_of. cbn [rate mu var fdx fdxx set_coefficients]. apply generator_ext; now apply H. Qed.
Lemma init_has x r m v f td tdd d dd : grid x -> fits (length (locations x)) (Call r m v 0 0) -> fd_init x r m v = Ok f ->
  dx_op x = Ok td -> dxx_op x = Ok tdd -> reads td (length (locations x)) d -> reads tdd (length (locations x)) dd -> has f (length (locations x)) d dd.
Proof.
  intros G (F1 & F2 & F3) E Ed Edd Rd Rdd. destruct (init_good x r m v G F1 F2 F3) as (f' & E' & Gf & _ & _ & _ & N). assert (f' = f) as -> by congruence. split; [exact Gf|].
  unfold fd_init in E. rewrite Ed in E. cbn [obind] in E. rewrite Edd in E. cbn [obind] in E. destruct (tri_new _) as [a| | |]; cbn [obind] in E; try discriminate. injection E as <-. cbn [fdx fdxx] in *.
  intros i j Hi Hj. split; [now apply (reads_entry td _ d (g_d _ _ Gf) Rd)|now apply (reads_entry tdd _ dd (g_dd _ _ Gf) Rdd)].
Qed.
Lemma roll_has f n d dd c res : has f n d dd -> fits n c -> length res = n ->
  (roll_bwd (set_coefficients f c) (c_dt c) (c_theta c) res = Throw /\ c_theta c <> 0 /\ singular (set_coefficients f c) (c_dt c) (c_theta c) n) \/
  exists f' y, roll_bwd (set_coefficients f c) (c_dt c) (c_theta c) res = Ok (f', y) /\ has f' n d dd /\ length y = n /\ theta_step n (generator_of n d dd c) (c_dt c) (c_theta c) res y /\
    forall z, length z = n -> theta_step n (generator_of n d dd c) (c_dt c) (c_theta c) res z -> z = y.
Proof.
  intros H F Hr. destruct (roll_cases (set_coefficients f c) n (c_dt c) (c_theta c) res (set_good f n c (proj1 H) F) Hr) as [T|(f' & y & E & G & (P1 & P2 & P3 & P4 & P5) & L & St & U)]; [now left|right].
  exists f', y. split; [exact E|]. split; [split; [exact G|]; cbn [set_coefficients fdx fdxx] in P4, P5; rewrite P4, P5; apply H|]. split; [exact L|]. split.
  - apply (theta_step_ext n (gen (set_coefficients f c) n)); [now apply has_gen|exact St].
  - intros z Hz Sz. apply U; [exact Hz|]. apply (theta_step_ext n (generator_of n d dd c)); [|exact Sz]. intros i j Hi Hj. symmetry. now apply has_gen.
Qed.

(** Whatever coefficients, steps and theta are used one after the other, every step of the solver solves
    the implicit system of the theta scheme built on the two difference operators, and its result is the
    only solution; a step that cannot be solved throws, and nothing is undefined behaviour. *)
Theorem C39_pde_steps : forall x r m v f td tdd d dd cs res, let n := length (locations x) in
  grid x -> fits n (Call r m v 0 0) -> fd_init x r m v = Ok f -> dx_op x = Ok td -> dxx_op x = Ok tdd -> reads td n d -> reads tdd n dd ->
  Forall (fits n) cs -> length res = n ->
  rolls f cs res = Throw \/ exists f' y, rolls f cs res = Ok (f', y) /\ length y = n /\ theta_steps n d dd cs res y /\ forall z, theta_steps n d dd cs res z -> z = y.
Proof.
  intros x r m v f td tdd d dd cs res n G F E Ed Edd Rd Rdd Fc Hr. pose proof (init_has x r m v f td tdd d dd G F E Ed Edd Rd Rdd) as H. fold n in H. clear E Ed Edd Rd Rdd F.
  revert f res H Hr. induction cs as [|c cs IH]; intros f res H Hr; cbn [rolls theta_steps].
  - right. exists f, res. auto.
  - apply Forall_cons_iff in Fc as [Fc Fcs]. destruct (roll_has f n d dd c res H Fc Hr) as [(T & _)|(f' & y & E & H' & L & St & U)].
    + left. now rewrite T.
    + rewrite E. cbn [obind]. destruct (IH Fcs f' y H' L) as [T|(f2 & z & E2 & L2 & S2 & U2)]; [now left|right]. exists f2, z. split; [exact E2|]. split; [exact L2|]. split; [exists y; auto|].
      intros w (mid & Lm & Sm & Sw). rewrite (U mid Lm Sm) in Sw. now apply U2.
Qed.
Print Assumptions C39_pde_steps.

(** * The operators *)
Definition at_points (p : R -> R) (x : mesh) : list R := map p (locations x).
Lemma at_points_nth p x i : (i < length (locations x))%nat -> (at_points p x).[i] = p ((locations x).[i]).
Proof. intros H. unfold at_points. rewrite (nth_indep _ 0 (p 0)) by (rewrite map_length; exact H). apply map_nth. Qed.
Lemma grid_steps x i : grid x -> inner (length (locations x)) i -> 0 < (locations x).[i] - (locations x).[i - 1] /\ 0 < (locations x).[S i] - (locations x).[i].
Proof. intros (_ & Hinc & _) [H1 H2]. pose proof (Hinc (i - 1)%nat i ltac:(lia)). pose proof (Hinc i (S i) ltac:(lia)). lra. Qed.
Lemma dx_exact x i c0 c1 c2 : grid x -> inner (length (locations x)) i ->
  sum (length (locations x)) (fun j => diff dx_coef x i j * (at_points (fun z => c0 + c1 * z + c2 * z * z) x).[j]) = c1 + 2 * c2 * (locations x).[i].
Proof.
  intros G Hi. pose proof (grid_steps x i G Hi) as [Hl Hu]. rewrite (diff_row dx_coef x _ (at_points (fun z => c0 + c1 * z + c2 * z * z) x) i eq_refl G (map_length _ _) Hi). destruct Hi as [Hi Hn]. cbv zeta. rewrite !at_points_nth by lia.
  unfold coef_l, coef_m, coef_u, dx_coef. cbn [fst snd]. set (a := (locations x).[i - 1]) in *. set (b := (locations x).[i]) in *. set (e := (locations x).[S i]) in *. clearbody a b e. field. lra.
Qed.
Lemma dxx_exact x i c0 c1 c2 : grid x -> inner (length (locations x)) i ->
  sum (length (locations x)) (fun j => diff dxx_coef x i j * (at_points (fun z => c0 + c1 * z + c2 * z * z) x).[j]) = 2 * c2.
Proof.
  intros G Hi. pose proof (grid_steps x i G Hi) as [Hl Hu]. rewrite (diff_row dxx_coef x _ (at_points (fun z => c0 + c1 * z + c2 * z * z) x) i eq_refl G (map_length _ _) Hi). destruct Hi as [Hi Hn]. cbv zeta. rewrite !at_points_nth by lia.
  unfold coef_l, coef_m, coef_u, dxx_coef. cbn [fst snd]. set (a := (locations x).[i - 1]) in *. set (b := (locations x).[i]) in *. set (e := (locations x).[S i]) in *. clearbody a b e. field. lra.
Qed.
Lemma diff_edge c x i j : ~ inner (length (locations x)) i -> diff c x i j = 0.
Proof. intros H. unfold diff, difference. destruct (Nat.ltb_spec 0 i), (Nat.ltb_spec (S i) (length (locations x))); cbn [andb]; try reflexivity. elim H. split; assumption. Qed.

(** On every grid of three or more increasing points both operators exist, and applied to the values of a
    polynomial of degree two they give its exact first and second derivative at every inner point (and zero
    at the two ends). *)
Theorem C49_exact : forall x, grid x -> exists td tdd, dx_op x = Ok td /\ dxx_op x = Ok tdd /\
  forall c0 c1 c2, let values := map (fun z => c0 + c1 * z + c2 * z * z) (locations x) in
  exists y1 y2, multiply_left td values = Ok y1 /\ multiply_left tdd values = Ok y2 /\ length y1 = length (locations x) /\ length y2 = length (locations x) /\
    forall i, (i < length (locations x))%nat ->
      (inner (length (locations x)) i -> nth i y1 0 = c1 + 2 * c2 * nth i (locations x) 0 /\ nth i y2 0 = 2 * c2) /\
      (~ inner (length (locations x)) i -> nth i y1 0 = 0 /\ nth i y2 0 = 0).
Proof.
  intros x G. destruct (fd_operator_ok dx_coef x G) as (td & E & W & N). destruct (fd_operator_ok dxx_coef x G) as (tdd & E' & W' & N'). exists td, tdd. split; [exact E|]. split; [exact E'|].
  intros c0 c1 c2 values. destruct (multiply_left_ok td _ values W (map_length _ _)) as (y1 & Y1 & [L1 P1]). destruct (multiply_left_ok tdd _ values W' (map_length _ _)) as (y2 & Y2 & [L2 P2]).
  exists y1, y2. repeat (split; [assumption|]). intros i Hi. rewrite P1, P2 by exact Hi.
  rewrite (sum_ext _ _ (fun j => diff dx_coef x i j * values.[j])) by (intros j Hj; now rewrite N). rewrite (sum_ext _ (fun j => entry tdd i j * _) (fun j => diff dxx_coef x i j * values.[j])) by (intros j Hj; now rewrite N'). split.
  - intros Hin. split; [now apply dx_exact|apply (dxx_exact x i c0 c1 c2 G Hin)].
  - intros Hin. split; (rewrite (sum_ext _ _ (fun _ => 0)); [apply sum_zero|]); intros j Hj; rewrite diff_edge by exact Hin; ring.
Qed.
Print Assumptions C49_exact.

Lemma reads_diff c x t m : grid x -> fd_operator c x = Ok t -> reads t (length (locations x)) m -> forall i j, (i < length (locations x))%nat -> (j < length (locations x))%nat -> m i j = diff c x i j.
Proof. intros G E Rd i j Hi Hj. destruct (fd_operator_ok c x G) as (t' & E' & W & N). assert (t' = t) as -> by congruence. rewrite <- (N i j Hi Hj). symmetry. now apply (reads_entry t _ m W Rd). Qed.
Lemma generator_row x d dd c i : grid x -> inner (length (locations x)) i -> (forall i j, (i < length (locations x))%nat -> (j < length (locations x))%nat -> d i j = diff dx_coef x i j) ->
  (forall i j, (i < length (locations x))%nat -> (j < length (locations x))%nat -> dd i j = diff dxx_coef x i j) ->
  sum (length (locations x)) (fun j => generator_of (length (locations x)) d dd c i j) = - (c_rate c).[i].
Proof.
  intros G Hi Hd Hdd. set (n := length (locations x)) in *. pose proof Hi as [H1 H2].
  rewrite (sum_ext n _ (fun j => (c_mu c).[i] * (diff dx_coef x i j * (at_points (fun z => 1 + 0 * z + 0 * z * z) x).[j]) + ((c_var c).[i] / 2 * (diff dxx_coef x i j * (at_points (fun z => 1 + 0 * z + 0 * z * z) x).[j]) + - (c_rate c).[i] * (if (j =? i)%nat then 1 else 0)))).
  - rewrite !sum_plus, !sum_scal, sum_one. unfold n. rewrite dx_exact, dxx_exact by assumption. fold n. destruct (Nat.ltb_spec i n); [|lia]. ring.
  - intros j Hj. rewrite at_points_nth by exact Hj. unfold generator_of, generator. destruct (Nat.ltb_spec 0 i); [|lia]. destruct (Nat.ltb_spec (S i) n); [|lia]. cbn [andb].
    rewrite Hd, Hdd by lia. unfold identity. rewrite (Nat.eqb_sym i j). destruct (j =? i)%nat; ring.
Qed.
(** A step without discounting leaves constant values as they are, whatever the drift, volatility, step and
    theta, if it returns at all. *)
Theorem C49_constants : forall x r m v f c k f' y, let n := length (locations x) in
  grid x -> fits n (Call r m v 0 0) -> fd_init x r m v = Ok f -> fits n c -> (forall i, (i < n)%nat -> nth i (c_rate c) 0 = 0) ->
  roll_bwd (set_coefficients f c) (c_dt c) (c_theta c) (repeat k n) = Ok (f', y) -> y = repeat k n.
Proof.
  intros x r m v f c k f' y n G F E Fc Hz Er. destruct (fd_operator_ok dx_coef x G) as (td & Ed & W & N). destruct (fd_operator_ok dxx_coef x G) as (tdd & Edd & W' & N'). fold n in W, N, W', N'.
  assert (reads td n (entry td)) as R1 by (intros i j Hi Hj; now apply (tri_at_ok td n)). assert (reads tdd n (entry tdd)) as R2 by (intros i j Hi Hj; now apply (tri_at_ok tdd n)).
  pose proof (init_has x r m v f td tdd _ _ G F E Ed Edd R1 R2) as H. fold n in H.
  destruct (roll_has f n (entry td) (entry tdd) c (repeat k n) H Fc (repeat_length _ _)) as [(T & _)|(f2 & y2 & E2 & _ & _ & _ & U)]; [congruence|]. assert (y2 = y) as -> by congruence. symmetry. apply U; [apply repeat_length|].
  assert (forall i, (i < n)%nat -> sum n (fun j => generator_of n (entry td) (entry tdd) c i j) = 0) as S0.
  { intros i Hi. destruct (Nat.eq_dec i 0) as [->|N0]; [|destruct (Nat.eq_dec (S i) n) as [N1|N1]].
    - rewrite (sum_ext n _ (fun _ => 0)); [apply sum_zero|]. intros; reflexivity.
    - rewrite (sum_ext n _ (fun _ => 0)); [apply sum_zero|]. intros; unfold generator_of, generator. destruct (Nat.ltb_spec (S i) n); [lia|]. now rewrite andb_false_r.
    - unfold n. rewrite (generator_row x (entry td) (entry tdd) c i G); [rewrite Hz by exact Hi; ring|split; fold n; lia|exact N|exact N']. }
  assert (forall s, product n (fun i j => identity i j + s * generator_of n (entry td) (entry tdd) c i j) (repeat k n) (repeat k n)) as P.
  { intros s. split; [apply repeat_length|]. intros i Hi. destruct (product_identity n (repeat k n) (repeat_length _ _)) as [_ PI]. rewrite (PI i Hi).
    rewrite (sum_ext n (fun j => (identity i j + _) * _) (fun j => identity i j * (repeat k n).[j] + s * k * generator_of n (entry td) (entry tdd) c i j)).
    - rewrite sum_plus, sum_scal, S0 by exact Hi. ring.
    - intros j Hj. rewrite (nth_indep _ 0 k), nth_repeat by (rewrite repeat_length; exact Hj). ring. }
  exists (repeat k n). split; [apply P|]. apply (product_ext n (fun i j => identity i j + - (c_dt c * c_theta c) * generator_of n (entry td) (entry tdd) c i j)); [intros; ring|apply P].
Qed.
Print Assumptions C49_constants.

(** With non-negative rates, a non-negative step and enough diffusion for the drift, every step returns. *)
Theorem C49_returns : forall x r m v f td tdd d dd c res, let n := length (locations x) in
  grid x -> fits n (Call r m v 0 0) -> fd_init x r m v = Ok f -> dx_op x = Ok td -> dxx_op x = Ok tdd -> reads td n d -> reads tdd n dd ->
  fits n c -> length res = n -> 0 <= c_dt c * c_theta c -> (forall i, (i < n)%nat -> 0 <= nth i (c_rate c) 0) -> positive_weights n d dd c ->
  exists f' y, roll_bwd (set_coefficients f c) (c_dt c) (c_theta c) res = Ok (f', y).
Proof.
  intros x r m v f td tdd d dd c res n G F E Ed Edd Rd Rdd Fc Hr Hdt Hrate Hw. pose proof (init_has x r m v f td tdd d dd G F E Ed Edd Rd Rdd) as H. fold n in H.
  destruct (roll_has f n d dd c res H Fc Hr) as [(T & _ & S0)|(f2 & y2 & E2 & _)]; [|eauto]. exfalso. revert S0. apply not_singular.
  - apply set_good; [apply H|exact Fc].
  - exact Hdt.
  - intros i [Hi1 Hi2]. apply Hrate. lia.
  - intros i Hin. cbn [rate set_coefficients]. rewrite <- (generator_row x d dd c i G Hin (reads_diff _ _ _ _ G Ed Rd) (reads_diff _ _ _ _ G Edd Rdd)). fold n. destruct Hin. apply sum_ext. intros j Hj. apply has_gen; [exact H|lia|exact Hj].
  - intros i j Hin Hij Hj. rewrite (has_gen f n d dd c H) by (destruct Hin; lia). now apply Hw.
Qed.
Print Assumptions C49_returns.

Lemma argmax (y : list R) : y <> [] -> exists i, (i < length y)%nat /\ forall j, (j < length y)%nat -> y.[j] <= y.[i].
Proof.
  induction y as [|a y IH]; intros H; [congruence|]. destruct y as [|b y].
  - exists 0%nat. split; [cbn; lia|]. intros [|j] Hj; [lra|cbn in Hj; lia].
  - destruct IH as (i & Hi & Hm); [discriminate|]. destruct (Rle_dec a (b :: y).[i]) as [L|L].
    + exists (S i). split; [cbn in *; lia|]. intros [|j] Hj; [exact L|]. apply (Hm j). cbn in *; lia.
    + exists 0%nat. split; [cbn; lia|]. intros [|j] Hj; [lra|]. cbn [nth]. specialize (Hm j ltac:(cbn in *; lia)). cbn [nth] in *. lra.
Qed.
(** Then a fully implicit step without discounting never leaves the range of the old values. *)
Theorem C49_maximum : forall x r m v f td tdd d dd c res f' y lo hi, let n := length (locations x) in
  grid x -> fits n (Call r m v 0 0) -> fd_init x r m v = Ok f -> dx_op x = Ok td -> dxx_op x = Ok tdd -> reads td n d -> reads tdd n dd ->
  fits n c -> length res = n -> c_theta c = 1 -> 0 <= c_dt c -> (forall i, (i < n)%nat -> nth i (c_rate c) 0 = 0) -> positive_weights n d dd c ->
  roll_bwd (set_coefficients f c) (c_dt c) (c_theta c) res = Ok (f', y) ->
  (forall i, (i < n)%nat -> lo <= nth i res 0 <= hi) -> forall i, (i < n)%nat -> lo <= nth i y 0 <= hi.
Proof.
  intros x r m v f td tdd d dd c res f' y lo hi n G F E Ed Edd Rd Rdd Fc Hr Hth Hdt Hrate Hw Er Hb. pose proof (init_has x r m v f td tdd d dd G F E Ed Edd Rd Rdd) as H. fold n in H.
  destruct (roll_has f n d dd c res H Fc Hr) as [(T & _)|(f2 & y2 & E2 & _ & L & St & _)]; [congruence|]. assert (y2 = y) as -> by congruence. rewrite Hth in St. destruct St as (mid & [L1 P1] & [_ P2]).
  assert (forall i, (i < n)%nat -> mid.[i] = res.[i]) as Em.
  { intros i Hi. rewrite P1 by exact Hi. destruct (product_identity n res Hr) as [_ PI]. rewrite (PI i Hi). apply sum_ext. intros j Hj. ring. }
  set (g := generator_of n d dd c) in *.
  assert (forall i, (i < n)%nat -> y.[i] = res.[i] + c_dt c * sum n (fun j => g i j * (y.[j] - y.[i]))) as Q.
  { intros i Hi. pose proof (P2 i Hi) as P. rewrite Em in P by exact Hi.
    assert (sum n (fun j => (identity i j - c_dt c * 1 * g i j) * y.[j]) = y.[i] - c_dt c * sum n (fun j => g i j * y.[j])) as P3.
    { rewrite (sum_ext n _ (fun j => identity i j * y.[j] + - c_dt c * (g i j * y.[j]))) by (intros; ring). rewrite sum_plus, sum_scal. destruct (product_identity n y L) as [_ PI]. rewrite <- (PI i Hi). ring. }
    assert (sum n (g i) = 0) as S0.
    { destruct (Nat.eq_dec i 0) as [->|N0]; [|destruct (Nat.eq_dec (S i) n) as [N1|N1]].
      - rewrite (sum_ext n _ (fun _ => 0)); [apply sum_zero|]. intros; reflexivity.
      - rewrite (sum_ext n _ (fun _ => 0)); [apply sum_zero|]. intros; unfold g, generator_of, generator. destruct (Nat.ltb_spec (S i) n); [lia|]. now rewrite andb_false_r.
      - change (sum n (fun j => generator_of n d dd c i j) = 0). unfold n. rewrite (generator_row x d dd c i G); [rewrite Hrate by exact Hi; ring|split; fold n; lia|exact (reads_diff _ _ _ _ G Ed Rd)|exact (reads_diff _ _ _ _ G Edd Rdd)]. }
    rewrite (sum_ext n _ (fun j => g i j * y.[j] + - y.[i] * g i j)) by (intros; ring). rewrite sum_plus, sum_scal, S0. lra. }
  assert (forall i, (i < n)%nat -> forall j, (j < n)%nat -> i <> j -> 0 <= g i j) as Gp.
  { intros i Hi j Hj Hij. destruct (Nat.eq_dec i 0) as [->|N0]; [unfold g, generator_of, generator; cbn; lra|]. destruct (Nat.eq_dec (S i) n) as [N1|N1].
    - unfold g, generator_of, generator. destruct (Nat.ltb_spec (S i) n); [lia|]. rewrite andb_false_r. lra.
    - apply Hw; [split; lia|exact Hj|exact Hij]. }
  assert (y <> []) as Hne by (intros ->; cbn in L; destruct G as (Hn & _); fold n in Hn; lia).
  assert (forall i, (i < n)%nat -> y.[i] <= hi) as Up.
  { destruct (argmax y Hne) as (k & Hk & Hm). rewrite L in *. assert (y.[k] <= hi) as Hk2.
    { rewrite (Q k Hk). assert (0 <= sum n (fun j => g k j * (y.[k] - y.[j]))) as Sp.
      { apply sum_nonneg. intros j Hj. destruct (Nat.eq_dec k j) as [->|Hkj]; [replace (y.[j] - y.[j]) with 0 by ring; lra|]. apply Rmult_le_pos; [now apply Gp|]. specialize (Hm j Hj). lra. }
      rewrite (sum_ext n _ (fun j => -1 * (g k j * (y.[k] - y.[j])))) by (intros; ring). rewrite sum_scal. specialize (Hb k Hk). nra. }
    intros i Hi. specialize (Hm i Hi). lra. }
  assert (forall i, (i < n)%nat -> lo <= y.[i]) as Dn.
  { destruct (argmax (map Ropp y)) as (k & Hk & Hm); [destruct y; [congruence|discriminate]|]. rewrite map_length, L in *.
    assert (forall j, (j < n)%nat -> y.[k] <= y.[j]) as Hm'. { intros j Hj. specialize (Hm j Hj). rewrite !(nth_indep (map Ropp y) 0 (- 0)), !map_nth in Hm by (rewrite map_length; lia). lra. }
    assert (lo <= y.[k]) as Hk2.
    { rewrite (Q k Hk). assert (0 <= sum n (fun j => g k j * (y.[j] - y.[k]))) as Sp.
      { apply sum_nonneg. intros j Hj. destruct (Nat.eq_dec k j) as [->|Hkj]; [replace (y.[j] - y.[j]) with 0 by ring; lra|]. apply Rmult_le_pos; [now apply Gp|]. specialize (Hm' j Hj). lra. }
      specialize (Hb k Hk). nra. }
    intros i Hi. specialize (Hm' i Hi). lra. }
  intros i Hi. split; [now apply Dn|now apply Up].
Qed.
Print Assumptions C49_maximum.

(** the grid 0, 1, 3 with unit volatility meets the hypotheses *)
Definition ex_grid : mesh := Mesh [0; 1; 3] [1; 2; 0] [0; 1; 2].
Lemma ex_grid_ok : grid ex_grid.
Proof.
  unfold grid. cbn [locations dplus dminus ex_grid length]. split; [lia|]. split; [intros [|[|[|i]]] [|[|[|j]]] H; cbn in H; try lia; cbn; lra|]. split; [reflexivity|]. split; [reflexivity|].
  intros [|[|i]] H; try lia; cbn; lra.
Qed.
Definition ex_call : call := Call [0; 0; 0] [0; 0; 0] [1; 1; 1] (1 / 10) 1.
Example C49_example : exists f td tdd d dd, grid ex_grid /\ fits 3 (Call [0; 0; 0] [0; 0; 0] [1; 1; 1] 0 0) /\ fd_init ex_grid [0; 0; 0] [0; 0; 0] [1; 1; 1] = Ok f /\ dx_op ex_grid = Ok td /\ dxx_op ex_grid = Ok tdd /\
  reads td 3 d /\ reads tdd 3 dd /\ Forall (fits 3) [ex_call; ex_call] /\ (forall i, (i < 3)%nat -> nth i (c_rate ex_call) 0 = 0) /\ positive_weights 3 d dd ex_call.
Proof.
  pose proof ex_grid_ok as G. destruct (fd_operator_ok dx_coef ex_grid G) as (td & Ed & W & N). destruct (fd_operator_ok dxx_coef ex_grid G) as (tdd & Edd & W' & N').
  destruct (init_good ex_grid [0; 0; 0] [0; 0; 0] [1; 1; 1] G eq_refl eq_refl eq_refl) as (f & E & _). exists f, td, tdd, (entry td), (entry tdd).
  split; [exact G|]. split; [repeat split|]. split; [exact E|]. split; [exact Ed|]. split; [exact Edd|]. split; [intros i j Hi Hj; now apply (tri_at_ok td 3)|]. split; [intros i j Hi Hj; now apply (tri_at_ok tdd 3)|].
  split; [repeat constructor|]. split; [intros [|[|[|i]]] Hi; try lia; reflexivity|].
  intros i j [Hi1 Hi2] Hj Hij. assert (i = 1%nat) as -> by lia. unfold generator_of, generator. cbn [Nat.ltb Nat.leb andb ex_call c_rate c_mu c_var nth]. rewrite (N 1%nat j), (N' 1%nat j) by (cbn; lia).
  destruct j as [|[|[|j]]]; try lia; unfold diff, difference, coef_l, coef_m, coef_u, dx_coef, dxx_coef, identity; cbn; lra.
Qed.
