(** C37: linear interpolation. *)
From Coq Require Import Reals List Arith Bool Lia Lra.
From Verif Require Import Base Vec InterpModel InterpSpec InterpProofs.
Import ListNotations.
Open Scope R_scope.

(** a table the constructor accepts *)
Lemma monotonic_iff l : is_monotonic l = true <-> nondecreasing l.
Proof.
  split.
  - induction l as [|a l IH]; intros H i j Hij; [cbn in Hij; lia|]. destruct l as [|b l].
    + cbn in Hij. assert (i = 0 /\ j = 0)%nat as [-> ->] by lia. lra.
    + cbn [is_monotonic] in H. destruct (Rle_dec a b) as [Hab|]; [|discriminate]. specialize (IH H).
      destruct i as [|i], j as [|j]; cbn [length] in Hij; try lia; [lra| |apply (IH i j); cbn [length]; lia].
      apply Rle_trans with b; [exact Hab|]. apply (IH 0%nat j). cbn [length]. lia.
  - induction l as [|a l IH]; intros H; [reflexivity|]. destruct l as [|b l]; [reflexivity|]. cbn [is_monotonic].
    destruct (Rle_dec a b) as [_|N]; [|elim N; apply (H 0%nat 1%nat); cbn; lia]. apply IH. intros i j Hij. apply (H (S i) (S j)). cbn [length] in *. lia.
Qed.
Lemma interp1_value x y x0 : nondecreasing x -> length x = length y -> x <> [] -> interp1 x y x0 = Ok (interp_value x y x0).
Proof. intros Hx Hl Hn. unfold interp1. rewrite (proj2 (monotonic_iff x) Hx), Hl, Nat.eqb_refl. cbn [andb]. now apply interp_ok. Qed.

(** Wrong tables are refused, right ones always give a value. *)
Theorem C37_total : forall x y x0, x <> [] ->
  (length x = length y /\ nondecreasing x -> exists v, interp1 x y x0 = Ok v) /\ (~ (length x = length y /\ nondecreasing x) -> interp1 x y x0 = Throw).
Proof.
  intros x y x0 Hn. split.
  - intros [Hl Hx]. eexists. now apply interp1_value.
  - intros H. unfold interp1. destruct (Nat.eqb_spec (length x) (length y)) as [E|E]; [|reflexivity]. destruct (is_monotonic x) eqn:M; [|reflexivity]. apply monotonic_iff in M. tauto.
Qed.
Print Assumptions C37_total.
(** The values at the knots. *)
Theorem C37_knots : forall x y k, increasing x -> length x = length y -> (k < length x)%nat -> interp1 x y (nth k x 0) = Ok (nth k y 0).
Proof.
  intros x y k Hx Hl Hk. rewrite interp1_value; [|now apply increasing_nondecreasing|exact Hl|intros ->; cbn in Hk; lia]. now rewrite value_knot.
Qed.
Print Assumptions C37_knots.
(** Flat beyond the ends. *)
Theorem C37_flat : forall x y x0, nondecreasing x -> length x = length y -> x <> [] ->
  (x0 <= nth 0 x 0 -> interp1 x y x0 = Ok (nth 0 y 0)) /\ (nth (length x - 1) x 0 < x0 -> interp1 x y x0 = Ok (nth (length y - 1) y 0)).
Proof.
  intros x y x0 Hx Hl Hn. rewrite interp1_value by assumption. split; intros H; f_equal; [now apply value_left|now apply value_right].
Qed.
Print Assumptions C37_flat.
(** Between two knots: the straight line between them, except that within 2e-14 below a knot the value at the knot is returned. *)
Theorem C37_between : forall x y k x0, nondecreasing x -> length x = length y -> (S k < length x)%nat -> nth k x 0 < x0 <= nth (S k) x 0 ->
  exists v, interp1 x y x0 = Ok v /\ between (nth k y 0) (nth (S k) y 0) v /\
    (epsilon <= nth (S k) x 0 - x0 -> v = chord (nth k x 0) (nth (S k) x 0) (nth k y 0) (nth (S k) y 0) x0).
Proof.
  intros x y k x0 Hx Hl Hk H. eexists. split; [apply interp1_value; auto; intros ->; cbn in Hk; lia|].
  destruct (value_inside x y Hx Hl k x0 Hk H) as [E|[E1 E2]].
  - rewrite E. split; [now apply chord_between|reflexivity].
  - rewrite E2. split; [apply between_r|lra].
Qed.
Print Assumptions C37_between.
(** Monotone data give a monotone function. *)
Theorem C37_monotone : forall x y a b va vb, nondecreasing x -> a <= b -> interp1 x y a = Ok va -> interp1 x y b = Ok vb ->
  (nondecreasing y -> va <= vb) /\ (nonincreasing y -> vb <= va).
Proof.
  intros x y a b va vb Hx Hab Ha Hb. assert (length x = length y) as Hl by (unfold interp1 in Ha; destruct (Nat.eqb_spec (length x) (length y)); [assumption|discriminate]).
  assert (x <> []) as Hn.
  { intros ->. destruct y; [|discriminate]. unfold interp1, interp_linear, back in Ha. cbn in Ha. discriminate. }
  rewrite interp1_value in Ha, Hb by assumption. injection Ha as <-. injection Hb as <-. split; intros Hy; [now apply value_monotone|].
  assert (interp_value x (map Ropp y) a <= interp_value x (map Ropp y) b) as Q by (apply value_monotone; auto; [now rewrite map_length|now apply nondecreasing_opp]).
  rewrite !value_opp in Q. lra.
Qed.
Print Assumptions C37_monotone.
Lemma ex_increasing : increasing [1; 2; 4].
Proof. intros [|[|[|i]]] [|[|[|j]]] H; cbn in *; try lia; lra. Qed.
Example C37_example : increasing [1; 2; 4] /\ nondecreasing [5; 6; 8] /\ nth 1 [1; 2; 4] 0 < 3 <= nth 2 [1; 2; 4] 0 /\ epsilon <= nth 2 [1; 2; 4] 0 - 3 /\
  interp1 [1; 2; 4] [5; 6; 8] 3 = Ok 7 /\ interp1 [1; 2; 4] [5; 6; 8] 9 = Ok 8.
Proof.
  split; [exact ex_increasing|]. split; [intros [|[|[|i]]] [|[|[|j]]] H; cbn in *; try lia; lra|]. split; [cbn; lra|]. split; [cbn; unfold epsilon; lra|]. split.
  - destruct (C37_between [1; 2; 4] [5; 6; 8] 1 3) as (v & E & _ & H); [apply increasing_nondecreasing, ex_increasing|reflexivity|cbn; lia|cbn; lra|].
    rewrite E, H; [f_equal; unfold chord; cbn; field|cbn; unfold epsilon; lra].
  - apply C37_flat; [apply increasing_nondecreasing, ex_increasing|reflexivity|discriminate|cbn; lra].
Qed.
(** A repeated knot is accepted; the second value given for it is never returned there. *)
Theorem C37_repeated_knot_refuted : exists x y, interp1 x y (nth 1 x 0) <> Ok (nth 1 y 0) /\ nondecreasing x /\ length x = length y.
Proof.
  exists [1; 1], [5; 6]. assert (nondecreasing [1; 1]) as N by (intros [|[|i]] [|[|j]] H; cbn in *; try lia; lra). split; [|split; [exact N|reflexivity]].
  rewrite (proj1 (C37_flat [1; 1] [5; 6] _ N eq_refl ltac:(discriminate))) by (cbn; lra). cbn. intros E. injection E as E. lra.
Qed.
Print Assumptions C37_repeated_knot_refuted.
(** An empty table is accepted; evaluating it reads before the start of the values. *)
Theorem C37_empty_refuted : forall x0, interp1 [] [] x0 = UB /\ interp2_linear [] [] [] x0 x0 = UB.
Proof. intros. split; reflexivity. Qed.
Print Assumptions C37_empty_refuted.

(** * Two dimensions *)
Theorem C37_2d_knots : forall x y f i j, increasing x -> increasing y -> table x y f -> (i < length x)%nat -> (j < length y)%nat ->
  interp2_linear x y f (nth i x 0) (nth j y 0) = Ok (nth j (nth i f []) 0).
Proof.
  intros x y f i j Hx Hy T Hi Hj. pose proof T as [T1 T2]. rewrite interp2_ok; [|exact T|intros ->; cbn in Hi; lia|intros ->; cbn in Hj; lia].
  assert (upper_bound x (nth i x 0) = S i) as E.
  { apply upper_bound_is; [now apply increasing_nondecreasing|lia| |].
    - intros k Hk. apply (increasing_nondecreasing x Hx). lia.
    - intros Hk. apply Hx. lia. }
  unfold interp2_value. rewrite E. f_equal. destruct (Nat.eqb_spec (S i) (length x)) as [N|N].
  - rewrite <- N. replace (S i - 1)%nat with i by lia. apply value_knot; auto. symmetry. apply T2. lia.
  - rewrite chord_left. apply value_knot; auto. symmetry. apply T2. lia.
Qed.
Print Assumptions C37_2d_knots.
(** Beyond the ends the nearest row; between rows, between the values of the two rows, in proportion. *)
Theorem C37_2d_between : forall x y f x0 y0, nondecreasing x -> nondecreasing y -> table x y f -> x <> [] -> y <> [] ->
  exists v, interp2_linear x y f x0 y0 = Ok v /\
    (x0 < nth 0 x 0 -> interp1 y (nth 0 f []) y0 = Ok v) /\ (nth (length x - 1) x 0 <= x0 -> interp1 y (nth (length x - 1) f []) y0 = Ok v) /\
    (forall k, (S k < length x)%nat -> nth k x 0 <= x0 < nth (S k) x 0 ->
       exists z1 z2, interp1 y (nth k f []) y0 = Ok z1 /\ interp1 y (nth (S k) f []) y0 = Ok z2 /\ v = chord (nth k x 0) (nth (S k) x 0) z1 z2 x0 /\ between z1 z2 v).
Proof.
  intros x y f x0 y0 Hx Hy [T1 T2] Nx Ny. eexists. split; [apply interp2_ok; auto; split; auto|]. assert (0 < length x)%nat as Hp by (destruct x; [congruence|cbn; lia]).
  assert (forall k, (k < length x)%nat -> interp1 y (nth k f []) y0 = Ok (interp_value y (nth k f []) y0)) as HI.
  { intros k Hk. apply interp1_value; auto. symmetry. apply T2. lia. }
  split; [|split].
  - intros H. rewrite HI by lia. f_equal. assert (upper_bound x x0 = 0)%nat as E by (apply upper_bound_is; auto; lia). unfold interp2_value. rewrite E. destruct (Nat.eqb_spec 0 (length x)); [lia|]. reflexivity.
  - intros H. rewrite HI by lia. f_equal. assert (upper_bound x x0 = length x) as E.
    { apply upper_bound_is; auto; [|lia]. intros i Hi. apply Rle_trans with (nth (length x - 1) x 0); [apply Hx; lia|exact H]. }
    unfold interp2_value. rewrite E, Nat.eqb_refl. reflexivity.
  - intros k Hk H. assert (upper_bound x x0 = S k) as E.
    { apply upper_bound_is; auto; [lia| |intros _; apply H]. intros i Hi. apply Rle_trans with (nth k x 0); [apply Hx; lia|apply H]. }
    do 2 eexists. split; [apply HI; lia|]. split; [apply HI; lia|].
    assert (interp2_value x y f x0 y0 = chord (nth k x 0) (nth (S k) x 0) (interp_value y (nth k f []) y0) (interp_value y (nth (S k) f []) y0) x0) as ->.
    { unfold interp2_value. rewrite E. destruct (Nat.eqb_spec (S k) (length x)); [lia|]. reflexivity. }
    split; [reflexivity|]. now apply chord_between'.
Qed.
Print Assumptions C37_2d_between.
(** Never outside the range of the table. *)
Theorem C37_2d_range : forall x y f x0 y0 lo hi, nondecreasing x -> nondecreasing y -> table x y f -> x <> [] -> y <> [] ->
  (forall i j, (i < length x)%nat -> (j < length y)%nat -> lo <= nth j (nth i f []) 0 <= hi) ->
  exists v, interp2_linear x y f x0 y0 = Ok v /\ lo <= v <= hi.
Proof.
  intros x y f x0 y0 lo hi Hx Hy [T1 T2] Nx Ny H. eexists. split; [apply interp2_ok; auto; split; auto|]. assert (0 < length x)%nat as Hp by (destruct x; [congruence|cbn; lia]).
  assert (forall k, (k < length x)%nat -> lo <= interp_value y (nth k f []) y0 <= hi) as HB.
  { intros k Hk. apply value_bounds; auto; [symmetry; apply T2; lia|]. intros j Hj. apply H; [lia|]. rewrite T2 in Hj by lia. exact Hj. }
  destruct (value2_cases x y f x0 y0 Nx) as [[_ ->]|[[_ ->]|(k & _ & C1 & C2 & ->)]]; try (apply HB; lia).
  pose proof (HB k ltac:(lia)) as B1. pose proof (HB (S k) ltac:(lia)) as B2.
  pose proof (chord_between' (nth k x 0) (nth (S k) x 0) (interp_value y (nth k f []) y0) (interp_value y (nth (S k) f []) y0) x0 (proj1 C2) (proj2 C2)) as B.
  unfold between, Rmin, Rmax in B. destruct (Rle_dec _ _); lra.
Qed.
Print Assumptions C37_2d_range.
(** Monotone in each direction if the table is. *)
Theorem C37_2d_monotone : forall x y f a b c d va vb, nondecreasing x -> nondecreasing y -> table x y f -> x <> [] -> y <> [] ->
  (forall i j, (S i < length x)%nat -> (j < length y)%nat -> nth j (nth i f []) 0 <= nth j (nth (S i) f []) 0) ->
  (forall i, (i < length x)%nat -> nondecreasing (nth i f [])) -> a <= b -> c <= d ->
  interp2_linear x y f a c = Ok va -> interp2_linear x y f b d = Ok vb -> va <= vb.
Proof.
  intros x y f a b c d va vb Hx Hy T Nx Ny Hcol Hrow Hab Hcd Ea Eb. pose proof T as [T1 T2]. rewrite interp2_ok in Ea, Eb by assumption. injection Ea as <-. injection Eb as <-.
  assert (0 < length x)%nat as Hp by (destruct x; [congruence|cbn; lia]).
  assert (forall i k y0, (i + k < length x)%nat -> interp_value y (nth i f []) y0 <= interp_value y (nth (i + k) f []) y0) as HC.
  { intros i k y0. induction k as [|k IH]; intros Hk; [rewrite Nat.add_0_r; lra|]. apply Rle_trans with (interp_value y (nth (i + k) f []) y0); [apply IH; lia|].
    rewrite Nat.add_succ_r. apply value_le; auto; try (symmetry; apply T2; lia). intros j Hj. apply Hcol; lia. }
  assert (forall i j y0, (i <= j < length x)%nat -> interp_value y (nth i f []) y0 <= interp_value y (nth j f []) y0) as HC'.
  { intros i j y0 H. replace j with (i + (j - i))%nat by lia. apply HC. lia. }
  assert (forall i, (i < length x)%nat -> interp_value y (nth i f []) c <= interp_value y (nth i f []) d) as HR.
  { intros i Hi. apply value_monotone; auto. symmetry. apply T2. lia. }
  (* first along y, then along x *)
  apply Rle_trans with (interp2_value x y f a d).
  - destruct (value2_cases x y f a c Nx) as [[E1 ->]|[[E1 ->]|(k & E1 & C1 & C2 & ->)]]; destruct (value2_cases x y f a d Nx) as [[E2 ->]|[[E2 ->]|(k' & E2 & C1' & C2' & ->)]]; try lia; try (apply HR; lia).
    assert (k' = k) as -> by lia. pose proof (HR k ltac:(lia)) as R1. pose proof (HR (S k) ltac:(lia)) as R2. unfold chord.
    assert (0 <= (a - nth k x 0) / (nth (S k) x 0 - nth k x 0) <= 1) as F.
    { destruct (Req_dec (nth k x 0) a) as [->|N]; [unfold Rdiv; rewrite Rminus_diag_eq by reflexivity; lra|]. pose proof (frac_range (nth k x 0) (nth (S k) x 0) a ltac:(lra) ltac:(lra)). lra. }
    set (g := (a - nth k x 0) / (nth (S k) x 0 - nth k x 0)) in *. clearbody g. nra.
  - assert (upper_bound x a <= upper_bound x b)%nat as Hub.
    { destruct (Nat.le_gt_cases (upper_bound x a) (upper_bound x b)) as [C|C]; [exact C|exfalso]. pose proof (upper_bound_lt x a _ C). pose proof (upper_bound_le x a). pose proof (upper_bound_ge x b ltac:(lia)). lra. }
    assert (forall k t, (S k < length x)%nat -> nth k x 0 <= t < nth (S k) x 0 ->
       interp_value y (nth k f []) d <= chord (nth k x 0) (nth (S k) x 0) (interp_value y (nth k f []) d) (interp_value y (nth (S k) f []) d) t <= interp_value y (nth (S k) f []) d) as HB.
    { intros k t Hk Ht. pose proof (HC' k (S k) d ltac:(lia)) as Q.
      pose proof (chord_between' (nth k x 0) (nth (S k) x 0) (interp_value y (nth k f []) d) (interp_value y (nth (S k) f []) d) t (proj1 Ht) (proj2 Ht)) as B.
      unfold between, Rmin, Rmax in B. destruct (Rle_dec _ _); lra. }
    destruct (value2_cases x y f a d Nx) as [[E1 ->]|[[E1 ->]|(k & E1 & C1 & C2 & ->)]]; destruct (value2_cases x y f b d Nx) as [[E2 ->]|[[E2 ->]|(k' & E2 & C1' & C2' & ->)]]; try lia; try (apply HC'; lia).
    + apply Rle_trans with (interp_value y (nth k' f []) d); [apply HC'; lia|apply HB; lia || lra].
    + apply Rle_trans with (interp_value y (nth (S k) f []) d); [apply HB; lia || lra|apply HC'; lia].
    + destruct (Nat.eq_dec k k') as [->|N].
      * apply chord_le; [lra|apply HC'; lia|exact Hab].
      * apply Rle_trans with (interp_value y (nth (S k) f []) d); [apply HB; lia || lra|]. apply Rle_trans with (interp_value y (nth k' f []) d); [apply HC'; lia|apply HB; lia || lra].
Qed.
Print Assumptions C37_2d_monotone.
Example C37_2d_example : increasing [1; 2; 4] /\ table [1; 2; 4] [1; 2; 4] [[1; 2; 3]; [2; 3; 4]; [3; 5; 7]] /\
  interp2_linear [1; 2; 4] [1; 2; 4] [[1; 2; 3]; [2; 3; 4]; [3; 5; 7]] 2 4 = Ok 4 /\
  (forall i j, (S i < 3)%nat -> (j < 3)%nat -> nth j (nth i [[1; 2; 3]; [2; 3; 4]; [3; 5; 7]] []) 0 <= nth j (nth (S i) [[1; 2; 3]; [2; 3; 4]; [3; 5; 7]] []) 0).
Proof.
  split; [exact ex_increasing|]. assert (table [1; 2; 4] [1; 2; 4] [[1; 2; 3]; [2; 3; 4]; [3; 5; 7]]) as T.
  { split; [reflexivity|]. intros [|[|[|k]]] H; cbn in *; auto; lia. }
  split; [exact T|]. split.
  - exact (C37_2d_knots _ _ _ 1 2 ex_increasing ex_increasing T ltac:(cbn; lia) ltac:(cbn; lia)).
  - intros [|[|i]] [|[|[|j]]] H1 H2; cbn in *; try lia; lra.
Qed.
