(** Proofs about the linear interpolators. *)
From Coq Require Import Reals List Arith Bool Lia Lra.
From Verif Require Import Base Vec InterpModel InterpSpec.
Import ListNotations.
Open Scope R_scope.
Notation nth0 l k := (nth k l 0).

Lemma lower_bound_le l x : (lower_bound l x <= length l)%nat.
Proof. induction l as [|a l IH]; cbn; [lia|]. destruct (Rlt_dec a x); lia. Qed.
Lemma lower_bound_lt l x : forall k, (k < lower_bound l x)%nat -> nth0 l k < x.
Proof. induction l as [|a l IH]; intros k H; cbn in H; [lia|]. destruct (Rlt_dec a x); [|lia]. destruct k as [|k]; cbn; [assumption|]. apply IH. lia. Qed.
Lemma lower_bound_ge l x : (lower_bound l x < length l)%nat -> x <= nth0 l (lower_bound l x).
Proof. induction l as [|a l IH]; cbn; [lia|]. destruct (Rlt_dec a x); intros H; cbn; [apply IH; lia|lra]. Qed.
Lemma upper_bound_le l x : (upper_bound l x <= length l)%nat.
Proof. induction l as [|a l IH]; cbn; [lia|]. destruct (Rlt_dec x a); lia. Qed.
Lemma upper_bound_lt l x : forall k, (k < upper_bound l x)%nat -> nth0 l k <= x.
Proof. induction l as [|a l IH]; intros k H; cbn in H; [lia|]. destruct (Rlt_dec x a); [lia|]. destruct k as [|k]; cbn; [lra|]. apply IH. lia. Qed.
Lemma upper_bound_ge l x : (upper_bound l x < length l)%nat -> x < nth0 l (upper_bound l x).
Proof. induction l as [|a l IH]; cbn; [lia|]. destruct (Rlt_dec x a); intros H; cbn; [assumption|apply IH; lia]. Qed.
Lemma increasing_nondecreasing l : increasing l -> nondecreasing l.
Proof. intros H i j Hij. destruct (Nat.eq_dec i j) as [->|]; [lra|]. apply Rlt_le, H. lia. Qed.
Lemma lower_bound_is l x k : nondecreasing l -> (k <= length l)%nat -> (forall i, (i < k)%nat -> nth0 l i < x) -> ((k < length l)%nat -> x <= nth0 l k) -> lower_bound l x = k.
Proof.
  intros Hl Hk H1 H2. pose proof (lower_bound_le l x) as L. destruct (Nat.lt_trichotomy (lower_bound l x) k) as [C|[C|C]]; [|exact C|].
  - exfalso. pose proof (lower_bound_ge l x ltac:(lia)). specialize (H1 _ C). lra.
  - exfalso. pose proof (lower_bound_lt l x k C). assert (k < length l)%nat by lia. specialize (H2 H0). lra.
Qed.
Lemma upper_bound_is l x k : nondecreasing l -> (k <= length l)%nat -> (forall i, (i < k)%nat -> nth0 l i <= x) -> ((k < length l)%nat -> x < nth0 l k) -> upper_bound l x = k.
Proof.
  intros Hl Hk H1 H2. pose proof (upper_bound_le l x) as L. destruct (Nat.lt_trichotomy (upper_bound l x) k) as [C|[C|C]]; [|exact C|].
  - exfalso. pose proof (upper_bound_ge l x ltac:(lia)). specialize (H1 _ C). lra.
  - exfalso. pose proof (upper_bound_lt l x k C). assert (k < length l)%nat by lia. specialize (H2 H0). lra.
Qed.
Lemma is_zero_0 : is_zero 0 = true.
Proof. unfold is_zero, epsilon. destruct (Rlt_dec 0 _); [|lra]. destruct (Rlt_dec (- 0) _); [reflexivity|lra]. Qed.
Lemma is_zero_inv x : is_zero x = true -> Rabs x < epsilon.
Proof. unfold is_zero. destruct (Rlt_dec x epsilon); [|discriminate]. destruct (Rlt_dec (- x) epsilon); [|discriminate]. intros _. unfold Rabs. destruct (Rcase_abs x); lra. Qed.

(** what the interpolator returns, by place *)
Definition interp_value (x y : list R) (x0 : R) : R :=
  let k := lower_bound x x0 in
  if (k =? length x)%nat then nth0 y (length y - 1)
  else if (k =? 0)%nat || is_zero (x0 - nth0 x k) then nth0 y k
  else chord (nth0 x (k - 1)) (nth0 x k) (nth0 y (k - 1)) (nth0 y k) x0.
Lemma interp_ok x y x0 : length x = length y -> x <> [] -> interp_linear x y x0 = Ok (interp_value x y x0).
Proof.
  intros Hl Hn. assert (0 < length x)%nat as Hp by (destruct x; [congruence|cbn; lia]). pose proof (lower_bound_le x x0) as L.
  unfold interp_linear, interp_value. destruct (Nat.eqb_spec (lower_bound x x0) (length x)) as [E|E].
  - unfold back. destruct (length y) as [|n] eqn:Ey; [lia|]. replace (S n - 1)%nat with n by lia. apply get_ok. lia.
  - rewrite (get_ok x _ 0) by lia. cbn [obind]. destruct ((lower_bound x x0 =? 0)%nat || is_zero (x0 - nth0 x (lower_bound x x0))).
    + apply get_ok. lia.
    + rewrite (get_ok x _ 0) by lia. cbn [obind]. rewrite !(get_ok y _ 0) by lia. cbn [obind]. unfold chord. do 2 f_equal. ring.
Qed.
Lemma frac_range a b t : a < t -> t <= b -> 0 < (t - a) / (b - a) <= 1.
Proof.
  intros H1 H2. split; [apply Rdiv_lt_0_compat; lra|]. apply (Rmult_le_reg_r (b - a)); [lra|]. unfold Rdiv. rewrite Rmult_assoc, Rinv_l by lra. lra.
Qed.
Lemma chord_between a b u v t : a < t -> t <= b -> between u v (chord a b u v t).
Proof.
  intros H1 H2. pose proof (frac_range a b t H1 H2) as F. unfold chord, between. set (g := (t - a) / (b - a)) in *. clearbody g.
  unfold Rmin, Rmax. destruct (Rle_dec u v); nra.
Qed.
Lemma between_l a b : between a b a.
Proof. unfold between, Rmin, Rmax. destruct (Rle_dec a b); lra. Qed.
Lemma between_r a b : between a b b.
Proof. unfold between, Rmin, Rmax. destruct (Rle_dec a b); lra. Qed.

Section Table.
Variables x y : list R.
Hypothesis Hx : nondecreasing x.
Hypothesis Hl : length x = length y.
(** inside, between the values at the neighbouring knots *)
Lemma value_cases x0 : x <> [] ->
  (lower_bound x x0 = length x /\ interp_value x y x0 = nth0 y (length x - 1)) \/
  (lower_bound x x0 = O /\ interp_value x y x0 = nth0 y 0) \/
  (exists k, lower_bound x x0 = S k /\ (S k < length x)%nat /\ nth0 x k < x0 <= nth0 x (S k) /\
     (interp_value x y x0 = chord (nth0 x k) (nth0 x (S k)) (nth0 y k) (nth0 y (S k)) x0 \/ (nth0 x (S k) - x0 < epsilon /\ interp_value x y x0 = nth0 y (S k)))).
Proof using Hl.
  clear Hx. intros Hn. assert (0 < length x)%nat as Hp by (destruct x; [congruence|cbn; lia]). pose proof (lower_bound_le x x0) as L. unfold interp_value.
  destruct (Nat.eqb_spec (lower_bound x x0) (length x)) as [E|E]; [left; rewrite <- Hl; auto|]. right.
  destruct (lower_bound x x0) as [|k] eqn:Ek; [left; auto|]. right. exists k. split; [reflexivity|]. split; [lia|].
  assert (nth0 x k < x0) as H1 by (apply lower_bound_lt; lia). assert (x0 <= nth0 x (S k)) as H2 by (rewrite <- Ek; apply lower_bound_ge; lia). split; [lra|].
  cbn [Nat.eqb orb]. destruct (is_zero (x0 - nth0 x (S k))) eqn:Z; [right|left].
  - apply is_zero_inv in Z. rewrite Rabs_left1 in Z by lra. split; [lra|reflexivity].
  - replace (S k - 1)%nat with k by lia. reflexivity.
Qed.
Lemma value_monotone a b : nondecreasing y -> a <= b -> interp_value x y a <= interp_value x y b.
Proof using Hx Hl.
  intros Hy Hab. destruct x as [|x1 xs] eqn:Ex; [unfold interp_value; cbn; lra|]. rewrite <- Ex in *. assert (x <> []) as Hn by (rewrite Ex; discriminate). clear Ex.
  assert (0 < length x)%nat as Hp by (destruct x; [congruence|cbn; lia]).
  assert (lower_bound x a <= lower_bound x b)%nat as Hlb.
  { destruct (Nat.le_gt_cases (lower_bound x a) (lower_bound x b)) as [C|C]; [exact C|exfalso].
    pose proof (lower_bound_lt x a _ C). pose proof (lower_bound_le x a). pose proof (lower_bound_ge x b ltac:(lia)). lra. }
  assert (forall c k, lower_bound x c = S k -> (S k < length x)%nat -> nth0 y k <= interp_value x y c <= nth0 y (S k)) as HB.
  { intros c k Hc Hk. assert (nth0 y k <= nth0 y (S k)) as Q by (apply Hy; lia). destruct (value_cases c Hn) as [[C _]|[[C _]|(k' & C & C1 & C2 & C3)]]; [lia|lia|].
    assert (k' = k) as -> by lia. destruct C3 as [->|[_ ->]]; [|lra]. pose proof (chord_between (nth0 x k) (nth0 x (S k)) (nth0 y k) (nth0 y (S k)) c (proj1 C2) (proj2 C2)) as B.
    unfold between, Rmin, Rmax in B. destruct (Rle_dec (nth0 y k) (nth0 y (S k))); lra. }
  destruct (value_cases a Hn) as [[A1 A2]|[[A1 A2]|(k & A1 & A2 & A3 & A4)]]; destruct (value_cases b Hn) as [[B1 B2]|[[B1 B2]|(k' & B1 & B2 & B3 & B4)]].
  - rewrite A2, B2; lra.
  - lia.
  - lia.
  - rewrite A2, B2. apply Hy. lia.
  - rewrite A2, B2; lra.
  - rewrite A2. pose proof (HB b k' B1 B2). assert (nth0 y 0 <= nth0 y k') by (apply Hy; lia). lra.
  - rewrite B2. pose proof (HB a k A1 A2). assert (nth0 y (S k) <= nth0 y (length x - 1)) by (apply Hy; lia). lra.
  - lia.
  - destruct (Nat.eq_dec k k') as [->|Hk].
    + assert (nth0 y k' <= nth0 y (S k')) as Q by (apply Hy; lia). pose proof (HB a k' A1 A2) as Ha. pose proof (HB b k' B1 B2) as Hb. destruct B4 as [B4|[_ B4]]; [|lra].
      destruct A4 as [A4|[A5 A4]].
      * rewrite A4, B4. unfold chord. assert ((a - nth0 x k') / (nth0 x (S k') - nth0 x k') <= (b - nth0 x k') / (nth0 x (S k') - nth0 x k')) as F.
        { apply Rmult_le_compat_r; [apply Rlt_le, Rinv_0_lt_compat; lra|lra]. } nra.
      * (* b is at least as close to the knot *)
        assert (is_zero (b - nth0 x (S k')) = true) as Z.
        { unfold is_zero. destruct (Rlt_dec (b - nth0 x (S k')) epsilon) as [_|N]; [|unfold epsilon in *; lra]. destruct (Rlt_dec (- (b - nth0 x (S k'))) epsilon) as [_|N]; [reflexivity|lra]. }
        assert (interp_value x y b = nth0 y (S k')) as Eb.
        { unfold interp_value. rewrite B1. destruct (Nat.eqb_spec (S k') (length x)); [lia|]. rewrite Z, orb_true_r. reflexivity. }
        rewrite Eb. lra.
    + pose proof (HB a k A1 A2). pose proof (HB b k' B1 B2). assert (nth0 y (S k) <= nth0 y k') by (apply Hy; lia). lra.
Qed.
Lemma value_knot k : increasing x -> (k < length x)%nat -> interp_value x y (nth0 x k) = nth0 y k.
Proof using Hl.
  clear Hx. intros Hi Hk. assert (lower_bound x (nth0 x k) = k) as E.
  { apply lower_bound_is; [now apply increasing_nondecreasing|lia| |lra]. intros i H. apply Hi. lia. }
  unfold interp_value. rewrite E. destruct (Nat.eqb_spec k (length x)); [lia|]. replace (nth0 x k - nth0 x k) with 0 by ring. rewrite is_zero_0, orb_true_r. reflexivity.
Qed.
Lemma value_left x0 : x <> [] -> x0 <= nth0 x 0 -> interp_value x y x0 = nth0 y 0.
Proof using Hx Hl.
  intros Hn H. assert (0 < length x)%nat by (destruct x; [congruence|cbn; lia]). assert (lower_bound x x0 = 0)%nat as E by (apply lower_bound_is; auto; lia).
  unfold interp_value. rewrite E. destruct (Nat.eqb_spec 0 (length x)); [lia|]. reflexivity.
Qed.
Lemma value_right x0 : nth0 x (length x - 1) < x0 -> interp_value x y x0 = nth0 y (length y - 1).
Proof using Hx Hl.
  intros H. assert (lower_bound x x0 = length x) as E.
  { apply lower_bound_is; auto; [|lia]. intros i Hi. apply Rle_lt_trans with (nth0 x (length x - 1)); [apply Hx; lia|exact H]. }
  unfold interp_value. rewrite E, Nat.eqb_refl. reflexivity.
Qed.
Lemma value_inside k x0 : (S k < length x)%nat -> nth0 x k < x0 <= nth0 x (S k) ->
  interp_value x y x0 = chord (nth0 x k) (nth0 x (S k)) (nth0 y k) (nth0 y (S k)) x0 \/ (nth0 x (S k) - x0 < epsilon /\ interp_value x y x0 = nth0 y (S k)).
Proof using Hx Hl.
  intros Hk H. assert (lower_bound x x0 = S k) as E.
  { apply lower_bound_is; auto; [lia| |intros _; lra]. intros i Hi. apply Rle_lt_trans with (nth0 x k); [apply Hx; lia|lra]. }
  assert (x <> []) as Hn by (intros N; rewrite N in Hk; cbn in Hk; lia).
  destruct (value_cases x0 Hn) as [[C _]|[[C _]|(k' & C & C1 & C2 & C3)]]; [lia|lia|]. assert (k' = k) as -> by lia. exact C3.
Qed.
Lemma value_bounds lo hi x0 : x <> [] -> (forall k, (k < length y)%nat -> lo <= nth0 y k <= hi) -> lo <= interp_value x y x0 <= hi.
Proof using Hl.
  clear Hx. intros Hn H. assert (0 < length x)%nat as Hp by (destruct x; [congruence|cbn; lia]).
  destruct (value_cases x0 Hn) as [[C1 ->]|[[C1 ->]|(k & C & C1 & C2 & C3)]]; try (apply H; lia).
  pose proof (H k ltac:(lia)) as Q1. pose proof (H (S k) ltac:(lia)) as Q2. destruct C3 as [->|[_ ->]]; [|exact Q2].
  pose proof (chord_between _ _ (nth0 y k) (nth0 y (S k)) x0 (proj1 C2) (proj2 C2)) as B. unfold between, Rmin, Rmax in B. destruct (Rle_dec (nth0 y k) (nth0 y (S k))); lra.
Qed.
End Table.
(** linear in the values *)
Lemma nth_opp l k : nth0 (map Ropp l) k = - nth0 l k.
Proof. rewrite <- (map_nth Ropp l 0 k). now rewrite Ropp_0. Qed.
Lemma value_opp x y x0 : interp_value x (map Ropp y) x0 = - interp_value x y x0.
Proof.
  unfold interp_value. rewrite map_length. destruct (_ =? length x)%nat; [apply nth_opp|]. destruct (_ || _); [apply nth_opp|]. rewrite !nth_opp. unfold chord. ring.
Qed.
Lemma nondecreasing_opp l : nonincreasing l -> nondecreasing (map Ropp l).
Proof. intros H i j Hij. rewrite map_length in Hij. rewrite !nth_opp. specialize (H i j Hij). lra. Qed.
(** monotone in the table *)
Lemma value_le x y z x0 : nondecreasing x -> x <> [] -> length x = length y -> length x = length z -> (forall k, (k < length x)%nat -> nth0 y k <= nth0 z k) -> interp_value x y x0 <= interp_value x z x0.
Proof.
  intros Hx Hn Hy Hz H. assert (0 < length x)%nat as Hp by (destruct x; [congruence|cbn; lia]). pose proof (lower_bound_le x x0) as L. unfold interp_value.
  destruct (Nat.eqb_spec (lower_bound x x0) (length x)) as [E|E]; [rewrite <- Hy, <- Hz; apply H; lia|].
  destruct ((lower_bound x x0 =? 0)%nat || is_zero (x0 - nth0 x (lower_bound x x0))) eqn:Ez; [apply H; lia|]. apply orb_false_elim in Ez as [Ez _]. apply Nat.eqb_neq in Ez.
  set (k := lower_bound x x0) in *. assert (nth0 x (k - 1) < x0) as L1 by (apply lower_bound_lt; fold k; lia). assert (x0 <= nth0 x k) as L2 by (apply lower_bound_ge; fold k; lia).
  pose proof (frac_range _ _ _ L1 L2) as F. unfold chord. pose proof (H (k - 1)%nat ltac:(lia)). pose proof (H k ltac:(lia)).
  set (g := (x0 - nth0 x (k - 1)) / (nth0 x k - nth0 x (k - 1))) in *. clearbody g. nra.
Qed.

(** * Two dimensions *)
Definition interp2_value (x y : list R) (f : list (list R)) (x0 y0 : R) : R :=
  let z k := interp_value y (nth k f []) y0 in
  let n2 := upper_bound x x0 in
  if (n2 =? length x)%nat then z (length x - 1)%nat else match n2 with O => z O | S n1 => chord (nth0 x n1) (nth0 x (S n1)) (z n1) (z (S n1)) x0 end.
Lemma interp2_ok x y f x0 y0 : table x y f -> x <> [] -> y <> [] -> interp2_linear x y f x0 y0 = Ok (interp2_value x y f x0 y0).
Proof.
  intros [T1 T2] Hx Hy. assert (0 < length x)%nat as Hp by (destruct x; [congruence|cbn; lia]). pose proof (upper_bound_le x x0) as L.
  assert (forall k, (k < length x)%nat -> (do row <- get f k; interp_linear y row y0) = Ok (interp_value y (nth k f []) y0)) as Hz.
  { intros k Hk. rewrite (get_ok f k []) by lia. cbn [obind]. apply interp_ok; [symmetry; apply T2; lia|exact Hy]. }
  unfold interp2_linear, interp2_value. destruct (Nat.eqb_spec (upper_bound x x0) (length x)) as [E|E].
  - rewrite E. destruct (length x) as [|n] eqn:En; [lia|]. rewrite Hz by lia. repeat f_equal. lia.
  - destruct (upper_bound x x0) as [|n1]; [apply Hz; lia|]. rewrite !(get_ok x _ 0) by lia. cbn [obind]. unfold obind in Hz |- *.
    pose proof (Hz n1 ltac:(lia)) as Z1. pose proof (Hz (S n1) ltac:(lia)) as Z2. destruct (get f n1) as [r1| | |]; try discriminate. rewrite Z1. destruct (get f (S n1)) as [r2| | |]; try discriminate. rewrite Z2. unfold chord. reflexivity.
Qed.
Lemma chord_left a b u v : chord a b u v a = u.
Proof. unfold chord. replace (a - a) with 0 by ring. unfold Rdiv. ring. Qed.
Lemma chord_le a b u v t t' : a < b -> u <= v -> t <= t' -> chord a b u v t <= chord a b u v t'.
Proof.
  intros H1 H2 H3. unfold chord. assert ((t - a) / (b - a) <= (t' - a) / (b - a)) by (apply Rmult_le_compat_r; [apply Rlt_le, Rinv_0_lt_compat; lra|lra]). nra.
Qed.
Lemma chord_between' a b u v t : a <= t -> t < b -> between u v (chord a b u v t).
Proof.
  intros H1 H2. destruct (Req_dec a t) as [->|N]; [rewrite chord_left; apply between_l|]. apply chord_between; lra.
Qed.
Lemma value2_cases x y f x0 y0 : x <> [] ->
  (upper_bound x x0 = length x /\ interp2_value x y f x0 y0 = interp_value y (nth (length x - 1) f []) y0) \/
  (upper_bound x x0 = O /\ interp2_value x y f x0 y0 = interp_value y (nth 0 f []) y0) \/
  (exists k, upper_bound x x0 = S k /\ (S k < length x)%nat /\ nth0 x k <= x0 < nth0 x (S k) /\
     interp2_value x y f x0 y0 = chord (nth0 x k) (nth0 x (S k)) (interp_value y (nth k f []) y0) (interp_value y (nth (S k) f []) y0) x0).
Proof.
  intros Hn. assert (0 < length x)%nat as Hp by (destruct x; [congruence|cbn; lia]). pose proof (upper_bound_le x x0) as L. unfold interp2_value.
  destruct (Nat.eqb_spec (upper_bound x x0) (length x)) as [E|E]; [left; auto|]. right.
  destruct (upper_bound x x0) as [|k] eqn:Ek; [left; auto|]. right. exists k. split; [reflexivity|]. split; [lia|]. split; [|reflexivity].
  split; [apply upper_bound_lt; lia|rewrite <- Ek; apply upper_bound_ge; lia].
Qed.
