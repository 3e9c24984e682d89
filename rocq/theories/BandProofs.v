(** Proofs about tridiagonal matrices. *)
From Coq Require Import Reals List Arith Bool Lia Lra.
From Verif Require Import Base Vec InterpModel InterpProofs BandModel BandSpec.
Import ListNotations.
Open Scope R_scope.
Notation "l .[ k ]" := (nth k l 0) (at level 2, format "l .[ k ]").

(** * Sums *)
Lemma sum_ext n f g : (forall j, (j < n)%nat -> f j = g j) -> sum n f = sum n g.
Proof. induction n as [|n IH]; intros H; cbn; [reflexivity|]. rewrite IH, H by (intros; try apply H; lia). reflexivity. Qed.
Lemma sum_zero n : sum n (fun _ => 0) = 0.
Proof. induction n as [|n IH]; cbn; [reflexivity|]. rewrite IH. ring. Qed.
Lemma sum_plus n f g : sum n (fun j => f j + g j) = sum n f + sum n g.
Proof. induction n as [|n IH]; cbn; [ring|]. rewrite IH. ring. Qed.
Lemma sum_scal n c f : sum n (fun j => c * f j) = c * sum n f.
Proof. induction n as [|n IH]; cbn; [ring|]. rewrite IH. ring. Qed.
Lemma sum_one n k c : sum n (fun j => if (j =? k)%nat then c else 0) = if (k <? n)%nat then c else 0.
Proof.
  induction n as [|n IH]; cbn [sum]; [reflexivity|]. rewrite IH.
  destruct (Nat.ltb_spec k n), (Nat.ltb_spec k (S n)), (Nat.eqb_spec n k); try lia; ring.
Qed.

(** * The matrix *)
Definition wf (t : tri) (n : nat) : Prop := (0 < n)%nat /\ length (diag t) = n /\ length (above t) = (n - 1)%nat /\ length (below t) = (n - 1)%nat.
Definition band (d a b : list R) (i j : nat) : R :=
  if (i =? j)%nat then d.[i] else if (j =? S i)%nat then a.[i] else if (i =? S j)%nat then b.[j] else 0.
Definition entry (t : tri) : nat -> nat -> R := band (diag t) (above t) (below t).
Lemma band_transposed d a b i j : transposed (band d a b) i j = band d b a i j.
Proof. unfold transposed, band. destruct (Nat.eqb_spec i j), (Nat.eqb_spec j i); subst; try congruence; try lia. destruct (Nat.eqb_spec i (S j)), (Nat.eqb_spec j (S i)); try lia; reflexivity. Qed.
Lemma tri_at_ok t n i j : wf t n -> (i < n)%nat -> (j < n)%nat -> tri_at t i j = Ok (entry t i j).
Proof.
  intros (H0 & H1 & H2 & H3) Hi Hj. unfold tri_at, entry, band.
  destruct (Nat.ltb_spec (S i) j), (Nat.ltb_spec (S j) i); cbn [orb]; destruct (Nat.eqb_spec i j), (Nat.eqb_spec j (S i)), (Nat.eqb_spec i (S j)); try lia; try reflexivity.
  - now rewrite (get_ok _ _ 0) by lia.
  - destruct (Nat.ltb_spec j i); [lia|]. now rewrite (get_ok _ _ 0) by lia.
  - destruct (Nat.ltb_spec j i); [|lia]. now rewrite (get_ok _ _ 0) by lia.
Qed.
Lemma tri_set_ok t n i j v : wf t n -> (i < n)%nat -> (j < n)%nat -> (j <= S i)%nat -> (i <= S j)%nat ->
  exists t', tri_set t i j v = Ok t' /\ wf t' n /\ forall p q, (p < n)%nat -> (q < n)%nat -> entry t' p q = if (p =? i)%nat && (q =? j)%nat then v else entry t p q.
Proof.
  intros (H0 & H1 & H2 & H3) Hi Hj Hij Hji. unfold tri_set. destruct (Nat.ltb_spec (S i) j); [lia|]. destruct (Nat.ltb_spec (S j) i); [lia|]. cbn [orb].
  destruct (Nat.eqb_spec i j) as [Eij|N]; [|destruct (Nat.ltb_spec j i)]; rewrite put_ok by lia; cbn [obind]; eexists; (split; [reflexivity|]); (split; [repeat split; cbn [diag above below]; rewrite ?set_nth_length; lia|]);
    intros p q Hp Hq; unfold entry, band; cbn [diag above below];
    destruct (Nat.eqb_spec p q), (Nat.eqb_spec p i), (Nat.eqb_spec q j), (Nat.eqb_spec q (S p)), (Nat.eqb_spec p (S q)); cbn [andb]; try lia; try reflexivity;
    rewrite ?nth_set_nth by lia;
    repeat match goal with |- context [(?a =? ?b)%nat] => destruct (Nat.eqb_spec a b) end; try lia; try reflexivity.
Qed.

(** * Multiplication *)
Lemma add_products_ok c : forall r x ri xi, (ri + length c <= length r)%nat -> (xi + length c <= length x)%nat ->
  exists r', add_products r x c ri xi = Ok r' /\ length r' = length r /\
    forall j, r'.[j] = r.[j] + (if (ri <=? j)%nat && (j <? ri + length c)%nat then x.[xi + (j - ri)] * c.[j - ri] else 0).
Proof.
  induction c as [|v c IH]; intros r x ri xi Hr Hx; cbn [add_products length] in *.
  - exists r. split; [reflexivity|]. split; [reflexivity|]. intros j. destruct (Nat.leb_spec ri j), (Nat.ltb_spec j (ri + 0)); cbn [andb]; try lia; ring.
  - rewrite (get_ok x xi 0), (get_ok r ri 0) by lia. cbn [obind]. rewrite put_ok by lia. cbn [obind].
    destruct (IH (set_nth r ri (r.[ri] + x.[xi] * v)) x (S ri) (S xi)) as (r' & E & L & N); [rewrite set_nth_length; lia|lia|]. exists r'. split; [exact E|]. split; [now rewrite L, set_nth_length|].
    intros j. rewrite N, nth_set_nth by lia. destruct (Nat.eqb_spec j ri) as [->|Hj].
    + destruct (Nat.leb_spec (S ri) ri); [lia|]. cbn [andb]. destruct (Nat.leb_spec ri ri); [|lia]. destruct (Nat.ltb_spec ri (ri + S (length c))); [|lia]. cbn [andb]. rewrite Nat.sub_diag, Nat.add_0_r. cbn [nth]. ring.
    + destruct (Nat.leb_spec (S ri) j), (Nat.leb_spec ri j), (Nat.ltb_spec j (S ri + length c)), (Nat.ltb_spec j (ri + S (length c))); cbn [andb]; try lia; try ring.
      replace (j - ri)%nat with (S (j - S ri)) by lia. cbn [nth]. replace (S xi + (j - S ri))%nat with (xi + S (j - S ri))%nat by lia. reflexivity.
Qed.
Lemma combine_nth_mult x : forall d j, length x = length d -> (map (fun p => fst p * snd p) (combine x d)).[j] = x.[j] * d.[j].
Proof.
  induction x as [|a x IH]; intros [|b d] j H; cbn in H; try discriminate.
  - destruct j; cbn; ring.
  - destruct j as [|j]; cbn [combine map nth fst snd]; [reflexivity|]. apply IH. lia.
Qed.
(** the row of a band matrix as a sum *)
Definition lower (b x : list R) (i : nat) : R := match i with O => 0 | S k => b.[k] * x.[k] end.
Lemma band_row d a b x n i : length d = n -> length a = (n - 1)%nat -> length x = n -> (i < n)%nat ->
  sum n (fun j => band d a b i j * x.[j]) = d.[i] * x.[i] + a.[i] * x.[S i] + lower b x i.
Proof.
  intros Hd Ha Hx Hi.
  rewrite (sum_ext n _ (fun j => (if (j =? i)%nat then d.[i] * x.[i] else 0) + ((if (j =? S i)%nat then a.[i] * x.[S i] else 0) + (if (j =? i - 1)%nat then lower b x i else 0)))).
  - rewrite !sum_plus, !sum_one. destruct (Nat.ltb_spec i n); [|lia]. destruct (Nat.ltb_spec (i - 1) n); [|lia]. destruct (Nat.ltb_spec (S i) n) as [|H2]; [ring|].
    rewrite (nth_overflow a) by lia. ring.
  - intros j Hj. unfold band, lower. destruct i as [|i].
    + destruct (Nat.eqb_spec 0 j), (Nat.eqb_spec j 0), (Nat.eqb_spec j 1), (Nat.eqb_spec j (0 - 1)); try lia; subst; try ring. destruct (Nat.eqb_spec 0 (S j)); [lia|ring].
    + destruct (Nat.eqb_spec (S i) j), (Nat.eqb_spec j (S i)), (Nat.eqb_spec j (S (S i))), (Nat.eqb_spec j (S i - 1)), (Nat.eqb_spec (S i) (S j)); try lia; subst; try ring.
      replace (S i - 1)%nat with i by lia. ring.
Qed.
Lemma tri_multiply_ok x d a b n : (0 < n)%nat -> length x = n -> length d = n -> length a = (n - 1)%nat -> length b = (n - 1)%nat ->
  exists r, tri_multiply x d a b = Ok r /\ product n (band d a b) x r.
Proof.
  intros H0 Hx Hd Ha Hb. unfold tri_multiply. rewrite Hx, Hd, Nat.eqb_refl. set (r0 := map _ _).
  assert (length r0 = n) as L0 by (unfold r0; rewrite map_length, combine_length; lia).
  destruct (add_products_ok a r0 x 0 1) as (r1 & E1 & L1 & N1); [lia|lia|]. rewrite E1. cbn [obind].
  destruct (add_products_ok b r1 x 1 0) as (r2 & E2 & L2 & N2); [lia|lia|]. exists r2. split; [exact E2|]. split; [lia|].
  intros i Hi. rewrite (band_row d a b x n i) by assumption. rewrite N2, N1. unfold r0. rewrite combine_nth_mult by lia.
  destruct (Nat.leb_spec 0 i); [|lia]. cbn [andb]. rewrite Nat.sub_0_r, Nat.add_0_l. replace (1 + i)%nat with (S i) by lia.
  assert ((if (i <? length a)%nat then x.[S i] * a.[i] else 0) = a.[i] * x.[S i]) as ->.
  { destruct (Nat.ltb_spec i (length a)); [ring|]. rewrite (nth_overflow a) by lia. ring. }
  unfold lower. destruct i as [|i]; [cbn [Nat.leb andb]; ring|]. destruct (Nat.leb_spec 1 (S i)); [|lia]. destruct (Nat.ltb_spec (S i) (1 + length b)); [|lia]. cbn [andb].
  replace (S i - 1)%nat with i by lia. rewrite Nat.add_0_l. ring.
Qed.

(** * The decomposition *)
Lemma is_zero_false x : is_zero x = false -> x <> 0.
Proof. intros H ->. rewrite is_zero_0 in H. discriminate. Qed.
(** gamma carried into element j *)
Definition carry (a b bi : list R) (g : R) (j : nat) : R := match j with O => g | S k => a.[k] * bi.[k] * b.[k] end.
Lemma beta_ok d : forall a b g r, beta_inverse d a b g = Ok r ->
  length r = length d /\ d <> [] /\ forall j, (j < length d)%nat -> is_zero (d.[j] - carry a b r g j) = false /\ r.[j] = 1 / (d.[j] - carry a b r g j).
Proof.
  induction d as [|d0 d IH]; intros a b g r H; [discriminate|]. cbn [beta_inverse] in H. destruct (is_zero (d0 - g)) eqn:Z; [discriminate|]. destruct d as [|d1 d].
  - injection H as <-. split; [reflexivity|]. split; [discriminate|]. intros [|j] Hj; [|cbn in Hj; lia]. cbn [nth carry]. auto.
  - destruct a as [|a0 a]; [discriminate|]. destruct b as [|b0 b]; [discriminate|]. destruct (beta_inverse (d1 :: d) a b _) as [r'| | |] eqn:E; cbn [obind] in H; try discriminate. injection H as <-.
    destruct (IH _ _ _ _ E) as (L & _ & N). split; [cbn [length] in *; lia|]. split; [discriminate|]. intros [|j] Hj; [cbn [nth carry]; auto|].
    specialize (N j ltac:(cbn [length] in *; lia)). destruct j as [|j]; cbn [nth carry] in *; exact N.
Qed.
Lemma eliminate_ok b : forall p a bi, (length b <= length a)%nat -> (length b <= length bi)%nat -> exists w, eliminate p b a bi = Ok w /\ length w = length b /\
  forall j, (j < length b)%nat -> w.[j] = (b.[j] - a.[j] * (p :: w).[j]) * bi.[j].
Proof.
  induction b as [|b0 b IH]; intros p a bi Ha Hbi; cbn [eliminate].
  - exists []. repeat split. intros j Hj. cbn in Hj. lia.
  - destruct a as [|a0 a]; [cbn in Ha; lia|]. destruct bi as [|i0 bi]; [cbn in Hbi; lia|]. cbn [length] in *.
    destruct (IH ((b0 - a0 * p) * i0) a bi ltac:(lia) ltac:(lia)) as (w & E & L & N). rewrite E. cbn [obind]. eexists. split; [reflexivity|]. split; [cbn; lia|].
    intros [|j] Hj; [reflexivity|]. cbn [nth]. apply N. lia.
Qed.
Lemma substitute_ok w : forall bl bi, (length w <= S (length bl))%nat -> (length w <= length bi)%nat -> exists y, substitute w bl bi = Ok y /\ length y = length w /\
  forall j, (j < length w)%nat -> y.[j] = w.[j] - (if (S j <? length w)%nat then bl.[j] * bi.[j] * y.[S j] else 0).
Proof.
  induction w as [|v w IH]; intros bl bi Hb Hi; cbn [substitute].
  - exists []. repeat split. intros j Hj. cbn in Hj. lia.
  - destruct w as [|v1 w].
    + exists [v]. split; [reflexivity|]. split; [reflexivity|]. intros [|j] Hj; [cbn; ring|cbn in Hj; lia].
    + destruct bl as [|b0 bl]; [cbn in Hb; lia|]. destruct bi as [|i0 bi]; [cbn in Hi; lia|]. destruct (IH bl bi ltac:(cbn in *; lia) ltac:(cbn in *; lia)) as (y & E & L & N).
      rewrite E. cbn [obind]. eexists. split; [reflexivity|]. split; [cbn [length] in *; lia|]. destruct y as [|y0 y]; [cbn in L; lia|].
      intros [|j] Hj; [reflexivity|]. change ((?a :: ?b).[S j]) with (b.[j]). cbn [nth hd length] in *. specialize (N j ltac:(lia)). cbn [nth length] in N. rewrite N.
      destruct (Nat.ltb_spec (S (S j)) (S (S (length w)))), (Nat.ltb_spec (S j) (S (length w))); try lia; reflexivity.
Qed.

Section Solve.
(** the system with diagonal d, a above it and b below it; tri_solve gets the lower band as its third argument *)
Variables (d a b bi : list R) (n : nat).
Hypotheses (H0 : (0 < n)%nat) (Hd : length d = n) (Ha : length a = (n - 1)%nat) (Hb : length b = (n - 1)%nat).
Hypothesis Hbi : length bi = n.
Hypothesis Hbeta : forall j, (j < n)%nat -> d.[j] - carry a b bi 0 j <> 0 /\ bi.[j] = 1 / (d.[j] - carry a b bi 0 j).
(** the intermediate vector *)
Definition mids (rhs w : list R) : Prop := forall j, (j < n)%nat -> w.[j] = (rhs.[j] - match j with O => 0 | S k => b.[k] * w.[k] end) * bi.[j].
Definition backs (w y : list R) : Prop := forall j, (j < n)%nat -> y.[j] = w.[j] - a.[j] * bi.[j] * y.[S j].
Lemma tri_solve_ok rhs : length rhs = n -> exists w y, tri_solve rhs d b a bi = Ok y /\ length y = n /\ mids rhs w /\ backs w y.
Proof using H0 Hd Ha Hb Hbi Hbeta.
  intros Hr. unfold tri_solve. rewrite Hr, Hd, Nat.eqb_refl. destruct rhs as [|r0 rhs]; [cbn in Hr; lia|]. destruct bi as [|i0 bi'] eqn:Ebi; [cbn in Hbi; lia|].
  cbn [length] in *. destruct (eliminate_ok rhs (r0 * i0) b bi' ltac:(lia) ltac:(lia)) as (w & E & L & N). rewrite E. cbn [obind].
  destruct (substitute_ok (r0 * i0 :: w) a (i0 :: bi') ltac:(cbn [length]; lia) ltac:(cbn [length]; lia)) as (y & Ey & Ly & Ny). exists (r0 * i0 :: w), y. split; [exact Ey|]. cbn [length] in Ly, Ny. split; [lia|]. split.
  - intros [|j] Hj; [cbn [nth]; rewrite Ebi; cbn [nth]; ring|]. change ((?h :: ?t).[S j]) with (t.[j]). rewrite (N j ltac:(lia)), Ebi. reflexivity.
  - intros j Hj. rewrite (Ny j ltac:(lia)), Ebi. destruct (Nat.ltb_spec (S j) (S (length w))); [reflexivity|]. rewrite (nth_overflow y) by lia. ring.
Qed.
Lemma solve_is_solution rhs w y : length y = n -> length rhs = n -> mids rhs w -> backs w y -> product n (band d a b) y rhs.
Proof using H0 Hd Ha Hb Hbi Hbeta.
  intros Hy Hr Hw Hback. split; [exact Hr|]. intros i Hi. rewrite (band_row d a b y n i) by assumption.
  destruct (Hbeta i Hi) as [Hne Hbi_i]. specialize (Hw i Hi) as W. specialize (Hback i Hi) as B. unfold lower. destruct i as [|i].
  - cbn [carry] in *. set (y1 := y.[1]) in *. clearbody y1. rewrite B, W, Hbi_i. field. lra.
  - assert (i < n)%nat as Hi' by lia. specialize (Hback i Hi') as B'. cbn [carry] in *. set (be := d.[S i] - a.[i] * bi.[i] * b.[i]) in *.
    assert (d.[S i] = be + a.[i] * bi.[i] * b.[i]) as -> by (unfold be; ring). clearbody be. rewrite B'. set (y2 := y.[S (S i)]) in *. clearbody y2. 
    assert (be * y.[S i] + a.[S i] * y2 = rhs.[S i] - b.[i] * w.[i]) as E by (rewrite B, W, Hbi_i; field; exact Hne). lra.
Qed.
Lemma solution_is_unique rhs w y x : length x = n -> product n (band d a b) x rhs -> mids rhs w -> backs w y -> forall j, (j < n)%nat -> y.[j] = x.[j].
Proof using H0 Hd Ha Hb Hbi Hbeta.
  intros Hx [_ P] Hw Hback.
  assert (forall j, (j < n)%nat -> w.[j] = x.[j] + a.[j] * bi.[j] * x.[S j]) as F.
  { induction j as [|j IH]; intros Hj; destruct (Hbeta _ Hj) as [Hne Ebi]; pose proof (P _ Hj) as Pj; rewrite (band_row d a b x n _) in Pj by assumption; rewrite (Hw _ Hj), Pj; unfold lower; cbn [carry] in *.
    - rewrite Ebi. field. lra.
    - rewrite (IH ltac:(lia)). set (be := d.[S j] - a.[j] * bi.[j] * b.[j]) in *. assert (d.[S j] = be + a.[j] * bi.[j] * b.[j]) as -> by (unfold be; ring). clearbody be. rewrite Ebi. field. exact Hne. }
  assert (forall k j, (j + S k = n)%nat -> y.[j] = x.[j]) as G.
  { induction k as [|k IH]; intros j Hj; rewrite (Hback j), (F j) by lia.
    - rewrite (nth_overflow a) by lia. ring.
    - rewrite (IH (S j)) by lia. ring. }
  intros j Hj. apply (G (n - S j)%nat). lia.
Qed.
End Solve.

Lemma same_eq a : forall b, same a b = true -> a = b.
Proof. induction a as [|x a IH]; intros [|y b] H; cbn in H; try discriminate; [reflexivity|]. destruct (Req_EM_T x y) as [->|]; [|discriminate]. f_equal. now apply IH. Qed.
Lemma carry_swap a b bi j : carry a b bi 0 j = carry b a bi 0 j.
Proof. destruct j; cbn; ring. Qed.
(** what a successful decomposition knows *)
Definition decomposes (t : tri) (n : nat) (c : decomposition) : Prop :=
  exists bi, length bi = n /\ (forall j, (j < n)%nat -> (diag t).[j] - carry (above t) (below t) bi 0 j <> 0 /\ bi.[j] = 1 / ((diag t).[j] - carry (above t) (below t) bi 0 j)) /\
    (forall x, d_multiply_left c x = tri_multiply x (diag t) (above t) (below t)) /\ (forall x, d_multiply_right c x = tri_multiply x (diag t) (below t) (above t)) /\
    (forall r, solve_left c r = tri_solve r (diag t) (below t) (above t) bi) /\ (forall r, solve_right c r = tri_solve r (diag t) (above t) (below t) bi).
Lemma decompose_ok t n c : wf t n -> decompose t = Ok c -> decomposes t n c.
Proof.
  intros (H0 & H1 & H2 & H3) H. unfold decompose in H. destruct (same (above t) (below t)) eqn:E.
  - apply same_eq in E. destruct (beta_inverse (diag t) (above t) (above t) 0) as [bi| | |] eqn:B; cbn [obind] in H; try discriminate. injection H as <-.
    destruct (beta_ok _ _ _ _ _ B) as (L & _ & N). exists bi. rewrite <- E. repeat split; auto; try lia; rewrite <- ?H1 in *; destruct (N j) as [Z V]; auto. now apply is_zero_false.
  - destruct (beta_inverse (diag t) (above t) (below t) 0) as [bi| | |] eqn:B; cbn [obind] in H; try discriminate. injection H as <-.
    destruct (beta_ok _ _ _ _ _ B) as (L & _ & N). exists bi. repeat split; auto; try lia; rewrite <- ?H1 in *; destruct (N j) as [Z V]; auto. now apply is_zero_false.
Qed.
Lemma product_swap n d a b x r : product n (band d b a) x r <-> product n (transposed (band d a b)) x r.
Proof.
  unfold product. split; intros [L P]; (split; [exact L|]); intros i Hi; rewrite P by exact Hi; apply sum_ext; intros j Hj; now rewrite band_transposed.
Qed.
Lemma solve_left_ok t n c r : wf t n -> decomposes t n c -> length r = n -> exists y, solve_left c r = Ok y /\ length y = n /\ product n (entry t) y r /\
  forall x, length x = n -> product n (entry t) x r -> x = y.
Proof.
  intros (H0 & H1 & H2 & H3) (bi & L & B & _ & _ & SL & _) Hr. rewrite SL. destruct (tri_solve_ok (diag t) (above t) (below t) bi n H0 H1 H2 H3 L B r Hr) as (w & y & E & Ly & W & K).
  exists y. split; [exact E|]. split; [exact Ly|]. split; [now apply (solve_is_solution (diag t) (above t) (below t) bi n) with w|].
  intros x Hx P. apply (nth_ext _ _ 0 0); [lia|]. intros j Hj. symmetry. apply (solution_is_unique (diag t) (above t) (below t) bi n) with r w; auto. lia.
Qed.
Lemma solve_right_ok t n c r : wf t n -> decomposes t n c -> length r = n -> exists y, solve_right c r = Ok y /\ length y = n /\ product n (transposed (entry t)) y r /\
  forall x, length x = n -> product n (transposed (entry t)) x r -> x = y.
Proof.
  intros (H0 & H1 & H2 & H3) (bi & L & B & _ & _ & _ & SR) Hr. rewrite SR.
  assert (forall j, (j < n)%nat -> (diag t).[j] - carry (below t) (above t) bi 0 j <> 0 /\ bi.[j] = 1 / ((diag t).[j] - carry (below t) (above t) bi 0 j)) as B'.
  { intros j Hj. rewrite (carry_swap (below t) (above t)). now apply B. }
  destruct (tri_solve_ok (diag t) (below t) (above t) bi n H0 H1 H3 H2 L B' r Hr) as (w & y & E & Ly & W & K).
  exists y. split; [exact E|]. split; [exact Ly|]. split; [apply product_swap; now apply (solve_is_solution (diag t) (below t) (above t) bi n) with w|].
  intros x Hx P. apply product_swap in P. apply (nth_ext _ _ 0 0); [lia|]. intros j Hj. symmetry. apply (solution_is_unique (diag t) (below t) (above t) bi n) with r w; auto. lia.
Qed.
(** rows in which the diagonal outweighs its neighbours by EPSILON *)
Definition heavy (d a b : list R) (n : nat) : Prop := forall i, (i < n)%nat -> epsilon + Rabs a.[i] + Rabs (match i with O => 0 | S k => b.[k] end) <= Rabs d.[i].
Lemma epsilon_pos : 0 < epsilon.
Proof. unfold epsilon. lra. Qed.
Lemma is_zero_big x : epsilon <= Rabs x -> is_zero x = false.
Proof. intros H. destruct (is_zero x) eqn:E; [|reflexivity]. apply is_zero_inv in E. lra. Qed.
Lemma beta_succeeds d : forall a b g p, d <> [] -> (length d <= S (length a))%nat -> (length d <= S (length b))%nat -> Rabs g <= p ->
  (forall i, (i < length d)%nat -> epsilon + Rabs a.[i] + (match i with O => p | S k => Rabs b.[k] end) <= Rabs d.[i]) -> exists r, beta_inverse d a b g = Ok r.
Proof.
  induction d as [|d0 d IH]; intros a b g p Hne Ha Hb Hg H; [congruence|]. cbn [beta_inverse]. pose proof epsilon_pos as He.
  pose proof (H 0%nat ltac:(cbn; lia)) as H0. cbn [nth] in H0. pose proof (Rabs_triang_inv d0 g) as T. pose proof (Rabs_pos a.[0]) as Pa.
  assert (epsilon + Rabs a.[0] <= Rabs (d0 - g)) as Hbe by lra. rewrite is_zero_big by lra. destruct d as [|d1 d]; [eauto|].
  destruct a as [|a0 a]; [cbn in Ha; lia|]. destruct b as [|b0 b]; [cbn in Hb; lia|]. cbn [nth] in *.
  destruct (IH a b (a0 * (1 / (d0 - g)) * b0) (Rabs b0)) as [r E]; [discriminate|cbn in *; lia|cbn in *; lia| | |rewrite E; cbn [obind]; eauto].
  - assert (d0 - g <> 0) as Hnz by (intros Q; rewrite Q, Rabs_R0 in Hbe; lra). unfold Rdiv. rewrite Rmult_1_l, !Rabs_mult, Rabs_inv.
    assert (Rabs a0 * / Rabs (d0 - g) <= 1) as Q. { apply (Rmult_le_reg_r (Rabs (d0 - g))); [lra|]. rewrite Rmult_assoc, Rinv_l by lra. lra. }
    pose proof (Rabs_pos b0). rewrite <- (Rmult_1_l (Rabs b0)) at 2. now apply Rmult_le_compat_r.
  - intros i Hi. specialize (H (S i) ltac:(cbn in *; lia)). cbn [nth] in H. destruct i; exact H.
Qed.
Lemma decompose_succeeds t n : wf t n -> heavy (diag t) (above t) (below t) n -> exists c, decompose t = Ok c.
Proof.
  intros (H0 & H1 & H2 & H3) H. unfold decompose. destruct (same (above t) (below t)) eqn:E.
  - apply same_eq in E. destruct (beta_succeeds (diag t) (above t) (above t) 0 0) as [r Q]; [destruct (diag t); [cbn in H1; lia|discriminate]|lia|lia|rewrite Rabs_R0; lra| |rewrite Q; cbn [obind]; eauto].
    intros i Hi. specialize (H i ltac:(lia)). rewrite E in *. destruct i; [rewrite Rabs_R0 in H|]; lra.
  - destruct (beta_succeeds (diag t) (above t) (below t) 0 0) as [r Q]; [destruct (diag t); [cbn in H1; lia|discriminate]|lia|lia|rewrite Rabs_R0; lra| |rewrite Q; cbn [obind]; eauto].
    intros i Hi. specialize (H i ltac:(lia)). destruct i; [rewrite Rabs_R0 in H|]; lra.
Qed.
Lemma tri_new_ok n : (0 < n)%nat -> exists t, tri_new n = Ok t /\ wf t n /\ forall i j, entry t i j = 0.
Proof.
  intros H. destruct n as [|k]; [lia|]. eexists. split; [reflexivity|]. split.
  - repeat split; cbn [diag above below]; rewrite ?repeat_length; lia.
  - intros i j. unfold entry, band. cbn [diag above below].
    assert (forall m q, (repeat 0 m).[q] = 0) as Z by (intros m q; destruct (Nat.lt_ge_cases q m); [apply nth_repeat|apply nth_overflow; rewrite repeat_length; lia]).
    rewrite !Z. now repeat destruct (_ =? _)%nat.
Qed.
Lemma built_wf n t : built n t -> wf t n.
Proof.
  induction 1 as [t E|t i j v t' _ IH Hi Hj E].
  - destruct n as [|k]; [discriminate|]. destruct (tri_new_ok (S k) ltac:(lia)) as (t' & E' & W & _). congruence.
  - unfold tri_set in E. destruct ((S i <? j)%nat || (S j <? i)%nat) eqn:B; [discriminate|]. apply orb_false_elim in B as [B1 B2]. apply Nat.ltb_ge in B1, B2.
    destruct (tri_set_ok t n i j v IH Hi Hj B1 B2) as (t'' & E' & W & _). unfold tri_set in E'. destruct (Nat.ltb_spec (S i) j); [lia|]. destruct (Nat.ltb_spec (S j) i); [lia|]. cbn [orb] in E'. congruence.
Qed.
Lemma reads_entry t n m : wf t n -> reads t n m -> forall i j, (i < n)%nat -> (j < n)%nat -> entry t i j = m i j.
Proof. intros W H i j Hi Hj. specialize (H i j Hi Hj). rewrite (tri_at_ok t n) in H by assumption. congruence. Qed.
Lemma sum_nonneg n f : (forall j, (j < n)%nat -> 0 <= f j) -> 0 <= sum n f.
Proof. induction n as [|n IH]; intros H; cbn; [lra|]. pose proof (H n ltac:(lia)). assert (0 <= sum n f) by (apply IH; intros; apply H; lia). lra. Qed.
Lemma dominant_heavy t n : wf t n -> dominant n (entry t) epsilon -> heavy (diag t) (above t) (below t) n.
Proof.
  intros (H0 & H1 & H2 & H3) D i Hi. specialize (D i Hi). unfold entry at 2 in D. unfold band in D at 1. rewrite Nat.eqb_refl in D.
  rewrite (sum_ext n _ (fun j => (if (j =? S i)%nat then Rabs (above t).[i] else 0) + (if (j =? i - 1)%nat then Rabs (match i with O => 0 | S k => (below t).[k] end) else 0))) in D.
  - rewrite sum_plus, !sum_one in D. destruct (Nat.ltb_spec (i - 1) n); [|lia]. destruct (Nat.ltb_spec (S i) n) as [Q|Q]; [lra|]. rewrite (nth_overflow (above t)) by lia. rewrite Rabs_R0. lra.
  - intros j Hj. unfold entry, band. destruct i as [|i].
    + destruct (Nat.eqb_spec j 0), (Nat.eqb_spec 0 j), (Nat.eqb_spec j 1), (Nat.eqb_spec j (0 - 1)); try lia; rewrite ?Rabs_R0; try ring. destruct (Nat.eqb_spec 0 (S j)); [lia|]. rewrite Rabs_R0. ring.
    + destruct (Nat.eqb_spec j (S i)), (Nat.eqb_spec (S i) j), (Nat.eqb_spec j (S (S i))), (Nat.eqb_spec j (S i - 1)), (Nat.eqb_spec (S i) (S j)); try lia; rewrite ?Rabs_R0; try ring.
      replace j with i by lia. ring.
Qed.
