(** Proofs about the finite-difference solver. *)
From Coq Require Import Reals List Arith Bool Lia Lra.
From Verif Require Import Base Vec InterpModel InterpSpec InterpProofs BandModel BandSpec BandProofs PdeSpec.
Import ListNotations.
Open Scope R_scope.

Ltac nat_ifs := repeat match goal with |- context [(?a =? ?b)%nat] => destruct (Nat.eqb_spec a b) | |- context [(?a <? ?b)%nat] => destruct (Nat.ltb_spec a b) | |- context [(?a <=? ?b)%nat] => destruct (Nat.leb_spec a b) end; cbn [andb negb]; try lia.

(** three cells of one row *)
Lemma set_row t n i l m u : wf t n -> (0 < i)%nat -> (S i < n)%nat ->
  exists t1 t2 t3, tri_set t i (i - 1) l = Ok t1 /\ tri_set t1 i i m = Ok t2 /\ tri_set t2 i (S i) u = Ok t3 /\ wf t3 n /\
    forall p q, (p < n)%nat -> (q < n)%nat -> entry t3 p q = if (p =? i)%nat then (if (q =? i)%nat then m else if (q =? S i)%nat then u else if (S q =? i)%nat then l else 0) else entry t p q.
Proof.
  intros W Hi Hn. destruct (tri_set_ok t n i (i - 1) l W ltac:(lia) ltac:(lia) ltac:(lia) ltac:(lia)) as (t1 & E1 & W1 & N1).
  destruct (tri_set_ok t1 n i i m W1 ltac:(lia) ltac:(lia) ltac:(lia) ltac:(lia)) as (t2 & E2 & W2 & N2).
  destruct (tri_set_ok t2 n i (S i) u W2 ltac:(lia) ltac:(lia) ltac:(lia) ltac:(lia)) as (t3 & E3 & W3 & N3).
  exists t1, t2, t3. repeat (split; [assumption|]). intros p q Hp Hq. rewrite N3, N2, N1 by assumption. nat_ifs; try reflexivity.
  unfold entry, band. nat_ifs; reflexivity.
Qed.
Lemma set_row' t n i l m u : wf t n -> (0 < i)%nat -> (S i < n)%nat ->
  exists t1 t2 t3, tri_set t i (i - 1) l = Ok t1 /\ tri_set t1 i (S i) u = Ok t2 /\ tri_set t2 i i m = Ok t3 /\ wf t3 n /\
    forall p q, (p < n)%nat -> (q < n)%nat -> entry t3 p q = if (p =? i)%nat then (if (q =? i)%nat then m else if (q =? S i)%nat then u else if (S q =? i)%nat then l else 0) else entry t p q.
Proof.
  intros W Hi Hn. destruct (tri_set_ok t n i (i - 1) l W ltac:(lia) ltac:(lia) ltac:(lia) ltac:(lia)) as (t1 & E1 & W1 & N1).
  destruct (tri_set_ok t1 n i (S i) u W1 ltac:(lia) ltac:(lia) ltac:(lia) ltac:(lia)) as (t2 & E2 & W2 & N2).
  destruct (tri_set_ok t2 n i i m W2 ltac:(lia) ltac:(lia) ltac:(lia) ltac:(lia)) as (t3 & E3 & W3 & N3).
  exists t1, t2, t3. repeat (split; [assumption|]). intros p q Hp Hq. rewrite N3, N2, N1 by assumption. nat_ifs; try reflexivity.
  unfold entry, band. nat_ifs; reflexivity.
Qed.
Definition coef_l (c : R -> R -> R * R * R) (l u : R) : R := fst (fst (c l u)).
Definition coef_m (c : R -> R -> R * R * R) (l u : R) : R := snd (fst (c l u)).
Definition coef_u (c : R -> R -> R * R * R) (l u : R) : R := snd (c l u).
Definition diff (c : R -> R -> R * R * R) (x : mesh) := difference (locations x) (coef_l c) (coef_m c) (coef_u c).
Lemma fd_rows_ok coef x n k : n = length (locations x) -> grid x -> forall i t, wf t n -> (0 < i)%nat -> (i + k < n)%nat ->
  exists t', fd_rows coef x k i t = Ok t' /\ wf t' n /\ forall p q, (p < n)%nat -> (q < n)%nat -> entry t' p q = if (i <=? p)%nat && (p <? i + k)%nat then diff coef x p q else entry t p q.
Proof.
  intros Hn (Hg & Hinc & Lp & Lm & HD). induction k as [|k IH]; intros i t W Hi Hk; cbn [fd_rows].
  - exists t. split; [reflexivity|]. split; [exact W|]. intros p q Hp Hq. nat_ifs; reflexivity.
  - rewrite (get_ok (dminus x) i 0), (get_ok (dplus x) i 0) by lia. cbn [obind].
    assert ((dminus x).[i] = (locations x).[i] - (locations x).[i - 1]) as El by (destruct (HD (i - 1)%nat ltac:(lia)) as [_ Q]; replace (S (i - 1)) with i in Q by lia; exact Q).
    assert ((dplus x).[i] = (locations x).[S i] - (locations x).[i]) as Eu by (apply HD; lia). rewrite El, Eu. set (dl := _ - _). set (du := _ - _).
    destruct (coef dl du) as [[l m] u] eqn:Ec. destruct (set_row t n i l m u W Hi ltac:(lia)) as (t1 & t2 & t3 & E1 & E2 & E3 & W3 & N3). rewrite E1. cbn [obind]. rewrite E2. cbn [obind]. rewrite E3. cbn [obind].
    destruct (IH (S i) t3 W3 ltac:(lia) ltac:(lia)) as (t' & E & W' & N). exists t'. split; [exact E|]. split; [exact W'|]. intros p q Hp Hq. rewrite N, N3 by assumption.
    destruct (Nat.eqb_spec p i) as [->|Hpi]; [|nat_ifs; reflexivity]. nat_ifs; unfold diff, difference, coef_l, coef_m, coef_u; fold dl du; rewrite Ec; cbn [fst snd]; nat_ifs; reflexivity.
Qed.
Lemma fd_operator_ok coef x : grid x -> exists t, fd_operator coef x = Ok t /\ wf t (length (locations x)) /\
  forall p q, (p < length (locations x))%nat -> (q < length (locations x))%nat -> entry t p q = diff coef x p q.
Proof.
  intros G. pose proof G as (Hn & _). set (n := length (locations x)) in *. unfold fd_operator. fold n. destruct (Nat.ltb_spec 2 n); [|lia].
  destruct (tri_new_ok n ltac:(lia)) as (t & E & W & Z). rewrite E. cbn [obind]. destruct (tri_set_ok t n 0 0 0 W ltac:(lia) ltac:(lia) ltac:(lia) ltac:(lia)) as (t0 & E0 & W0 & N0). rewrite E0. cbn [obind].
  destruct (fd_rows_ok coef x n (n - 2) eq_refl G 1 t0 W0 ltac:(lia) ltac:(lia)) as (t1 & E1 & W1 & N1). rewrite E1. cbn [obind].
  destruct (tri_set_ok t1 n (n - 1) (n - 1) 0 W1 ltac:(lia) ltac:(lia) ltac:(lia) ltac:(lia)) as (t2 & E2 & W2 & N2). exists t2. split; [exact E2|]. split; [exact W2|].
  intros p q Hp Hq. rewrite N2, N1, N0, Z by assumption. unfold diff, difference. fold n. nat_ifs; reflexivity.
Qed.
(** a row of a matrix times a vector, by its three cells *)
Lemma entry_row t n x i : wf t n -> length x = n -> (i < n)%nat -> sum n (fun j => entry t i j * x.[j]) = entry t i i * x.[i] + entry t i (S i) * x.[S i] + match i with O => 0 | S k => entry t i k * x.[k] end.
Proof.
  intros (H0 & H1 & H2 & H3) Hx Hi. unfold entry. rewrite (band_row _ _ _ x n i) by assumption. unfold band. rewrite Nat.eqb_refl. f_equal; [f_equal|].
  - nat_ifs. reflexivity.
  - unfold lower. destruct i; [reflexivity|]. nat_ifs. reflexivity.
Qed.
Lemma diff_row coef x n y i : n = length (locations x) -> grid x -> length y = n -> inner n i ->
  sum n (fun j => diff coef x i j * y.[j]) = (let l := (locations x).[i] - (locations x).[i - 1] in let u := (locations x).[S i] - (locations x).[i] in coef_l coef l u * y.[i - 1] + coef_m coef l u * y.[i] + coef_u coef l u * y.[S i]).
Proof.
  intros -> G Hy [Hi Hn]. destruct (fd_operator_ok coef x G) as (t & _ & W & N). rewrite (sum_ext _ _ (fun j => entry t i j * y.[j])) by (intros j Hj; rewrite N by lia; reflexivity).
  rewrite (entry_row t _ y i W Hy) by lia. destruct i as [|i]; [lia|]. rewrite !N by lia. unfold diff, difference. replace (S i - 1)%nat with i by lia. nat_ifs. cbv zeta. ring.
Qed.

(** * The solver *)
Record good (f : fd) (n : nat) : Prop := Good {
  g_n : (2 < n)%nat; g_r : length (rate f) = n; g_m : length (mu f) = n; g_v : length (var f) = n;
  g_d : wf (fdx f) n; g_dd : wf (fdxx f) n; g_a : wf (amat f) n;
  g_first : forall q, (0 < q < n)%nat -> entry (amat f) 0 q = 0;
  g_last : forall q, (q < n - 1)%nat -> entry (amat f) (n - 1) q = 0 }.
Definition gen (f : fd) (n : nat) := generator n (rate f) (mu f) (var f) (entry (fdx f)) (entry (fdxx f)).
Lemma calc_rows_ok f n th k : good f n -> forall i a, wf a n -> (i + k <= n)%nat -> exists a', calc_rows f 1 th k i a = Ok a' /\ wf a' n /\
  forall p q, (p < n)%nat -> (q < n)%nat -> entry a' p q =
    if (i <=? p)%nat && (p <? i + k)%nat then (if (0 <? p)%nat && (S p <? n)%nat then identity p q + th * gen f n p q else if (p =? q)%nat then 1 else entry a p q) else entry a p q.
Proof.
  intros G. induction k as [|k IH]; intros i a W Hk; cbn [calc_rows].
  - exists a. split; [reflexivity|]. split; [exact W|]. intros p q Hp Hq. nat_ifs; reflexivity.
  - destruct G as [Gn Gr Gm Gv Gd Gdd Ga _ _]. assert (length (diag (fdx f)) = n) as Ln by apply Gd. rewrite Ln.
    destruct (Nat.eqb_spec i 0) as [E0|E0]; [|destruct (Nat.eqb_spec i (n - 1)) as [E1|E1]]; cbn [negb andb].
    1,2: destruct (tri_set_ok a n i i 1 W ltac:(lia) ltac:(lia) ltac:(lia) ltac:(lia)) as (a1 & E & W1 & N1); rewrite E; cbn [obind];
         destruct (IH (S i) a1 W1 ltac:(lia)) as (a' & Ea & Wa & N); exists a'; (split; [exact Ea|]); (split; [exact Wa|]); intros p q Hp Hq; rewrite N, N1 by assumption; nat_ifs; try reflexivity.
    rewrite (get_ok (mu f) i 0), (get_ok (var f) i 0), (get_ok (rate f) i 0) by lia. cbn [obind].
    rewrite !(tri_at_ok (fdx f) n), !(tri_at_ok (fdxx f) n) by (auto; lia). cbn [obind].
    set (e q := th * ((mu f).[i] * entry (fdx f) i q + 1 / 2 * (var f).[i] * entry (fdxx f) i q)).
    destruct (set_row' a n i (e (i - 1)%nat) (e i + 1 - th * (rate f).[i]) (e (S i)) W ltac:(lia) ltac:(lia)) as (t1 & t2 & t3 & E1' & E2' & E3' & W3 & N3).
    fold (e (i - 1)%nat) (e (S i)) (e i). rewrite E1'. cbn [obind]. rewrite E2'. cbn [obind]. rewrite E3'. cbn [obind].
    destruct (IH (S i) t3 W3 ltac:(lia)) as (a' & Ea & Wa & N). exists a'. split; [exact Ea|]. split; [exact Wa|]. intros p q Hp Hq. rewrite N, N3 by assumption.
    destruct (Nat.eqb_spec p i) as [->|Hpi]; [|nat_ifs; reflexivity]. destruct (Nat.leb_spec (S i) i); [lia|]. destruct (Nat.leb_spec i i); [|lia]. destruct (Nat.ltb_spec i (i + S k)); [|lia]. cbn [andb].
    unfold gen, generator, identity. destruct (Nat.ltb_spec 0 i); [|lia]. destruct (Nat.ltb_spec (S i) n); [|lia]. cbn [andb]. unfold e.
    destruct (Nat.eqb_spec q i) as [->|Hq1]; [rewrite Nat.eqb_refl; field|]. destruct (Nat.eqb_spec i q); [lia|].
    destruct (Nat.eqb_spec q (S i)) as [->|Hq2]; [field|]. destruct (Nat.eqb_spec (S q) i) as [Hq3|Hq3]; [replace (i - 1)%nat with q by lia; field|].
    assert (entry (fdx f) i q = 0 /\ entry (fdxx f) i q = 0) as [-> ->] by (unfold entry, band; split; nat_ifs; reflexivity). field.
Qed.
Lemma calc_ax_ok f n th : good f n -> exists f', calc_ax f 1 th = Ok f' /\ good f' n /\ rate f' = rate f /\ mu f' = mu f /\ var f' = var f /\ fdx f' = fdx f /\ fdxx f' = fdxx f /\
  forall p q, (p < n)%nat -> (q < n)%nat -> entry (amat f') p q = identity p q + th * gen f n p q.
Proof.
  intros G. pose proof G as [Gn Gr Gm Gv Gd Gdd Ga G1 G2]. unfold calc_ax. assert (length (diag (fdx f)) = n) as Ln by apply Gd. rewrite Ln.
  destruct (calc_rows_ok f n th n G 0 (amat f) Ga ltac:(lia)) as (a & E & W & N). rewrite E. cbn [obind].
  assert (forall p q, (p < n)%nat -> (q < n)%nat -> entry a p q = identity p q + th * gen f n p q) as M.
  { intros p q Hp Hq. rewrite N by assumption. destruct (Nat.leb_spec 0 p); [|lia]. destruct (Nat.ltb_spec p (0 + n)); [|lia]. cbn [andb].
    destruct (Nat.ltb_spec 0 p), (Nat.ltb_spec (S p) n); cbn [andb]; try reflexivity; unfold gen, generator, identity; nat_ifs; try (rewrite Rmult_0_r; ring).
    all: rewrite ?G1, ?G2 by lia; try ring.
    - replace p with (n - 1)%nat by lia. rewrite G2 by lia. ring.
    - replace p with 0%nat by lia. rewrite G1 by lia. ring. }
  eexists. split; [reflexivity|]. split; [|repeat (split; [reflexivity|]); exact M]. constructor; cbn [rate mu var fdx fdxx amat with_a]; auto.
  - intros q Hq. rewrite M by lia. unfold gen, generator, identity. nat_ifs. ring.
  - intros q Hq. rewrite M by lia. unfold gen, generator, identity. nat_ifs. ring.
Qed.
Lemma product_ext n m1 m2 x b : (forall i j, (i < n)%nat -> (j < n)%nat -> m1 i j = m2 i j) -> product n m1 x b -> product n m2 x b.
Proof. intros H [L P]. split; [exact L|]. intros i Hi. rewrite P by exact Hi. apply sum_ext. intros j Hj. now rewrite H. Qed.
Lemma product_det n m x b b' : product n m x b -> product n m x b' -> b = b'.
Proof. intros [L P] [L' P']. apply (nth_ext _ _ 0 0); [lia|]. intros j Hj. rewrite P, P' by lia. reflexivity. Qed.
Lemma product_identity n x : length x = n -> product n identity x x.
Proof.
  intros H. split; [exact H|]. intros i Hi. rewrite (sum_ext n _ (fun j => if (j =? i)%nat then x.[i] else 0)).
  - rewrite sum_one. nat_ifs. reflexivity.
  - intros j Hj. unfold identity. nat_ifs; subst; try congruence; ring.
Qed.
Lemma multiply_left_ok t n x : wf t n -> length x = n -> exists y, multiply_left t x = Ok y /\ product n (entry t) x y.
Proof. intros (H0 & H1 & H2 & H3) Hx. apply tri_multiply_ok; assumption. Qed.
Lemma explicit_ok f n dt th res : good f n -> length res = n -> exists f1 mid,
  (if Req_EM_T th 1 then Ok (f, res) else do f1 <- calc_ax f 1 (dt * (1 - th)); do y <- multiply_left (amat f1) res; Ok (f1, y)) = Ok (f1, mid) /\
  good f1 n /\ (rate f1 = rate f /\ mu f1 = mu f /\ var f1 = var f /\ fdx f1 = fdx f /\ fdxx f1 = fdxx f) /\ length mid = n /\ product n (fun i j => identity i j + dt * (1 - th) * gen f n i j) res mid.
Proof.
  intros G Hr. destruct (Req_EM_T th 1) as [->|Hth].
  - exists f, res. split; [reflexivity|]. split; [exact G|]. split; [repeat split|]. split; [exact Hr|]. apply (product_ext n identity); [intros; ring|]. now apply product_identity.
  - destruct (calc_ax_ok f n (dt * (1 - th)) G) as (f1 & E & G1 & P1 & P2 & P3 & P4 & P5 & M). rewrite E. cbn [obind].
    destruct (multiply_left_ok (amat f1) n res (g_a _ _ G1) Hr) as (y & Ey & Py). rewrite Ey. cbn [obind]. exists f1, y. split; [reflexivity|]. split; [exact G1|]. split; [repeat split; assumption|].
    split; [apply Py|]. now apply (product_ext n (entry (amat f1))).
Qed.
Lemma gen_eq f f1 n : rate f1 = rate f -> mu f1 = mu f -> var f1 = var f -> fdx f1 = fdx f -> fdxx f1 = fdxx f -> gen f1 n = gen f n.
Proof. intros A B C D E. unfold gen. now rewrite A, B, C, D, E. Qed.
(** a step either throws, because the implicit matrix is not decomposed, or is a step of the theta scheme *)
Definition singular (f : fd) (dt th : R) (n : nat) : Prop := exists a, wf a n /\ (forall i j, (i < n)%nat -> (j < n)%nat -> entry a i j = identity i j - dt * th * gen f n i j) /\ decompose a = Throw.
Lemma decompose_total t n : wf t n -> decompose t = Throw \/ exists c, decompose t = Ok c.
Proof.
  intros (H0 & H1 & H2 & H3). unfold decompose.
  assert (forall d a b g, d <> [] -> (length d <= S (length a))%nat -> (length d <= S (length b))%nat -> beta_inverse d a b g = Throw \/ exists r, beta_inverse d a b g = Ok r) as B.
  { induction d as [|d0 d IH]; intros a b g Hne Ha Hb; [congruence|]. cbn [beta_inverse]. destruct (is_zero (d0 - g)); [now left|]. destruct d as [|d1 d]; [right; eauto|].
    destruct a as [|a0 a]; [cbn in Ha; lia|]. destruct b as [|b0 b]; [cbn in Hb; lia|]. destruct (IH a b (a0 * (1 / (d0 - g)) * b0)) as [->|[r ->]]; [discriminate|cbn in *; lia|cbn in *; lia|now left|right; cbn [obind]; eauto]. }
  assert (diag t <> []) as Hne by (destruct (diag t); [cbn in H1; lia|discriminate]).
  destruct (same _ _); [destruct (B (diag t) (above t) (above t) 0 Hne ltac:(lia) ltac:(lia)) as [->|[r ->]]|destruct (B (diag t) (above t) (below t) 0 Hne ltac:(lia) ltac:(lia)) as [->|[r ->]]]; cbn [obind]; eauto.
Qed.
Lemma roll_cases f n dt th res : good f n -> length res = n ->
  (roll_bwd f dt th res = Throw /\ th <> 0 /\ singular f dt th n) \/
  exists f' y, roll_bwd f dt th res = Ok (f', y) /\ good f' n /\ (rate f' = rate f /\ mu f' = mu f /\ var f' = var f /\ fdx f' = fdx f /\ fdxx f' = fdxx f) /\ length y = n /\ theta_step n (gen f n) dt th res y /\
    forall z, length z = n -> theta_step n (gen f n) dt th res z -> z = y.
Proof.
  intros G Hr. unfold roll_bwd. destruct (explicit_ok f n dt th res G Hr) as (f1 & mid & E & G1 & (P1 & P2 & P3 & P4 & P5) & Lm & Pm). rewrite E. cbn [obind].
  destruct (Req_EM_T th 0) as [->|Hth].
  - right. exists f1, mid. split; [reflexivity|]. split; [exact G1|]. split; [repeat split; assumption|]. split; [exact Lm|]. split; [exists mid; split; [exact Pm|]; apply (product_ext n identity); [intros; ring|]; now apply product_identity|].
    intros z Hz (mid' & Q1 & Q2). rewrite (product_det _ _ _ _ _ Q1 Pm) in Q2. symmetry. apply (product_det n identity z); [|now apply product_identity].
    apply (product_ext n (fun i j => identity i j - dt * 0 * gen f n i j)); [intros; ring|exact Q2].
  - destruct (calc_ax_ok f1 n (- dt * th) G1) as (f2 & E2 & G2 & Q1 & Q2 & Q3 & Q4 & Q5 & M). rewrite E2. cbn [obind].
    assert (forall i j, (i < n)%nat -> (j < n)%nat -> entry (amat f2) i j = identity i j - dt * th * gen f n i j) as M' by (intros i j Hi Hj; rewrite M, (gen_eq f f1) by assumption; ring).
    destruct (decompose_total (amat f2) n (g_a _ _ G2)) as [D|[c D]]; rewrite D; cbn [obind].
    + left. split; [reflexivity|]. split; [exact Hth|]. exists (amat f2). split; [apply G2|]. split; assumption.
    + destruct (solve_left_ok (amat f2) n c mid (g_a _ _ G2) (decompose_ok _ _ _ (g_a _ _ G2) D) Lm) as (y & Ey & Ly & Py & U). rewrite Ey. cbn [obind].
      right. exists f2, y. split; [reflexivity|]. split; [exact G2|]. split; [repeat split; congruence|]. split; [exact Ly|]. split; [exists mid; split; [exact Pm|]; now apply (product_ext n (entry (amat f2)))|].
      intros z Hz (mid' & Z1 & Z2). rewrite (product_det _ _ _ _ _ Z1 Pm) in Z2. apply U; [exact Hz|]. apply (product_ext n (fun i j => identity i j - dt * th * gen f n i j)); [intros; symmetry; now apply M'|exact Z2].
Qed.
Lemma init_good x r m v : grid x -> length r = length (locations x) -> length m = length (locations x) -> length v = length (locations x) ->
  exists f, fd_init x r m v = Ok f /\ good f (length (locations x)) /\ rate f = r /\ mu f = m /\ var f = v /\
    (forall p q, (p < length (locations x))%nat -> (q < length (locations x))%nat -> entry (fdx f) p q = diff dx_coef x p q /\ entry (fdxx f) p q = diff dxx_coef x p q).
Proof.
  intros G Hr Hm Hv. pose proof G as (Hn & _). unfold fd_init, dx_op, dxx_op. destruct (fd_operator_ok dx_coef x G) as (d & E & W & N). destruct (fd_operator_ok dxx_coef x G) as (dd & E' & W' & N').
  rewrite E. cbn [obind]. rewrite E'. cbn [obind]. assert (length (diag d) = length (locations x)) as -> by apply W. destruct (tri_new_ok (length (locations x)) ltac:(lia)) as (a & Ea & Wa & Z). rewrite Ea. cbn [obind].
  eexists. split; [reflexivity|]. split; [constructor; cbn [rate mu var fdx fdxx amat]; auto|]. cbn [rate mu var fdx fdxx]. repeat split; auto.
Qed.
(** the implicit matrix is decomposed when the generator has no negative neighbour weight *)
Lemma not_singular f n dt th : good f n -> 0 <= dt * th -> (forall i, inner n i -> 0 <= (rate f).[i]) ->
  (forall i, inner n i -> sum n (fun j => gen f n i j) = - (rate f).[i]) -> (forall i j, inner n i -> i <> j -> (j < n)%nat -> 0 <= gen f n i j) -> ~ singular f dt th n.
Proof.
  intros G Hdt Hr Hs Hp (a & W & M & D). destruct (decompose_succeeds a n W) as [c Q]; [|congruence].
  pose proof W as (H0 & H1 & H2 & H3).
  assert (forall i, (i < n)%nat -> (diag a).[i] = entry a i i) as Ed by (intros; unfold entry, band; now rewrite Nat.eqb_refl).
  assert (forall i, (above a).[i] = entry a i (S i)) as Ea by (intros; unfold entry, band; nat_ifs; reflexivity).
  assert (forall k, (below a).[k] = entry a (S k) k) as Eb by (intros; unfold entry, band; nat_ifs; reflexivity).
  assert (forall i, (n - 1 <= i)%nat -> entry a i (S i) = 0) as Eo by (intros i Hi; rewrite <- Ea; apply nth_overflow; lia).
  intros i Hi. pose proof epsilon_pos as He. unfold epsilon in *. rewrite Ed, Ea by exact Hi. destruct (Nat.eq_dec i 0) as [->|N0].
  - rewrite (M 0%nat 0%nat), (M 0%nat 1%nat) by (destruct G; lia). unfold gen, generator, identity. cbn [Nat.ltb Nat.leb andb Nat.eqb]. rewrite !Rmult_0_r, Rminus_0_r, Rminus_0_r, Rabs_R0, Rabs_R1. lra.
  - destruct i as [|i]; [lia|]. rewrite Eb. rewrite (M (S i) (S i)), (M (S i) i) by lia. destruct (Nat.eq_dec (S (S i)) n) as [Hl|Hl].
    + rewrite Eo by lia. unfold gen, generator, identity. nat_ifs. rewrite !Rmult_0_r, Rminus_0_r, Rminus_0_r, Rabs_R0, Rabs_R1. lra.
    + rewrite (M (S i) (S (S i))) by lia. assert (inner n (S i)) as Hin by (split; lia).
      pose proof (Hs _ Hin) as S1. pose proof (Hr _ Hin) as R1. pose proof (Hp (S i) i Hin ltac:(lia) ltac:(lia)) as P1. pose proof (Hp (S i) (S (S i)) Hin ltac:(lia) ltac:(lia)) as P2.
      assert (sum n (fun j => gen f n (S i) j) = gen f n (S i) (S i) + (gen f n (S i) (S (S i)) + gen f n (S i) i)) as E3.
      { rewrite (sum_ext n _ (fun j => (if (j =? S i)%nat then gen f n (S i) (S i) else 0) + ((if (j =? S (S i))%nat then gen f n (S i) (S (S i)) else 0) + (if (j =? i)%nat then gen f n (S i) i else 0)))).
        - rewrite !sum_plus, !sum_one. nat_ifs. ring.
        - intros j Hj. nat_ifs; subst; try ring. unfold gen, generator, identity, entry, band. nat_ifs. ring. }
      unfold identity. rewrite Nat.eqb_refl. destruct (Nat.eqb_spec (S i) (S (S i))); [lia|]. destruct (Nat.eqb_spec (S i) i); [lia|].
      set (gu := gen f n (S i) (S (S i))) in *. set (gl := gen f n (S i) i) in *. set (gm := gen f n (S i) (S i)) in *. set (t := dt * th) in *.
      replace (0 - t * gu) with (- (t * gu)) by ring. replace (0 - t * gl) with (- (t * gl)) by ring. rewrite !Rabs_Ropp.
      assert (0 <= t * gu) by (now apply Rmult_le_pos). assert (0 <= t * gl) by (now apply Rmult_le_pos). assert (0 <= t * (rate f).[S i]) by (now apply Rmult_le_pos).
      assert (1 - t * gm = 1 + t * gu + t * gl + t * (rate f).[S i]) as E4 by (assert (gm = - (rate f).[S i] - gu - gl) as -> by lra; ring).
      rewrite E4, !Rabs_right by lra. lra.
Qed.
