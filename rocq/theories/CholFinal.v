(** Cholesky decomposition: from the rows of the factor to the decomposition, and the triangular and diagonal solvers. *)
From Coq Require Import Reals List Arith Lia Lra Bool.
From Verif Require Import Base Vec LinNum LinModel BandSpec BandProofs LinSpec LinProofs LinUpper CholModel CholSpec CholProofs CholAlgebra CholSolve.
Import ListNotations.
Local Open Scope R_scope.
Local Existing Instance RealLin.

Section Final.
Variables (n : nat) (reg : R).
Lemma invert_ok (r : R) k : forall i (m : sqm), fits m n -> (i + k = n)%nat ->
  let m' := invert_diag r i k m in
  fits m' n /\ (forall p q, p <> q -> cell m' p q = cell m p q) /\ (forall p, (p < i)%nat -> cell m' p p = cell m p p) /\
  forall p, (i <= p < n)%nat -> cell m' p p = cell m p p / (r + cell m p p * cell m p p).
Proof.
  induction k as [|k IH]; intros i m F Hk; cbn [invert_diag].
  - split; [exact F|]. split; [reflexivity|]. split; [reflexivity|]. intros p Hp. lia.
  - set (v := ndiv _ _). assert (Hv : v = cell m i i / (r + cell m i i * cell m i i)) by reflexivity. clearbody v.
    assert (C : forall p q, cell (set_cell m i i v) p q = if (p =? i)%nat && (q =? i)%nat then v else cell m p q) by (intros p q; apply (cell_set m n); try assumption; lia).
    destruct (IH (S i) (set_cell m i i v)) as (F' & O & B & A); [apply fits_set; [exact F|lia]|lia|].
    split; [exact F'|]. split; [|split].
    + intros p q Ne. rewrite O by exact Ne. rewrite C. destruct (p =? i)%nat eqn:E1; destruct (q =? i)%nat eqn:E2; try reflexivity.
      apply Nat.eqb_eq in E1, E2. lia.
    + intros p Hp. rewrite B by lia. rewrite C. replace (p =? i)%nat with false by (symmetry; apply Nat.eqb_neq; lia). reflexivity.
    + intros p Hp. destruct (Nat.eq_dec p i) as [->|Ne].
      * rewrite B by lia. rewrite C, Nat.eqb_refl. exact Hv.
      * rewrite A by lia. rewrite C. replace (p =? i)%nat with false by (symmetry; apply Nat.eqb_neq; lia). reflexivity.
Qed.
Variable a : nat -> nat -> R.
Lemma impl_ok src (out : sqm) : fits out n -> length (source src out) = n -> (forall p q, (p <= q < n)%nat -> cell (source src out) p q = a p q) ->
  let r := chol_impl src reg out in
  fits (snd r) n /\ fst r = average (cell (snd r)) n /\ factor_rows a reg 0 n (average (cell (snd r))) (cell (snd r)).
Proof.
  intros F Hl Ha. unfold chol_impl. assert (Hl' : @length (list (@num RealLin)) (source src out) = n) by exact Hl. rewrite Hl'.
  destruct (chol_rows_ok n a reg src n 0 (@zero RealLin) out F) as (F' & _ & M & V); [lia|intros p q Hp _; apply Ha; exact Hp|reflexivity|].
  cbv zeta. split; [exact F'|]. split; [rewrite <- running_average; exact M|].
  intros i Hi. destruct (V i Hi) as [V1 V2]. split; [|exact V2]. intros j Hj. rewrite <- running_average. apply V1. exact Hj.
Qed.
Lemma decomposed src (out : sqm) m D : fits out n -> length (source src out) = n -> (forall p q, (p <= q < n)%nat -> cell (source src out) p q = a p q) ->
  (0 < n)%nat -> symmetric n a -> 0 < m -> reg <> 0 -> reg * reg <= 1 ->
  (forall i, (i < n)%nat -> a i i <= D) ->
  (forall i, (i < n)%nat -> 0 < cell (snd (chol_impl src reg out)) i i /\ m <= cell (snd (chol_impl src reg out)) i i * cell (snd (chol_impl src reg out)) i i) ->
  exists low b, cholesky_in src out reg = Ok low /\ fits low n /\ acts_as low n b /\
    forall i j, (i < n)%nat -> (j < n)%nat -> Rabs (b i j - a i j) <= 3 * (reg * reg) * (D * D / m).
Proof.
  intros F Hl Ha Hn Sym Hm Hr Hr1 HD Piv. destruct (impl_ok src out F Hl Ha) as (Fl & Mean & Fac).
  unfold cholesky_in. destruct (chol_impl src reg out) as [mean l]. cbn [fst snd] in *.
  set (c := cell l) in *. subst mean.
  pose proof (rho_pos n reg c m Piv Hn Hr) as Rp.
  set (rr := @square RealLin (@nmul RealLin reg (average c n))). assert (Er : rr = rho reg c n) by reflexivity.
  assert (Lt : nltb zero rr = true).
  { rewrite zero_R. rewrite Er. cbn [nltb RealLin]. destruct (Rlt_dec 0 (rho reg c n)); [reflexivity|contradiction]. }
  rewrite Lt. pose proof Fl as [Ln _]. assert (Ln' : @length (list (@num RealLin)) l = n) by exact Ln. rewrite Ln'.
  destruct (invert_ok rr n 0 l Fl) as (Fv & Ov & _ & Dv); [lia|]. set (low := invert_diag rr 0 n l) in *.
  exists low, (fun i j => gram n (full n reg c) i j). split; [reflexivity|]. split; [exact Fv|].
  assert (Below : forall i j, (j < i < n)%nat -> full n reg c i j = cell low i j).
  { intros i j H. unfold full. replace (j =? i)%nat with false by (symmetry; apply Nat.eqb_neq; lia). replace (j <? i)%nat with true by (symmetry; apply Nat.ltb_lt; lia).
    rewrite Ov by lia. reflexivity. }
  assert (On : forall i, (i < n)%nat -> cell low i i <> 0 /\ full n reg c i i = / cell low i i).
  { intros i Hi. unfold full. rewrite Nat.eqb_refl. rewrite (Dv i) by lia. fold c. destruct (Piv i Hi) as [P _]. fold (c i i) in P. rewrite Er.
    assert (0 < rho reg c n + c i i * c i i) by (apply Rplus_lt_0_compat; [exact Rp|apply Rmult_lt_0_compat; exact P]).
    split; [|field; split; lra]. apply Rgt_not_eq. apply Rdiv_lt_0_compat; assumption. }
  assert (Above : forall i j, (i < j < n)%nat -> full n reg c i j = 0).
  { intros i j H. unfold full. replace (j =? i)%nat with false by (symmetry; apply Nat.eqb_neq; lia). replace (j <? i)%nat with false by (symmetry; apply Nat.ltb_ge; lia). reflexivity. }
  split.
  - split; [|split].
    + intros x Hx. destruct (multiply_ok n low _ Fv Below On Above x Hx) as (b & E & Lb & V). exists b. split; [exact E|]. split; [exact Lb|exact V].
    + intros b x Hb Hx. destruct (solve_ok n low _ Fv Below On Above b x Hb Hx) as (r & E & Lr & _ & S0). exists r. split; [exact E|]. split; [exact Lr|exact S0].
    + exists (full n reg c). split; [reflexivity|]. intros z Hz. destruct (correlate_ok n low _ Fv Below On Above z Hz) as (r & E & Lr & V). exists r.
      split; [exact E|]. split; [exact Lr|exact V].
  - intros i j Hi Hj. rewrite (gram_full n a reg c Fac i j Sym Hi Hj) by (intros k Hk; apply Piv; exact Hk).
    replace (a i j + error n reg c i j - a i j) with (error n reg c i j) by ring.
    apply (error_bound n a reg c Fac D m Hm Piv HD i j Hi Hj Hr1).
Qed.
Lemma dominant_decomposed src (out : sqm) m D : fits out n -> length (source src out) = n -> (forall p q, (p <= q < n)%nat -> cell (source src out) p q = a p q) ->
  (0 < n)%nat -> symmetric n a -> 0 < m -> reg <> 0 -> reg * reg <= 1 -> diagonally_dominant n a m D ->
  exists low b, cholesky_in src out reg = Ok low /\ fits low n /\ acts_as low n b /\
    forall i j, (i < n)%nat -> (j < n)%nat -> Rabs (b i j - a i j) <= 3 * (reg * reg) * (D * D / m).
Proof.
  intros F Hl Ha Hn Sym Hm Hr Hr1 Dom. apply decomposed; try assumption.
  - intros i Hi. apply Dom. exact Hi.
  - destruct (impl_ok src out F Hl Ha) as (_ & _ & Fac). intros i Hi.
    apply (dominant_pivots n a reg m _ Fac Hm Sym); [|exact Hi]. intros k Hk. apply Dom. exact Hk.
Qed.
End Final.

(** the diagonal matrix *)
Lemma not_zero (v : R) : @is_zero RealLin v = false -> v <> 0.
Proof.
  unfold is_zero. cbn [nltb nopp epsilon RealLin]. intros H ->. destruct (Rlt_dec 0 _) as [_|N]; [|lra]. destruct (Rlt_dec (- 0) _) as [_|N]; [discriminate|lra].
Qed.
Lemma diag_solve_ok : forall (b vals : list R), length b = length vals -> (forall v, In v vals -> @is_zero RealLin v = false) ->
  exists x, @diag_solve RealLin b vals = Ok x /\ length x = length vals /\ forall i, (i < length vals)%nat -> nth i vals 0 * nth i x 0 = nth i b 0.
Proof.
  induction b as [|x b IH]; intros [|v vals] Hl Hz; try discriminate Hl.
  - exists []. split; [reflexivity|]. split; [reflexivity|]. intros i Hi. cbn in Hi. lia.
  - destruct (IH vals) as (r & E & L & V); [injection Hl; auto|intros w Hw; apply Hz; right; exact Hw|].
    exists (x / v :: r). split; [|split; [cbn [length] in *; lia|]].
    + cbn [diag_solve]. unfold protected_divide. rewrite Hz by (left; reflexivity). cbn [obind]. rewrite E. reflexivity.
    + intros [|i] Hi; cbn [nth]; [|apply V; cbn in Hi; lia]. assert (v <> 0) by (apply not_zero, Hz; left; reflexivity). field. assumption.
Qed.
Lemma diag_multiply_ok : forall (x vals : list R), length x = length vals ->
  exists b, @diag_multiply RealLin x vals = Ok b /\ length b = length vals /\ forall i, (i < length vals)%nat -> nth i b 0 = nth i vals 0 * nth i x 0.
Proof.
  induction x as [|x0 x IH]; intros [|v vals] Hl; try discriminate Hl.
  - exists []. split; [reflexivity|]. split; [reflexivity|]. intros i Hi. cbn in Hi. lia.
  - destruct (IH vals) as (r & E & L & V); [injection Hl; auto|]. exists (x0 * v :: r). cbn [diag_multiply]. rewrite E. split; [reflexivity|].
    split; [cbn [length] in *; lia|]. intros [|i] Hi; cbn [nth]; [apply Rmult_comm|apply V; cbn in Hi; lia].
Qed.
Lemma diag_correlate_ok : forall (vals z : list R), (length vals <= length z)%nat -> (forall v, In v vals -> 0 <= v) ->
  exists c, @diag_correlate RealLin vals z = Ok c /\ length c = length vals /\ forall i, (i < length vals)%nat -> nth i c 0 = R_sqrt.sqrt (nth i vals 0) * nth i z 0.
Proof.
  induction vals as [|v vals IH]; intros z Hl Hp.
  - exists []. split; [reflexivity|]. split; [reflexivity|]. intros i Hi. cbn in Hi. lia.
  - destruct z as [|z0 z]; [cbn in Hl; lia|]. destruct (IH z) as (r & E & L & V); [cbn in Hl; lia|intros w Hw; apply Hp; right; exact Hw|].
    assert (P : 0 <= v) by (apply Hp; left; reflexivity).
    exists (R_sqrt.sqrt v * z0 :: r). cbn [diag_correlate].
    assert (N : @is_negative RealLin v = false).
    { unfold is_negative. cbn [nltb neqb nopp epsilon RealLin]. destruct (Rlt_dec v _); [lra|]. destruct (Req_EM_T v _); [lra|]. reflexivity. }
    rewrite N, E. cbn [obind]. split.
    + assert (M : @nmax RealLin v zero = v).
      { unfold nmax. rewrite zero_R. cbn [nltb RealLin]. destruct (Rlt_dec v 0); [lra|reflexivity]. }
      rewrite M. reflexivity.
    + split; [cbn [length] in *; lia|]. intros [|i] Hi; cbn [nth]; [reflexivity|apply V; cbn in Hi; lia].
Qed.

(** lower triangular systems *)
Section Triangular.
Variables (n : nat) (m : sqm).
Hypothesis fit : fits m n.
Hypothesis nz : forall i, (i < n)%nat -> @is_zero RealLin (cell m i i) = false.
Lemma divide_ok i (r : R) : (i < n)%nat -> protected_divide r (cell m i i) = Ok (r / cell m i i) /\ cell m i i <> 0.
Proof. intros Hi. unfold protected_divide. pose proof (nz i Hi) as N. rewrite N. split; [reflexivity|]. apply not_zero. exact N. Qed.
Lemma tri_forward_ok (b : list R) k : forall i (x : list R), (i + k = n)%nat -> length x = n -> (n <= length b)%nat ->
  exists y : list R, tri_forward m b i k x = Ok y /\ length y = n /\ (forall p, (p < i)%nat -> nth p y 0 = nth p x 0) /\
  forall p, (i <= p < n)%nat -> sum p (fun q => cell m p q * nth q y 0) + cell m p p * nth p y 0 = nth p b 0.
Proof.
  induction k as [|k IH]; intros i x Hk Hx Hb; cbn [tri_forward].
  - exists x. split; [reflexivity|]. split; [exact Hx|]. split; [reflexivity|]. intros p Hp. lia.
  - assert (Gb : get b i = Ok (nth i b 0)) by (apply get_ok; lia).
    assert (Gb' : @get (@num RealLin) b i = Ok (nth i b 0)) by exact Gb. rewrite Gb'. cbn [obind].
    assert (Hi : (i < n)%nat) by lia.
    set (s := @inner RealLin (@nopp RealLin (nth i b 0)) (firstn i x) (sq_row m i)).
    assert (Hs : s = - nth i b 0 + sum i (fun q => cell m i q * nth q x 0)).
    { unfold s. rewrite (inner_sum _ _ i).
      - apply (f_equal2 Rplus); [reflexivity|]. apply sum_ext. intros q Hq. rewrite nth_firstn_lt by exact Hq. unfold cell, sq_row. rewrite zero_R. apply Rmult_comm.
      - rewrite firstn_length. cbn [num RealLin] in *. lia.
      - pose proof (row_len m n i fit Hi) as Q. cbn [num RealLin] in *. lia. }
    match goal with |- context [protected_divide ?u ?w] => change (protected_divide u w) with (@protected_divide RealLin (@nopp RealLin s) (cell m i i)) end.
    destruct (divide_ok i (@nopp RealLin s) Hi) as [E Nz]. rewrite E. cbn [obind]. clearbody s.
    set (v := @nopp RealLin s / cell m i i). assert (Hv : v * cell m i i = - s) by (unfold v; cbn [nopp RealLin]; field; exact Nz). clearbody v.
    assert (N : forall p, nth p (@set_nth R x i v) 0 = if (p =? i)%nat then v else nth p x 0) by (intros p; apply (@nth_set_nth R); lia).
    destruct (IH (S i) (@set_nth R x i v)) as (y & Ey & Ly & O & V); [lia|rewrite set_nth_length; exact Hx|exact Hb|].
    exists y. split; [exact Ey|]. split; [exact Ly|]. split.
    + intros p Hp. rewrite O by lia. rewrite N. replace (p =? i)%nat with false by (symmetry; apply Nat.eqb_neq; lia). reflexivity.
    + intros p Hp. destruct (Nat.eq_dec p i) as [->|Ne]; [|apply V; lia].
      rewrite (sum_ext i _ (fun q => cell m i q * nth q x 0)).
      2:{ intros q Hq. rewrite O by lia. rewrite N. replace (q =? i)%nat with false by (symmetry; apply Nat.eqb_neq; lia). reflexivity. }
      rewrite O by lia. rewrite N, Nat.eqb_refl. set (t := sum i _) in *. set (c := cell m i i) in *. change (@num RealLin) with R in *. lra.
Qed.
Lemma tri_backward_ok (b : list R) : (n <= length b)%nat -> forall i (x : list R), (i <= n)%nat -> length x = n ->
  exists y : list R, tri_backward m b i x = Ok y /\ length y = n /\ (forall p, (i <= p)%nat -> nth p y 0 = nth p x 0) /\
  forall p, (p < i)%nat -> cell m p p * nth p y 0 + sum (n - S p) (fun q => cell m (S p + q) p * nth (S p + q) y 0) = nth p b 0.
Proof.
  intros Hb. induction i as [|k IH]; intros x Hi Hx; cbn [tri_backward].
  - exists x. split; [reflexivity|]. split; [exact Hx|]. split; [reflexivity|]. intros p Hp. lia.
  - assert (Gb : get b k = Ok (nth k b 0)) by (apply get_ok; lia).
    assert (Gb' : @get (@num RealLin) b k = Ok (nth k b 0)) by exact Gb. rewrite Gb'. cbn [obind].
    assert (Hk : (k < n)%nat) by lia. destruct fit as [Lm _].
    set (s := @inner RealLin (@nopp RealLin (nth k b 0)) (skipn (k + 1) x) (skipn (k + 1) (sq_col m k))).
    assert (Hs : s = - nth k b 0 + sum (n - S k) (fun q => cell m (S k + q) k * nth (S k + q) x 0)).
    { unfold s. rewrite (inner_sum _ _ (n - S k)).
      - apply (f_equal2 Rplus); [reflexivity|]. apply sum_ext. intros q Hq. rewrite !nth_skipn_add. replace (k + 1 + q)%nat with (S k + q)%nat by lia.
        rewrite Rmult_comm. apply (f_equal2 Rmult); [|reflexivity]. apply cell_col. cbn [num RealLin] in *. lia.
      - rewrite skipn_length. cbn [num RealLin] in *. lia.
      - rewrite skipn_length. unfold sq_col. rewrite map_length. unfold sq in *. cbn [num RealLin] in *. lia. }
    match goal with |- context [protected_divide ?u ?w] => change (protected_divide u w) with (@protected_divide RealLin (@nopp RealLin s) (cell m k k)) end.
    destruct (divide_ok k (@nopp RealLin s) Hk) as [E Nz]. rewrite E. cbn [obind]. clearbody s.
    set (v := @nopp RealLin s / cell m k k). assert (Hv : v * cell m k k = - s) by (unfold v; cbn [nopp RealLin]; field; exact Nz). clearbody v.
    assert (N : forall p, nth p (@set_nth R x k v) 0 = if (p =? k)%nat then v else nth p x 0) by (intros p; apply (@nth_set_nth R); lia).
    destruct (IH (@set_nth R x k v)) as (y & Ey & Ly & O & V); [lia|rewrite set_nth_length; exact Hx|].
    exists y. split; [exact Ey|]. split; [exact Ly|]. split.
    + intros p Hp. rewrite O by lia. rewrite N. replace (p =? k)%nat with false by (symmetry; apply Nat.eqb_neq; lia). reflexivity.
    + intros p Hp. destruct (Nat.eq_dec p k) as [->|Ne]; [|apply V; lia].
      rewrite (sum_ext (n - S k) _ (fun q => cell m (S k + q) k * nth (S k + q) x 0)).
      2:{ intros q Hq. rewrite O by lia. rewrite N. replace (S k + q =? k)%nat with false by (symmetry; apply Nat.eqb_neq; lia). reflexivity. }
      rewrite O by lia. rewrite N, Nat.eqb_refl. set (t := sum (n - S k) _) in *. set (c := cell m k k) in *. change (@num RealLin) with R in *. lra.
Qed.
End Triangular.
Lemma lower_sum n (c : nat -> nat -> R) (x : list R) i : (i < n)%nat -> row_times n (lower c) x i = sum i (fun q => c i q * nth q x 0) + c i i * nth i x 0.
Proof.
  intros Hi. unfold row_times. rewrite (sum_cut n (S i)); [|lia|].
  - cbn [sum]. unfold lower. rewrite Nat.leb_refl. f_equal. apply sum_ext. intros q Hq. replace (q <=? i)%nat with true by (symmetry; apply Nat.leb_le; lia). reflexivity.
  - intros j Hj. unfold lower. replace (j <=? i)%nat with false by (symmetry; apply Nat.leb_gt; lia). ring.
Qed.
Lemma upper_sum n (c : nat -> nat -> R) (x : list R) i : (i < n)%nat ->
  row_times n (fun p q => lower c q p) x i = c i i * nth i x 0 + sum (n - S i) (fun q => c (S i + q)%nat i * nth (S i + q) x 0).
Proof.
  intros Hi. unfold row_times. rewrite (sum_tail n i) by lia. rewrite (sum_ext i _ (fun _ => 0)).
  - rewrite sum_zero. replace (n - i)%nat with (S (n - S i)) by lia. rewrite sum_head. rewrite Nat.add_0_r. unfold lower at 1. rewrite Nat.leb_refl. rewrite Rplus_0_l. f_equal.
    apply sum_ext. intros q Hq. unfold lower. replace (i <=? i + S q)%nat with true by (symmetry; apply Nat.leb_le; lia). replace (i + S q)%nat with (S i + q)%nat by lia. reflexivity.
  - intros j Hj. unfold lower. replace (i <=? j)%nat with false by (symmetry; apply Nat.leb_gt; lia). ring.
Qed.
