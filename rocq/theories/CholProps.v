(** C56: decompositions of dense matrices. *)
From Coq Require Import Reals List Arith Lia Lra Bool ZArith SpecFloat.
From Verif Require Import Base Vec DateModel LinNum LinModel BandSpec BandProofs LinSpec LinProofs LinUpper CholModel CholSpec CholProofs CholAlgebra CholSolve CholFinal.
Import ListNotations.
Local Open Scope R_scope.
Local Existing Instance RealLin.

(** Decomposing a symmetric, strictly diagonally dominant matrix succeeds, and multiplying, solving and correlating with the result are
    those of a matrix which differs from the given one by at most 3 reg^2 D^2 / m in each entry. *)
Theorem C56_decomposition (a : @sq RealLin) n (reg m D : R) : fits a n -> (0 < n)%nat -> symmetric n (cell a) -> 0 < m -> diagonally_dominant n (cell a) m D ->
  reg <> 0 -> Rabs reg <= 1 ->
  exists low b, cholesky a reg = Ok low /\ acts_as low n b /\
    forall i j, (i < n)%nat -> (j < n)%nat -> Rabs (b i j - cell a i j) <= 3 * reg ^ 2 * (D ^ 2 / m).
Proof.
  intros F Hn Sym Hm Dom Hr Hr1. pose proof F as [La _]. assert (La' : @length (list (@num RealLin)) a = n) by exact La.
  assert (R1 : reg * reg <= 1).
  { rewrite <- (Rabs_pos_eq (reg * reg)) by (apply Rle_0_sqr). rewrite Rabs_mult. pose proof (Rabs_pos reg). nra. }
  unfold cholesky. rewrite La'. destruct (dominant_decomposed n reg (cell a) (Some a) (repeat (repeat (@of_nat RealLin n) n) n) m D) as (low & b & E & _ & A & B); try assumption.
  - split; [apply repeat_length|]. apply Forall_forall. intros r H. apply repeat_spec in H. subst r. apply repeat_length.
  - reflexivity.
  - exists low, b. split; [exact E|]. split; [exact A|]. intros i j Hi Hj. specialize (B i j Hi Hj).
    replace (3 * reg ^ 2 * (D ^ 2 / m)) with (3 * (reg * reg) * (D * D / m)) by (field; lra). exact B.
Qed.
Print Assumptions C56_decomposition.

(** The same for any symmetric matrix whose pivots come out positive. *)
Theorem C56_pivots (a : @sq RealLin) n (reg m D : R) : fits a n -> (0 < n)%nat -> symmetric n (cell a) -> 0 < m -> (forall i, (i < n)%nat -> cell a i i <= D) ->
  let l := snd (chol_impl (Some a) reg (repeat (repeat (@of_nat RealLin n) n) n)) in
  (forall i, (i < n)%nat -> 0 < cell l i i /\ m <= cell l i i ^ 2) -> reg <> 0 -> Rabs reg <= 1 ->
  exists low b, cholesky a reg = Ok low /\ acts_as low n b /\
    forall i j, (i < n)%nat -> (j < n)%nat -> Rabs (b i j - cell a i j) <= 3 * reg ^ 2 * (D ^ 2 / m).
Proof.
  intros F Hn Sym Hm HD l Piv Hr Hr1. pose proof F as [La _]. assert (La' : @length (list (@num RealLin)) a = n) by exact La.
  assert (R1 : reg * reg <= 1).
  { rewrite <- (Rabs_pos_eq (reg * reg)) by (apply Rle_0_sqr). rewrite Rabs_mult. pose proof (Rabs_pos reg). nra. }
  unfold cholesky. rewrite La'. destruct (decomposed n reg (cell a) (Some a) (repeat (repeat (@of_nat RealLin n) n) n) m D) as (low & b & E & _ & A & B); try assumption.
  - split; [apply repeat_length|]. apply Forall_forall. intros r H. apply repeat_spec in H. subst r. apply repeat_length.
  - reflexivity.
  - intros i Hi. destruct (Piv i Hi) as [P1 P2]. split; [exact P1|]. fold l. change (cell l i i ^ 2) with (cell l i i * (cell l i i * 1)) in P2.
    rewrite Rmult_1_r in P2. exact P2.
  - exists low, b. split; [exact E|]. split; [exact A|]. intros i j Hi Hj. specialize (B i j Hi Hj).
    replace (3 * reg ^ 2 * (D ^ 2 / m)) with (3 * (reg * reg) * (D * D / m)) by (field; lra). exact B.
Qed.
Print Assumptions C56_pivots.

(** Solving in place of the matrix: every right-hand side is replaced by the solution for such a matrix. *)
Theorem C56_solve_in_place (a : @sq RealLin) n (reg m D : R) (bs : list (list R)) : fits a n -> (0 < n)%nat -> symmetric n (cell a) -> 0 < m -> diagonally_dominant n (cell a) m D ->
  reg <> 0 -> Rabs reg <= 1 -> Forall (fun b => length b = n) bs ->
  exists low c xs, cholesky_solve a bs reg = Ok (low, xs) /\ Forall2 (fun b x => length x = n /\ solves n c x b) bs xs /\
    forall i j, (i < n)%nat -> (j < n)%nat -> Rabs (c i j - cell a i j) <= 3 * reg ^ 2 * (D ^ 2 / m).
Proof.
  intros F Hn Sym Hm Dom Hr Hr1 Hb. pose proof F as [La _].
  assert (R1 : reg * reg <= 1).
  { rewrite <- (Rabs_pos_eq (reg * reg)) by (apply Rle_0_sqr). rewrite Rabs_mult. pose proof (Rabs_pos reg). nra. }
  destruct (dominant_decomposed n reg (cell a) None a m D) as (low & c & E & _ & A & B); try assumption; [reflexivity|].
  destruct A as (_ & Sv & _).
  assert (H : exists xs, solve_each low bs = Ok xs /\ Forall2 (fun b x => length x = n /\ solves n c x b) bs xs).
  { clear E. induction Hb as [|b bs Lb _ IH]; [exists []; split; [reflexivity|constructor]|].
    cbv beta in Lb. destruct IH as (xs & E & P). destruct (Sv b b) as (x & Ex & Lx & Px); [exact (Nat.eq_le_incl _ _ (eq_sym Lb))|exact (Nat.eq_le_incl _ _ (eq_sym Lb))|]. exists (x :: xs). cbn [solve_each].
    rewrite Ex. cbn [obind]. rewrite E. split; [reflexivity|]. constructor; [split; [exact (eq_trans Lx Lb)|exact Px]|exact P]. }
  destruct H as (xs & Es & P). exists low, c, xs. split; [|split; [exact P|]].
  - unfold cholesky_solve. rewrite E. cbn [obind]. rewrite Es. reflexivity.
  - intros i j Hi Hj. specialize (B i j Hi Hj).
    replace (3 * reg ^ 2 * (D ^ 2 / m)) with (3 * (reg * reg) * (D * D / m)) by (field; lra). exact B.
Qed.
Print Assumptions C56_solve_in_place.

Example C56_dominant_case : let a := [[4; 1]; [1; 3]] in fits a 2 /\ symmetric 2 (cell a) /\ diagonally_dominant 2 (cell a) 2 4.
Proof.
  cbv zeta. split; [|split].
  - split; [reflexivity|]. constructor; [reflexivity|]. constructor; [reflexivity|constructor].
  - intros [|[|i]] [|[|j]] Hi Hj; try lia; reflexivity.
  - intros [|[|i]] Hi; try lia; cbn -[Rabs]; rewrite Rabs_R1; lra.
Qed.

Definition ex_spd : @sq RealLin := [[4; 1]; [1; 3]].
Example C56_pivots_case (reg : R) : forall i, (i < 2)%nat ->
  let l := snd (chol_impl (Some ex_spd) reg (repeat (repeat (@of_nat RealLin 2) 2) 2)) in 0 < cell l i i /\ 2 <= cell l i i ^ 2.
Proof.
  destruct C56_dominant_case as (F & Sy & D). intros i Hi l.
  destruct (impl_ok 2 reg (cell ex_spd) (Some ex_spd) (repeat (repeat (@of_nat RealLin 2) 2) 2)) as (_ & _ & Fac).
  - split; [reflexivity|]. constructor; [reflexivity|]. constructor; [reflexivity|constructor].
  - reflexivity.
  - reflexivity.
  - destruct (dominant_pivots 2 (cell ex_spd) reg 2 (cell l) Fac ltac:(lra) Sy ltac:(intros k Hk; apply D; exact Hk) i Hi) as [P Q].
    split; [exact P|]. change (cell l i i ^ 2) with (cell l i i * (cell l i i * 1)). rewrite Rmult_1_r. exact Q.
Qed.

(** Nothing is decomposed without a positive regularization: the zero matrix, the empty one and a zero regularization are rejected. *)
Theorem C56_rejected (a : @sq RealLin) n (reg : R) : fits a n -> (forall i, (i < n)%nat -> cell a i i <= 0) \/ reg = 0 -> cholesky a reg = Throw.
Proof.
  intros F H. pose proof F as [La _]. assert (La' : @length (list (@num RealLin)) a = n) by exact La. unfold cholesky, cholesky_in. rewrite La'.
  set (out := repeat (repeat (@of_nat RealLin n) n) n).
  assert (Fo : fits out n).
  { split; [apply repeat_length|]. apply Forall_forall. intros r Hr. apply repeat_spec in Hr. subst r. apply repeat_length. }
  destruct (impl_ok n reg (cell a) (Some a) out Fo La) as (_ & Mean & Fac); [reflexivity|].
  destruct (chol_impl (Some a) reg out) as [mean l]. cbn [fst snd] in *.
  assert (Z : reg * mean = 0).
  { destruct H as [H| ->]; [|lra]. rewrite Mean. unfold average. rewrite (sum_ext n _ (fun _ => 0)); [rewrite sum_zero; unfold Rdiv; lra|].
    intros k Hk. destruct (Fac k ltac:(lia)) as [_ ->]. rewrite Rmax_left; [apply R_sqrt.sqrt_0|].
    assert (0 <= sum k (fun q => cell l k q * cell l k q)) by (apply sum_nonneg; intros; apply Rle_0_sqr). pose proof (H k Hk). lra. }
  assert (E : nltb zero (square (nmul reg mean)) = false).
  { unfold square. change (@nmul RealLin reg mean) with (reg * mean). rewrite Z, zero_R. cbn [nltb nmul RealLin]. destruct (Rlt_dec 0 (0 * 0)); [lra|reflexivity]. }
  rewrite E. reflexivity.
Qed.
Print Assumptions C56_rejected.
Example C56_rejected_case : cholesky (L := RealLin) [[0; 2]; [2; 0]] 1 = Throw.
Proof.
  apply (C56_rejected _ 2); [split; [reflexivity|]; constructor; [reflexivity|]; constructor; [reflexivity|constructor]|].
  left. intros [|[|i]] Hi; try lia; cbn; lra.
Qed.

(** The quadratic form of any decomposition whose solver is right: entry (i, j) is the product of row j with the solution for row i. *)
Theorem C56_quadratic_form (solve : list R -> list R -> outcome (list R)) n (a : nat -> nat -> R) (rows : list (list R)) :
  (forall b old, length b = n -> exists x, solve b old = Ok x /\ length x = n /\ solves n a x b) ->
  Forall (fun r => length r = n) rows ->
  exists ws form, @qform RealLin solve rows = Ok form /\ length form = length rows /\ length ws = length rows /\
    forall i, (i < length rows)%nat -> length (nth i ws []) = n /\ solves n a (nth i ws []) (nth i rows []) /\
      length (nth i form []) = S i /\
      forall j, (j <= i)%nat -> nth j (nth i form []) 0 = sum n (fun k => nth k (nth i ws []) 0 * nth k (nth j rows []) 0).
Proof.
  intros Hs Hr. unfold qform.
  assert (G : forall k i old, (i + k = length rows)%nat -> exists ws form, @qform_loop RealLin solve rows i k old = Ok form /\ length form = k /\ length ws = k /\
    forall p, (p < k)%nat -> length (nth p ws []) = n /\ solves n a (nth p ws []) (nth (i + p) rows []) /\ length (nth p form []) = S (i + p) /\
      forall j, (j <= i + p)%nat -> nth j (nth p form []) 0 = sum n (fun k => nth k (nth p ws []) 0 * nth k (nth j rows []) 0)).
  { induction k as [|k IH]; intros i old Hk.
    - exists [], []. split; [reflexivity|]. split; [reflexivity|]. split; [reflexivity|]. intros p Hp. lia.
    - assert (Rl : forall j, (j < length rows)%nat -> length (nth j rows []) = n) by (intros j Hj; rewrite Forall_nth in Hr; apply Hr; exact Hj).
      cbn [qform_loop]. assert (G : @get (list (@num RealLin)) rows i = Ok (nth i rows [])) by (apply (@get_ok (list R)); lia). rewrite G. cbn [obind].
      destruct (Hs (nth i rows []) old) as (x & Ex & Lx & Px); [apply Rl; lia|]. rewrite Ex. cbn [obind].
      destruct (IH (S i) x) as (ws & form & Ef & Lf & Lw & V); [lia|]. rewrite Ef. cbn [obind].
      exists (x :: ws). eexists. split; [reflexivity|]. split; [cbn [length]; lia|]. split; [cbn [length]; lia|].
      intros [|p] Hp; cbn [nth].
      + rewrite Nat.add_0_r. split; [exact Lx|]. split; [exact Px|]. split; [rewrite map_length, firstn_length; cbn [num RealLin] in *; lia|].
        intros j Hj. assert (Lj : (j < length (firstn (i + 1) rows))%nat) by (rewrite firstn_length; lia).
        rewrite (nth_indep _ 0 ((fun r : list R => @inner RealLin (@zero RealLin) x r) [])) by (rewrite map_length; exact Lj).
        etransitivity; [exact (map_nth (fun r : list R => @inner RealLin (@zero RealLin) x r) (firstn (i + 1) rows) [] j)|].
        etransitivity; [apply (inner_sum x _ n); [exact Lx|]|].
        * rewrite nth_firstn_lt by lia. rewrite Rl by lia. lia.
        * rewrite zero_R, Rplus_0_l. rewrite nth_firstn_lt by lia. reflexivity.
      + destruct (V p ltac:(lia)) as (V1 & V2 & V3 & V4). replace (i + S p)%nat with (S i + p)%nat by lia. repeat (split; [assumption|]). exact V4. }
  destruct (G (length rows) 0%nat [] ltac:(lia)) as (ws & form & E & Lf & Lw & V). exists ws, form. split; [exact E|]. split; [exact Lf|]. split; [exact Lw|exact V].
Qed.
Print Assumptions C56_quadratic_form.

(** A diagonal matrix: Solve undoes Multiply, and correlated numbers have the given variances. *)
Theorem C56_diagonal (vals x : list R) : length x = length vals ->
  (exists b, @diag_multiply RealLin x vals = Ok b /\ length b = length vals /\ forall i, (i < length vals)%nat -> nth i b 0 = nth i vals 0 * nth i x 0) /\
  ((forall v, In v vals -> Rabs v >= 2 / 100000000000000) ->
     exists r, @diag_solve RealLin x vals = Ok r /\ length r = length vals /\ forall i, (i < length vals)%nat -> nth i vals 0 * nth i r 0 = nth i x 0) /\
  ((forall v, In v vals -> 0 <= v) ->
     exists c, @diag_correlate RealLin vals x = Ok c /\ length c = length vals /\ forall i, (i < length vals)%nat -> nth i c 0 = R_sqrt.sqrt (nth i vals 0) * nth i x 0).
Proof.
  intros Hl. split; [apply diag_multiply_ok; exact Hl|]. split; intros H.
  - apply diag_solve_ok; [exact Hl|]. intros v Hv. specialize (H v Hv). unfold is_zero. cbn [nltb nopp epsilon RealLin].
    destruct (Rlt_dec v _) as [A|]; [|reflexivity]. destruct (Rlt_dec (- v) _) as [B|]; [|reflexivity]. exfalso. assert (Rabs v < 2 / 100000000000000) by (apply Rabs_def1; lra). lra.
  - apply diag_correlate_ok; [lia|exact H].
Qed.
Print Assumptions C56_diagonal.
(** hence a quadratic form with a diagonal matrix is computed *)
Example C56_quadratic_form_case : exists ws form, @qform RealLin (fun b _ => @diag_solve RealLin b [2; 4]) [[1; 1]; [2; 0]] = Ok form /\ length form = 2%nat /\ length ws = 2%nat /\
  forall i, (i < 2)%nat -> length (nth i ws []) = 2%nat /\ solves 2 (fun p q => if (p =? q)%nat then nth p [2; 4] 0 else 0) (nth i ws []) (nth i [[1; 1]; [2; 0]] []) /\
      length (nth i form []) = S i /\
      forall j, (j <= i)%nat -> nth j (nth i form []) 0 = sum 2 (fun k => nth k (nth i ws []) 0 * nth k (nth j [[1; 1]; [2; 0]] []) 0).
Proof.
  apply (C56_quadratic_form (fun b _ => @diag_solve RealLin b [2; 4]) 2 (fun p q => if (p =? q)%nat then nth p [2; 4] 0 else 0)).
  - intros b _ Lb. destruct (C56_diagonal [2; 4] b Lb) as (_ & S0 & _).
    destruct S0 as (r & E & L & V); [intros v [<-|[<-|[]]]; rewrite Rabs_pos_eq; lra|]. exists r. split; [exact E|]. split; [exact L|].
    destruct r as [|r0 [|r1 [|]]]; try discriminate L. pose proof (V 0%nat) as V0. pose proof (V 1%nat) as V1. cbn in V0, V1. specialize (V0 ltac:(lia)). specialize (V1 ltac:(lia)).
    destruct b as [|b0 [|b1 [|]]]; try discriminate Lb. cbn in V0, V1. intros [|[|i]] Hi; try lia; unfold row_times; cbn; lra.
  - constructor; [reflexivity|]. constructor; [reflexivity|constructor].
Qed.

(** Lower triangular systems, from the left (L x = b) and from the right (L^T x = b), and products with L^T. *)
Theorem C56_triangular (m : @sq RealLin) n (b x : list R) : fits m n -> (forall i, (i < n)%nat -> Rabs (cell m i i) >= 2 / 100000000000000) -> length b = n ->
  (exists r, tri_solve_left m b x = Ok r /\ length r = n /\ solves n (lower (cell m)) r b) /\
  (exists r, tri_solve_right m b x = Ok r /\ length r = n /\ solves n (fun i j => lower (cell m) j i) r b) /\
  (exists r, tri_multiply_right m b = Ok r /\ length r = n /\ forall i, (i < n)%nat -> nth i r 0 = row_times n (fun i j => lower (cell m) j i) b i).
Proof.
  intros F Hd Hb.
  assert (Nz : forall i, (i < n)%nat -> @is_zero RealLin (cell m i i) = false).
  { intros i Hi. specialize (Hd i Hi). unfold is_zero. cbn [nltb nopp epsilon RealLin].
    destruct (Rlt_dec (cell m i i) _) as [A|]; [|reflexivity]. destruct (Rlt_dec (- cell m i i) _) as [B|]; [|reflexivity]. exfalso.
    assert (Rabs (cell m i i) < 2 / 100000000000000) by (apply Rabs_def1; [exact A|]; cbn [num RealLin] in *; lra). lra. }
  pose proof F as [Lm _]. assert (Lm' : @length (list (@num RealLin)) m = n) by exact Lm. split; [|split].
  - destruct (tri_forward_ok n m F Nz b n 0 (@resized RealLin x n)) as (r & E & Lr & _ & V); [lia|apply resized_length|lia|].
    exists r. unfold tri_solve_left. rewrite Lm'. split; [exact E|]. split; [exact Lr|]. intros i Hi. rewrite lower_sum by exact Hi. apply V. lia.
  - destruct (tri_backward_ok n m F Nz b ltac:(lia) n (@resized RealLin x n)) as (r & E & Lr & _ & V); [lia|apply resized_length|].
    exists r. unfold tri_solve_right. rewrite Lm'. split; [exact E|]. split; [exact Lr|]. intros i Hi. rewrite upper_sum by exact Hi. apply V. exact Hi.
  - unfold tri_multiply_right. rewrite Lm'. assert (Hb' : @length (@num RealLin) b = n) by exact Hb. rewrite Hb', Nat.eqb_refl. cbn [negb].
    eexists. split; [reflexivity|]. split; [rewrite map_length, seq_length; reflexivity|]. intros i Hi. etransitivity; [exact (nth_map_seq _ n i Hi)|].
    rewrite upper_sum by exact Hi. rewrite (inner_sum _ _ (n - i)).
    + rewrite zero_R, Rplus_0_l. replace (n - i)%nat with (S (n - S i)) by lia. rewrite sum_head.
      assert (K : forall q, (q < n - i)%nat -> nth q (skipn i b) 0 * nth q (skipn i (sq_col m i)) 0 = cell m (i + q) i * nth (i + q) b 0).
      { intros q Hq. rewrite !nth_skipn_add, Rmult_comm. apply (f_equal2 Rmult); [|reflexivity]. apply cell_col. cbn [num RealLin] in *. lia. }
      apply (f_equal2 Rplus).
      * etransitivity; [apply K; lia|]. rewrite Nat.add_0_r. reflexivity.
      * apply sum_ext. intros q Hq. etransitivity; [apply K; lia|]. replace (i + S q)%nat with (S i + q)%nat by lia. reflexivity.
    + rewrite skipn_length. cbn [num RealLin] in *. lia.
    + rewrite skipn_length. unfold sq_col. rewrite map_length. unfold sq in *. cbn [num RealLin] in *. lia.
Qed.
Print Assumptions C56_triangular.
Example C56_triangular_case : let m := [[2; 0]; [5; 3]] in fits m 2 /\ forall i, (i < 2)%nat -> Rabs (cell m i i) >= 2 / 100000000000000.
Proof.
  cbv zeta. split; [split; [reflexivity|]; constructor; [reflexivity|]; constructor; [reflexivity|constructor]|].
  intros [|[|i]] Hi; try lia; cbn -[Rabs]; rewrite Rabs_pos_eq; lra.
Qed.

(** Multiplying by the lower triangular matrix from the left leaves the diagonal out. *)
Theorem C56_multiply_left_refuted : exists (m : @sq RealLin) (x b : list R), fits m 1 /\ tri_multiply_left m x = Ok b /\ nth 0 b 0 <> row_times 1 (lower (cell m)) x 0.
Proof.
  exists [[1]], [1], [0]. split; [split; [reflexivity|constructor; [reflexivity|constructor]]|]. split; [reflexivity|]. cbn. lra.
Qed.
Print Assumptions C56_multiply_left_refuted.
(** what it does give *)
Theorem C56_multiply_left (m : @sq RealLin) n (x : list R) : fits m n -> length x = n ->
  exists b, tri_multiply_left m x = Ok b /\ length b = n /\ forall i, (i < n)%nat -> nth i b 0 = row_times n (lower (cell m)) x i - cell m i i * nth i x 0.
Proof.
  intros F Hx. pose proof F as [Lm _]. assert (Lm' : @length (list (@num RealLin)) m = n) by exact Lm. unfold tri_multiply_left. rewrite Lm'.
  replace (@length (@num RealLin) x <? n - 1)%nat with false by (symmetry; apply Nat.ltb_ge; cbn [num RealLin] in *; lia).
  eexists. split; [reflexivity|]. split; [rewrite map_length, seq_length; reflexivity|]. intros i Hi. etransitivity; [exact (nth_map_seq _ n i Hi)|].
  rewrite lower_sum by exact Hi. rewrite (inner_sum _ _ i).
  - rewrite zero_R. set (u := cell m i i * nth i x 0). rewrite Rplus_0_l. replace (sum i (fun q => cell m i q * nth q x 0) + u - u) with (sum i (fun q => cell m i q * nth q x 0)) by ring.
    apply sum_ext. intros q Hq. rewrite nth_firstn_lt by exact Hq. unfold cell, sq_row. rewrite zero_R. apply Rmult_comm.
  - rewrite firstn_length. cbn [num RealLin] in *. lia.
  - pose proof (row_len m n i F Hi) as Q. cbn [num RealLin] in *. lia.
Qed.
Print Assumptions C56_multiply_left.

(** The quadratic form of a dense Cholesky decomposition writes through an empty vector, whatever the matrix. *)
Theorem C56_dense_quadratic_form_refuted {L : Lin} (low : sq) (row : list num) (rows : list (list num)) : low <> [] -> length row = length low ->
  qform (chol_solve low) (row :: rows) = UB.
Proof.
  intros Hl _. unfold qform. cbn [length qform_loop]. unfold get. cbn [nth_error obind]. unfold chol_solve.
  destruct low as [|r low]; [contradiction|]. cbn [length Nat.ltb Nat.leb]. rewrite orb_true_r. reflexivity.
Qed.
Print Assumptions C56_dense_quadratic_form_refuted.

(** In binary64 two perfectly correlated factors decompose, and the second correlated number is infinite. *)
Definition f_perfect : @sq FloatLin := let o := fl_of_Z 1 in [[o; o]; [o; o]].
Theorem C56_perfect_correlation_refuted : match @cholesky FloatLin f_perfect (@epsilon FloatLin) with
  | Ok low => match @chol_correlate FloatLin low [fl_of_Z 1; fl_of_Z 1] with Ok (c, _) => match nth 1 c (fl_of_Z 0) with S754_infinity _ => true | _ => false end | _ => false end
  | _ => false end = true.
Proof. vm_compute. reflexivity. Qed.
Print Assumptions C56_perfect_correlation_refuted.

(** The dense decomposition hands back the start of its output, the diagonal one the next number unused. *)
Theorem C56_next_number_refuted {L : Lin} (low : sq) (z : list num) c r : chol_correlate low z = Ok (c, r) -> r <> NextInput (length low).
Proof. unfold chol_correlate. destruct (_ <? _)%nat; [discriminate|]. intros H. injection H as _ <-. discriminate. Qed.
Print Assumptions C56_next_number_refuted.
Example C56_next_number_case : chol_correlate (L := RealLin) [] [] = Ok ([], StartOfOutput).
Proof. reflexivity. Qed.
