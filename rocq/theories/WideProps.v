(** C58: general band matrices. *)
From Coq Require Import Reals List Arith Bool ZArith SpecFloat Lia Lra.
From Verif Require Import Base DateModel BandSpec LinNum WideModel WideSpec.
From Verif Require Vec WideProofs.
Import ListNotations.
Local Open Scope R_scope.

(** Elements read back as written, and are zero where nothing was written. *)
Theorem C58_read_back n above below w mat i j : written n above below w mat -> (i < n)%nat -> (j < n)%nat ->
  band_at w i j = Ok (mat i j) /\ (~ in_band above below i j -> mat i j = 0).
Proof. intros H Hi Hj. apply WideProofs.written_holds in H. split; [exact (WideProofs.read_ok _ _ _ _ _ _ _ H Hi Hj)|]. intros N. apply H; assumption. Qed.
Print Assumptions C58_read_back.
(** Set and Add work within the band and throw outside it. *)
Theorem C58_writes n above below w mat i j v : written n above below w mat -> (i < n)%nat -> (j < n)%nat ->
  (in_band above below i j -> (exists w', band_set w i j v = Ok w') /\ exists w', band_add w i j v = Ok w') /\
  (~ in_band above below i j -> band_set w i j v = Throw /\ band_add w i j v = Throw).
Proof.
  intros H Hi Hj. apply WideProofs.written_holds in H. split.
  - intros I. rewrite (WideProofs.add_ok _ _ _ _ _ _ _ v H Hi Hj I). unfold band_set.
    destruct (WideProofs.put_ok _ _ _ _ _ _ _ v H Hi Hj I) as (w1 & E1 & _).
    destruct (WideProofs.put_ok _ _ _ _ _ _ _ (mat i j + v) H Hi Hj I) as (w2 & E2 & _). split; eexists; eassumption.
  - apply WideProofs.put_out with (n := n) (mat := mat). exact H.
Qed.
Print Assumptions C58_writes.
(** MultiplyLeft is the product with the matrix, MultiplyRight the product with its transpose; vectors of another size are rejected. *)
Theorem C58_multiply n above below w mat x : written n above below w mat ->
  (length x = n -> (exists r, band_multiply false w x = Ok r /\ product n mat x r) /\ (exists r, band_multiply true w x = Ok r /\ product n (transposed mat) x r)) /\
  (length x <> n -> band_multiply false w x = Throw /\ band_multiply true w x = Throw).
Proof.
  intros H. apply WideProofs.written_holds in H. split; [exact (WideProofs.multiply_ok _ _ _ _ _ x H)|].
  intros N. destruct H as (_ & _ & Ln & _). unfold band_multiply. assert (E : (size w =? @length R x)%nat = false) by (apply Nat.eqb_neq; unfold size; intros E; apply N; exact (eq_trans (eq_sym E) Ln)).
  change (@length (@num RealLin) x) with (@length R x). rewrite E. split; reflexivity.
Qed.
Print Assumptions C58_multiply.
(** The lower band solve finds the solution, in a fresh vector or in place, unless a diagonal element counts as zero: then it throws. *)
Theorem C58_lower_solve n below w mat b x : written n 0 below w mat -> length b = n ->
  (solid_diagonal n mat -> (exists y, lsolve w b x = Ok y /\ product n mat y b) /\ exists y, lsolve_in_place w b = Ok y /\ product n mat y b) /\
  (~ solid_diagonal n mat -> lsolve w b x = Throw /\ lsolve_in_place w b = Throw).
Proof.
  intros H Lb. apply WideProofs.written_holds in H. split.
  - intros Sd. split; [apply (WideProofs.lsolve_ok n below); assumption|apply (WideProofs.lsolve_in_place_ok n below); assumption].
  - intros N. assert (E : exists i, (i < n)%nat /\ Rabs (mat i i) < @epsilon RealLin).
    { clear - N. unfold solid_diagonal in N. induction n as [|k IH]; [exfalso; apply N; lia|].
      destruct (Rlt_le_dec (Rabs (mat k k)) (@epsilon RealLin)) as [D|D]; [exists k; split; [lia|exact D]|].
      destruct IH as (i & Hi & Di); [|exists i; split; [lia|exact Di]]. intros F. apply N. intros i Hi. destruct (Nat.eq_dec i k) as [->|]; [exact D|apply F; lia]. }
    destruct E as (i & Hi & Di). exact (WideProofs.lsolve_throws n below w mat b x i H Lb Hi Di).
Qed.
Print Assumptions C58_lower_solve.

(** IsSymmetric of a symmetric matrix with at least one diagonal below the main one reads beyond the last row; it is never true. *)
Theorem C58_symmetric_refuted n above below w mat : written n above below w mat -> (0 < n)%nat -> (0 < below)%nat ->
  is_symmetric w <> Ok true /\ (equal_transpose n mat -> is_symmetric w = UB).
Proof.
  intros H Hn Hb. apply WideProofs.written_holds in H. split; [exact (WideProofs.never_symmetric _ _ _ _ _ H Hn Hb)|].
  intros Sy. exact (WideProofs.symmetric_ub _ _ _ _ _ H Sy Hn Hb).
Qed.
Print Assumptions C58_symmetric_refuted.
(** Decompose, which a band matrix that is not tridiagonal inherits, never gives a decomposition. *)
Theorem C58_decompose_refuted n above below w mat : written n above below w mat -> (0 < n)%nat -> (2 <= above \/ 2 <= below)%nat ->
  forall d, band_decompose w <> Ok d.
Proof. intros H. apply WideProofs.written_holds in H. exact (WideProofs.decompose_never _ _ _ _ _ H). Qed.
Print Assumptions C58_decompose_refuted.
(** The factorization itself fails for every matrix with more than one row, however positive definite. *)
Theorem C58_factor_refuted n above below w mat : written n above below w mat -> (2 <= n)%nat -> (0 < below)%nat -> band_cholesky w = Throw.
Proof. intros H. apply WideProofs.written_holds in H. exact (WideProofs.cholesky_throws _ _ _ _ _ H). Qed.
Print Assumptions C58_factor_refuted.
(** The solve with the transposed factor reads beyond the end of its vector. *)
Theorem C58_transpose_solve_refuted n below w mat b x : written n 0 below w mat -> (0 < n)%nat -> (0 < below)%nat -> length b = n -> ltsolve w b x = UB.
Proof. intros H. apply WideProofs.written_holds in H. exact (WideProofs.transpose_solve_ub _ _ _ _ _ _ H). Qed.
Print Assumptions C58_transpose_solve_refuted.

(** a matrix with two diagonals below the main one and none above *)
Definition demo_entries (i j : nat) : R := updated (updated (updated (updated (fun _ _ => 0) 0 0 2) 1 1 2) 1 0 3) 2 0 (0 + 5) i j.
Example C58_case : exists w, written 3 0 2 w demo_entries /\ ~ solid_diagonal 3 demo_entries /\
  exists w2, written 3 0 2 w2 (updated demo_entries 2 2 1) /\ solid_diagonal 3 (updated demo_entries 2 2 1).
Proof.
  assert (W1 : forall i j w m, written 3 0 2 w m -> (i < 3)%nat -> (j < 3)%nat -> in_band 0 2 i j -> forall v, exists w', written 3 0 2 w' (updated m i j v)).
  { intros i j w m H Hi Hj I v. destruct (C58_writes _ _ _ _ _ i j v H Hi Hj) as [[[w' E] _] _]; [exact I|]. exists w'. eapply written_set; eassumption. }
  destruct (W1 0%nat 0%nat _ _ (written_new 3 0 2) ltac:(lia) ltac:(lia) ltac:(split; lia) 2) as [w1 H1].
  destruct (W1 1%nat 1%nat _ _ H1 ltac:(lia) ltac:(lia) ltac:(split; lia) 2) as [w2 H2].
  destruct (W1 1%nat 0%nat _ _ H2 ltac:(lia) ltac:(lia) ltac:(split; lia) 3) as [w3 H3].
  destruct (C58_writes _ _ _ _ _ 2%nat 0%nat 5 H3 ltac:(lia) ltac:(lia)) as [[_ [w4 E4]] _]; [split; lia|].
  assert (H4 : written 3 0 2 w4 demo_entries) by (refine (written_add _ _ _ _ _ 2%nat 0%nat 5 _ H3 _ _ E4); lia).
  exists w4. split; [exact H4|]. split.
  - intros N. specialize (N 2%nat ltac:(lia)). change (demo_entries 2 2) with 0 in N. rewrite Rabs_R0 in N. pose proof WideProofs.eps_pos. lra.
  - destruct (W1 2%nat 2%nat _ _ H4 ltac:(lia) ltac:(lia) ltac:(split; lia) 1) as [w5 H5]. exists w5. split; [exact H5|].
    intros [|[|[|i]]] Hi; [| | |lia]; cbn [epsilon RealLin].
    + change (updated demo_entries 2 2 1 0 0) with 2. rewrite Rabs_right; lra.
    + change (updated demo_entries 2 2 1 1 1) with 2. rewrite Rabs_right; lra.
    + change (updated demo_entries 2 2 1 2 2) with 1. rewrite Rabs_right; lra.
Qed.

(** LowerBandAccumulator_::Add should keep the sum of squares. With one row, adding u and then v leaves a number whose square is
    u^2 + v^2 only if u = v. *)
Theorem C58_accumulator_refuted u v : @epsilon RealLin <= u -> @epsilon RealLin <= v ->
  exists w, obind (@acc_add RealLin 1 (acc_new 1 0) [u] (-1)) (fun a => acc_add 1 a [v] (-1)) = Ok [[w]] /\ (w * w = u * u + v * v <-> u = v).
Proof.
  intros Hu Hv. pose proof WideProofs.eps_pos as He.
  assert (Nz : forall z, @epsilon RealLin <= z -> @is_zero RealLin z = false).
  { intros z Hz. unfold is_zero. cbn [nltb RealLin]. destruct (Rlt_dec z (@epsilon RealLin)); [lra|reflexivity]. }
  set (r := R_sqrt.sqrt (v * v + u * u)).
  assert (Hr : 0 < r) by (apply R_sqrt.sqrt_lt_R0; nra).
  assert (Rr : r * r = v * v + u * u) by (apply R_sqrt.sqrt_sqrt; nra).
  exists (u / r * u + v / r * u). split.
  - assert (A1 : @acc_add RealLin 1 (acc_new 1 0) [u] (-1) = Ok [[u]]).
    { change (@acc_add RealLin 1 (acc_new 1 0) [u] (-1)) with (@acc_loop RealLin 1 [[zero]] [u] 1).
      cbn [acc_loop Vec.get nth_error obind length Nat.sub firstn skipn app all_zero forallb].
      rewrite (WideProofs.zero_is_zero (@zero RealLin) eq_refl). reflexivity. }
    rewrite A1. cbn [obind]. change (@acc_add RealLin 1 [[u]] [v] (-1)) with (@acc_loop RealLin 1 [[u]] [v] 1).
    cbn [acc_loop Vec.get nth_error obind length Nat.sub firstn skipn app all_zero forallb].
    rewrite (Nz u Hu), (Nz v Hv). cbn [andb back last rotate_pairs].
    replace (@is_zero RealLin _) with true. { reflexivity. }
    symmetry. apply WideProofs.zero_is_zero. unfold square. cbn [nsub nmul ndiv nadd nsqrt RealLin]. fold r. field. lra.
  - replace ((u / r * u + v / r * u) * (u / r * u + v / r * u)) with (u * u * ((u + v) * (u + v)) / (r * r)) by (field; lra).
    rewrite Rr. assert (P : 0 < v * v + u * u) by nra. split.
    + intros E. assert (E2 : u * u * ((u + v) * (u + v)) = (u * u + v * v) * (v * v + u * u)) by (rewrite <- E; field; lra).
      assert (E3 : (u * (u + v) - (u * u + v * v)) * (u * (u + v) + (u * u + v * v)) = 0) by nra.
      apply Rmult_integral in E3. destruct E3 as [E3|E3]; [|nra]. assert (E4 : v * (u - v) = 0) by nra. apply Rmult_integral in E4. lra.
    + intros <-. field. nra.
Qed.
Print Assumptions C58_accumulator_refuted.
(** Adding 3 and then 4 in binary64 gives about 4.2 instead of 5. *)
Example C58_three_four :
  match obind (@acc_add FloatLin 1 (@acc_new FloatLin 1 0) [fl_of_Z 3] (-1)) (fun a => @acc_add FloatLin 1 a [fl_of_Z 4] (-1)) with
  | Ok [[w]] => SFltb (fl_lit 419 100) w && SFltb w (fl_lit 421 100) | _ => false end = true.
Proof. vm_compute. reflexivity. Qed.
(** SolveRight gives the solution of the system with the matrix, not with its transpose: with rows (1, 0) and (1, 1) and right-hand side
    (1, 1) its answer is (1, 0), and the last equation of the transposed system, 1 * x = 1, fails. *)
Definition two_rows : outcome (list (list spec_float)) :=
  obind (@acc_add FloatLin 2 (@acc_new FloatLin 2 1) [fl_of_Z 1] (-1)) (fun a => @acc_add FloatLin 2 a [fl_of_Z 1; fl_of_Z 1] (-1)).
Theorem C58_solve_right_refuted :
  exists rows x0 x1, two_rows = Ok rows /\ @acc_solve_right FloatLin 2 rows [fl_of_Z 1; fl_of_Z 1] [] = Ok [x0; x1] /\
    rows = [[fl_of_Z 0; fl_of_Z 1]; [fl_of_Z 1; fl_of_Z 1]] /\ SFeqb (fmul (fl_of_Z 1) x1) (fl_of_Z 1) = false.
Proof.
  exists [[fl_of_Z 0; fl_of_Z 1]; [fl_of_Z 1; fl_of_Z 1]], (fl_of_Z 1), (fl_of_Z 0).
  split; [vm_compute; reflexivity|]. split; [vm_compute; reflexivity|]. split; [reflexivity|]. vm_compute. reflexivity.
Qed.
Print Assumptions C58_solve_right_refuted.

(** What holds of Add in any arithmetic: a vector longer than the band, or one that would end below the last row, is refused; otherwise nothing is
    read or written out of range, and an accumulator that is not refused keeps its number of rows and their width. *)
Theorem C58_accumulator_shape {L : Lin} : forall cols (rows : list (list num)) v offset, Forall (fun r => length r = cols) rows ->
  ((cols < length v)%nat \/ (Z.of_nat (length rows) <= Z.of_nat (length v) + offset)%Z -> acc_add cols rows v offset = Throw) /\
  match acc_add cols rows v offset with Ok rows' => length rows' = length rows /\ Forall (fun r => length r = cols) rows' | Throw => True | _ => False end.
Proof.
  intros cols rows v offset F. unfold acc_add. split.
  - intros [H|H]; [replace (cols <? length v)%nat with true by (symmetry; now apply Nat.ltb_lt); reflexivity|]. replace (Z.of_nat (length rows) <=? _)%Z with true by (symmetry; now apply Z.leb_le). rewrite orb_true_r. reflexivity.
  - destruct (cols <? length v)%nat eqn:E1; [exact I|]. destruct (Z.of_nat (length rows) <=? Z.of_nat (length v) + offset)%Z eqn:E2; [exact I|]. cbn [orb].
    apply WideProofs.acc_loop_shape; [exact F|apply Nat.ltb_ge in E1; exact E1|lia].
Qed.
Print Assumptions C58_accumulator_shape.
Example C58_shape_case : Forall (fun r => length r = 2%nat) (@acc_new FloatLin 2 1) /\ exists rows, two_rows = Ok rows /\ @acc_add FloatLin 2 rows [fl_of_Z 1] 1 = Throw.
Proof. split; [repeat constructor|]. eexists. split; [vm_compute; reflexivity|]. vm_compute. reflexivity. Qed.
