(** C57: conjugate gradients. *)
From Coq Require Import Reals List Arith Lia Lra Bool ZArith SpecFloat.
From Verif Require Import Base DateModel LinNum BandSpec BandProofs CholSpec CgModel CgSpec CgAlgebra CgProofs.
Import ListNotations.
Local Open Scope R_scope.

Lemma limit_value d n (b : list R) tr ta : length b = n -> @limit (RealDiv d) b tr ta = tr * size_of n b + ta.
Proof.
  intros Hb. unfold limit, norm, size_of. cbn [nadd nmul nsqrt RealDiv]. rewrite (inner_dot d n) by exact Hb. f_equal. f_equal. f_equal.
  unfold dot, at_. apply sum_ext. intros. ring.
Qed.
Lemma accepted d n (b x : list R) tr ta k : @acceptable (RealDiv d) n b x tr ta k = true -> length b = n /\ length x = n.
Proof. unfold acceptable. rewrite !andb_true_iff, !Nat.eqb_eq. intros [[H1 H2] _]. split; assumption. Qed.

(** What CGSolve and BCGSolve return is within the tolerance: for any matrix, any preconditioner, any tolerances and start, and whatever a
    division by zero gives. *)
Theorem C57_within_tolerance (d : R -> R -> R) n a times pre b tol_rel tol_abs max_iterations x y :
  multiplies n a times -> (forall r, length r = n -> length (pre r) = n) ->
  @cg_solve (RealDiv d) n times pre b tol_rel tol_abs max_iterations x = Ok y ->
  length y = n /\ residual n a b y <= tol_rel * size_of n b + tol_abs.
Proof.
  intros Ht Hp H. unfold cg_solve in H. destruct (acceptable _ _ _ _ _ _) eqn:E; [|discriminate]. apply accepted in E. destruct E as [Hb Hx].
  rewrite (limit_value d n) in H by exact Hb. exact (loop_residual d n a times pre b Ht Hp Hb _ x y _ Hx H).
Qed.
Print Assumptions C57_within_tolerance.
Theorem C57_two_sided (d : R -> R -> R) n a times times_right pre pre_right b tol_rel tol_abs max_iterations x y :
  multiplies n a times -> (forall r, length r = n -> length (pre r) = n) ->
  @bcg_solve (RealDiv d) n times times_right pre pre_right b tol_rel tol_abs max_iterations x = Ok y ->
  length y = n /\ residual n a b y <= tol_rel * size_of n b + tol_abs.
Proof.
  intros Ht Hp H. unfold bcg_solve in H. destruct (acceptable _ _ _ _ _ _) eqn:E; [|discriminate]. apply accepted in E. destruct E as [Hb Hx].
  rewrite (limit_value d n) in H by exact Hb. exact (bloop_residual d n a times times_right pre pre_right b Ht Hp Hb _ y _ _ _ (bstart_ok d n a times b Ht Hb x Hx) H).
Qed.
Print Assumptions C57_two_sided.

(** With a symmetric positive definite matrix and preconditioner the solution is found in at most n turns, without dividing by zero,
    from any start that is not the solution already. *)
Theorem C57_finds (d : R -> R -> R) n a m times pre b tol_rel tol_abs max_iterations x :
  (forall u v, v <> 0 -> d u v = u / v) ->
  symmetric n a -> positive_definite n a -> multiplies n a times -> symmetric n m -> positive_definite n m -> multiplies n m pre ->
  length b = n -> length x = n -> ~ solves n a x b ->
  0 <= tol_rel -> 0 <= tol_abs -> 2 / 100000000000000 <= tol_rel \/ 2 / 100000000000000 <= tol_abs -> (Z.of_nat n <= max_iterations)%Z ->
  exists y, @cg_solve (RealDiv d) n times pre b tol_rel tol_abs max_iterations x = Ok y /\ length y = n /\ residual n a b y <= tol_rel * size_of n b + tol_abs.
Proof.
  intros Hd As Ap Ht Ms Mp Hp Hb Hx Ns T1 T2 T3 Hk.
  assert (Pl : forall r, length r = n -> length (pre r) = n) by (intros r Hr; apply Hp; exact Hr).
  assert (Nz : nonzero n (cg_r (@cg_start (RealDiv d) n times b x))).
  { destruct (start_ok d n a times b Ht Hb x Hx) as (_ & _ & _ & V). set (r := cg_r _) in *.
    assert (D : nonzero n r \/ forall i, (i < n)%nat -> @nth R i r 0 = 0).
    { unfold nonzero. generalize n as q. induction q as [|q [(i & Hi & E)|IH]].
      - right. intros i Hi. lia.
      - left. exists i. split; [lia|exact E].
      - destruct (Req_dec (@nth R q r 0) 0) as [E|E]; [|left; exists q; split; [lia|exact E]]. right. intros i Hi. destruct (Nat.eq_dec i q) as [->|Ne]; [exact E|apply IH; lia]. }
    destruct D as [D|D]; [exact D|]. exfalso. apply Ns. intros i Hi. specialize (V i Hi). rewrite D in V by exact Hi. cbn [cg_start cg_x] in V. lra. }
  assert (Np : (0 < n)%nat) by (destruct Nz as (i & Hi & _); lia).
  assert (Ac : @acceptable (RealDiv d) n b x tol_rel tol_abs max_iterations = true).
  { unfold acceptable. cbn [num RealDiv]. rewrite Hb, Hx, Nat.eqb_refl. cbn [andb]. apply andb_true_iff. split; [|apply Z.ltb_lt; lia].
    unfold is_positive. cbn [nltb neqb epsilon RealDiv]. apply orb_true_iff. destruct T3 as [T|T]; [left|right].
    - destruct (Rlt_dec _ tol_rel); [reflexivity|]. destruct (Req_EM_T _ tol_rel); [reflexivity|lra].
    - destruct (Rlt_dec _ tol_abs); [reflexivity|]. destruct (Req_EM_T _ tol_abs); [reflexivity|lra]. }
  assert (L0 : 0 <= @limit (RealDiv d) b tol_rel tol_abs).
  { rewrite (limit_value d n) by exact Hb. apply Rplus_le_le_0_compat; [|exact T2]. apply Rmult_le_pos; [exact T1|apply sqrt_pos]. }
  destruct (loop_ends d n a m times pre b Ht Pl Hb As Ap Ms Mp Hp Hd (@limit (RealDiv d) b tol_rel tol_abs) x (Z.to_nat max_iterations) Hx Nz L0 ltac:(lia)) as (y & Ey).
  exists y. assert (E : @cg_solve (RealDiv d) n times pre b tol_rel tol_abs max_iterations x = Ok y) by (unfold cg_solve; rewrite Ac; exact Ey).
  split; [exact E|]. exact (C57_within_tolerance d n a times pre b tol_rel tol_abs max_iterations x y Ht Pl E).
Qed.
Print Assumptions C57_finds.

(** On a symmetric matrix with a symmetric preconditioner BCGSolve does what CGSolve does, in any arithmetic. *)
Theorem C57_symmetric {L : Lin} n times pre b tol_rel tol_abs max_iterations x :
  bcg_solve n times times pre pre b tol_rel tol_abs max_iterations x = cg_solve n times pre b tol_rel tol_abs max_iterations x.
Proof. unfold bcg_solve, cg_solve. destruct (acceptable _ _ _ _ _ _); [|reflexivity]. apply bcg_same; reflexivity. Qed.
Print Assumptions C57_symmetric.

(** Started from the solution CGSolve fails in binary64, however many turns are allowed: it divides zero by zero. *)
Definition f_one : @num FloatLin := fl_of_Z 1.
Definition f_id (x : list (@num FloatLin)) : list (@num FloatLin) := map (fun v => @nmul FloatLin f_one v) x.
Definition fstate (x r p : spec_float) (beta : spec_float) : @cg_state FloatLin := @CgState FloatLin [x] [r] [p] beta.
Lemma fstate_eq (s : @cg_state FloatLin) (x r p beta : spec_float) :
  @eq (list spec_float) (cg_x s) [x] -> @eq (list spec_float) (cg_r s) [r] -> @eq (list spec_float) (cg_p s) [p] -> @eq spec_float (cg_beta s) beta -> s = fstate x r p beta.
Proof. destruct s as [x' r' p' beta']. cbn [cg_x cg_r cg_p cg_beta]. intros -> -> -> ->. reflexivity. Qed.
Lemma f_first : @cg_step FloatLin f_id (fun r => r) true (@cg_start FloatLin 1 f_id [f_one] [f_one]) = fstate S754_nan S754_nan (S754_zero false) (S754_zero false).
Proof. apply fstate_eq; vm_compute; reflexivity. Qed.
Lemma f_second : @cg_step FloatLin f_id (fun r => r) false (fstate S754_nan S754_nan (S754_zero false) (S754_zero false)) = fstate S754_nan S754_nan S754_nan S754_nan.
Proof. apply fstate_eq; vm_compute; reflexivity. Qed.
Lemma f_third : @cg_step FloatLin f_id (fun r => r) false (fstate S754_nan S754_nan S754_nan S754_nan) = fstate S754_nan S754_nan S754_nan S754_nan.
Proof. apply fstate_eq; vm_compute; reflexivity. Qed.
Definition f_limit : @num FloatLin := @limit FloatLin [f_one] (fl_lit 1 1000000) (fl_of_Z 0).
Lemma f_not_done x p beta : @le FloatLin (@norm FloatLin (cg_r (fstate x S754_nan p beta))) f_limit = false.
Proof. unfold fstate. cbn [cg_r]. vm_compute. reflexivity. Qed.
Theorem C57_from_solution_refuted max_iterations : f_id [f_one] = [f_one] /\
  @cg_solve FloatLin 1 f_id (fun r => r) [f_one] (fl_lit 1 1000000) (fl_of_Z 0) max_iterations [f_one] = Throw.
Proof.
  split; [vm_compute; reflexivity|]. unfold cg_solve. destruct (acceptable _ _ _ _ _ _); [|reflexivity]. fold f_limit.
  assert (St : forall k, @cg_loop FloatLin f_id (fun r => r) f_limit false k (fstate S754_nan S754_nan S754_nan S754_nan) = Throw).
  { induction k as [|k IH]; [reflexivity|]. cbn [cg_loop]. rewrite f_third, f_not_done. exact IH. }
  destruct (Z.to_nat max_iterations) as [|k]; [reflexivity|]. cbn [cg_loop]. rewrite f_first, f_not_done.
  destruct k as [|k]; [reflexivity|]. cbn [cg_loop]. rewrite f_second, f_not_done. apply St.
Qed.
Print Assumptions C57_from_solution_refuted.

(** The hypotheses of C57_finds hold of a real case: [[2, 1], [1, 3]] with no preconditioner. *)
Definition ex_a (i j : nat) : R := match i, j with 0%nat, 0%nat => 2 | 1%nat, 1%nat => 3 | _, _ => 1 end.
Definition ex_id (i j : nat) : R := if (i =? j)%nat then 1 else 0.
Definition ex_times (x : list R) : list R := match x with [u; v] => [2 * u + v; u + 3 * v] | _ => x end.
Example C57_case : exists y, @cg_solve (RealDiv Rdiv) 2 ex_times (fun r => r) [1; 2] (1 / 1000) 0 2 [0; 0] = Ok y /\ length y = 2%nat /\ residual 2 ex_a [1; 2] y <= 1 / 1000 * size_of 2 [1; 2] + 0.
Proof.
  apply (C57_finds Rdiv 2 ex_a ex_id); try reflexivity; try lra; try lia.
  - intros [|[|i]] [|[|j]] Hi Hj; try lia; reflexivity.
  - intros [|u [|v [|]]] Lx; try discriminate Lx. intros (i & Hi & Ne). unfold row_times. cbn.
    assert (u <> 0 \/ v <> 0) by (destruct i as [|[|i]]; [left|right|lia]; exact Ne). assert (0 < u * u \/ 0 < v * v) by (destruct H; [left|right]; apply Rsqr_pos_lt; assumption).
    pose proof (Rle_0_sqr u). pose proof (Rle_0_sqr v). pose proof (Rle_0_sqr (u + v)). unfold Rsqr in *. nra.
  - intros [|u [|v [|]]] Lx; try discriminate Lx. split; [reflexivity|]. intros [|[|i]] Hi; try lia; unfold row_times; cbn; ring.
  - intros i j _ _. unfold ex_id. rewrite Nat.eqb_sym. reflexivity.
  - intros [|u [|v [|]]] Lx; try discriminate Lx. intros (i & Hi & Ne). unfold row_times. cbn.
    assert (u <> 0 \/ v <> 0) by (destruct i as [|[|i]]; [left|right|lia]; exact Ne). assert (0 < u * u \/ 0 < v * v) by (destruct H; [left|right]; apply Rsqr_pos_lt; assumption).
    pose proof (Rle_0_sqr u). pose proof (Rle_0_sqr v). unfold Rsqr in *. nra.
  - intros [|u [|v [|]]] Lx; try discriminate Lx. split; [reflexivity|]. intros [|[|i]] Hi; try lia; unfold row_times; cbn; ring.
  - intros H. specialize (H 0%nat ltac:(lia)). unfold row_times in H. cbn in H. lra.
Qed.
