(** C39: tridiagonal linear algebra. *)
From Coq Require Import Reals List Arith Bool Lia Lra.
From Verif Require Import Base Vec InterpModel BandModel BandSpec BandProofs PdeProofs.
Import ListNotations.
Open Scope R_scope.

(** Multiplication by the matrix from the left and from the right is the product with the matrix
    read element by element, and with its transpose. *)
Theorem C39_multiply : forall n t mat x, built n t -> reads t n mat -> length x = n ->
  (exists y, multiply_left t x = Ok y /\ product n mat x y) /\ (exists y, multiply_right t x = Ok y /\ product n (transposed mat) x y).
Proof.
  intros n t mat x B Rd Hx. apply built_wf in B as W. pose proof (reads_entry t n mat W Rd) as M. pose proof W as (H0 & H1 & H2 & H3). split.
  - destruct (multiply_left_ok t n x W Hx) as (y & E & P). exists y. split; [exact E|]. now apply (product_ext n (entry t)).
  - destruct (tri_multiply_ok x (diag t) (below t) (above t) n H0 Hx H1 H3 H2) as (y & E & P). exists y. split; [exact E|]. apply product_swap in P.
    apply (product_ext n (transposed (entry t))); [|exact P]. intros i j Hi Hj. unfold transposed. now apply M.
Qed.
Print Assumptions C39_multiply.

(** Whenever the decomposition succeeds, solving gives a vector whose product is the given one,
    for the matrix (left) and its transpose (right), whichever of the two decompositions was chosen. *)
Theorem C39_solve : forall n t mat c b, built n t -> reads t n mat -> decompose t = Ok c -> length b = n ->
  (exists y, solve_left c b = Ok y /\ length y = n /\ product n mat y b /\ multiply_left t y = Ok b /\ d_multiply_left c y = Ok b) /\
  (exists y, solve_right c b = Ok y /\ length y = n /\ product n (transposed mat) y b /\ multiply_right t y = Ok b /\ d_multiply_right c y = Ok b).
Proof.
  intros n t mat c b B Rd D Hb. apply built_wf in B as W. pose proof (reads_entry t n mat W Rd) as M. pose proof (decompose_ok t n c W D) as DD. pose proof W as (H0 & H1 & H2 & H3).
  pose proof DD as (bi & _ & _ & ML & MR & _ & _). split.
  - destruct (solve_left_ok t n c b W DD Hb) as (y & E & L & P & _). exists y. split; [exact E|]. split; [exact L|]. split; [now apply (product_ext n (entry t))|].
    destruct (multiply_left_ok t n y W L) as (z & Ez & Pz). rewrite ML. unfold multiply_left in *. rewrite Ez, (product_det _ _ _ _ _ Pz P). auto.
  - destruct (solve_right_ok t n c b W DD Hb) as (y & E & L & P & _). exists y. split; [exact E|]. split; [exact L|]. split; [apply (product_ext n (transposed (entry t))); [intros i j Hi Hj; now apply M|exact P]|].
    destruct (tri_multiply_ok y (diag t) (below t) (above t) n H0 L H1 H3 H2) as (z & Ez & Pz). apply product_swap in Pz. rewrite MR. unfold multiply_right in *. rewrite Ez, (product_det _ _ _ _ _ Pz P). auto.
Qed.
Print Assumptions C39_solve.

(** And the other way round: solving with a product gives back the vector that was multiplied. *)
Theorem C39_solve_inverts : forall n t c x b, built n t -> decompose t = Ok c -> length x = n ->
  (multiply_left t x = Ok b -> solve_left c b = Ok x) /\ (multiply_right t x = Ok b -> solve_right c b = Ok x).
Proof.
  intros n t c x b B D Hx. apply built_wf in B as W. pose proof (decompose_ok t n c W D) as DD. pose proof W as (H0 & H1 & H2 & H3). split; intros E.
  - destruct (multiply_left_ok t n x W Hx) as (z & Ez & Pz). assert (z = b) as -> by congruence. destruct (solve_left_ok t n c b W DD (proj1 Pz)) as (y & Ey & _ & _ & U). rewrite Ey. f_equal. symmetry. now apply U.
  - destruct (tri_multiply_ok x (diag t) (below t) (above t) n H0 Hx H1 H3 H2) as (z & Ez & Pz). unfold multiply_right in E. assert (z = b) as -> by congruence. apply product_swap in Pz.
    destruct (solve_right_ok t n c b W DD (proj1 Pz)) as (y & Ey & _ & _ & U). rewrite Ey. f_equal. symmetry. now apply U.
Qed.
Print Assumptions C39_solve_inverts.

(** The decomposition either succeeds or throws; it succeeds for every matrix whose diagonal
    outweighs the rest of each row by EPSILON. *)
Theorem C39_decompose : forall n t mat, built n t -> reads t n mat ->
  (decompose t = Throw \/ exists c, decompose t = Ok c) /\ (dominant n mat epsilon -> exists c, decompose t = Ok c).
Proof.
  intros n t mat B Rd. apply built_wf in B as W. split; [now apply (decompose_total t n)|]. intros H. apply (decompose_succeeds t n W). apply dominant_heavy; [exact W|].
  intros i Hi. rewrite (reads_entry t n mat W Rd) by lia. rewrite (sum_ext n _ (fun j => if (j =? i)%nat then 0 else Rabs (mat i j))); [now apply H|].
  intros j Hj. destruct (Nat.eqb_spec j i); [reflexivity|]. now rewrite (reads_entry t n mat W Rd).
Qed.
Print Assumptions C39_decompose.

(** Multiplying a vector in place with the matrix object does not give the product. *)
Theorem C39_in_place_refuted : exists t x y z, built 2 t /\ length x = 2%nat /\ multiply_left t x = Ok y /\ tri_multiply_aliased x (diag t) (above t) (below t) = Ok z /\ y <> z.
Proof.
  exists (Tri [1; 1] [1] [1]), [1; 1], [1 * 1 + 1 * 1; 1 * 1 + 1 * 1], [1 * 1 + 1 * 1 * 1; 1 * 1 + (1 * 1 + 1 * 1 * 1) * 1]. split; [|split; [reflexivity|split; [reflexivity|split; [reflexivity|]]]].
  - apply (built_set 2 (Tri [1; 1] [1] [0]) 1 0 1); [|lia|lia|reflexivity]. apply (built_set 2 (Tri [1; 1] [0] [0]) 0 1 1); [|lia|lia|reflexivity].
    apply (built_set 2 (Tri [1; 0] [0] [0]) 1 1 1); [|lia|lia|reflexivity]. apply (built_set 2 (Tri [0; 0] [0] [0]) 0 0 1); [|lia|lia|reflexivity]. apply built_new. reflexivity.
  - intros E. injection E as _ E. lra.
Qed.
Print Assumptions C39_in_place_refuted.

(** the matrix (2 1; -1 2), whose two bands differ, meets all hypotheses *)
Definition ex_tri : tri := Tri [2; 2] [1] [-1].
Lemma ex_built : built 2 ex_tri.
Proof.
  apply (built_set 2 (Tri [2; 2] [1] [0]) 1 0 (-1)); [|lia|lia|reflexivity]. apply (built_set 2 (Tri [2; 2] [0] [0]) 0 1 1); [|lia|lia|reflexivity].
  apply (built_set 2 (Tri [2; 0] [0] [0]) 1 1 2); [|lia|lia|reflexivity]. apply (built_set 2 (Tri [0; 0] [0] [0]) 0 0 2); [|lia|lia|reflexivity]. apply built_new. reflexivity.
Qed.
Definition ex_mat (i j : nat) : R := match i, j with O, O => 2 | O, S O => 1 | S O, O => -1 | S O, S O => 2 | _, _ => 0 end.
Lemma ex_reads : reads ex_tri 2 ex_mat.
Proof. intros [|[|i]] [|[|j]] Hi Hj; try lia; reflexivity. Qed.
Example C39_decompose_example : dominant 2 ex_mat epsilon.
Proof. intros [|[|i]] Hi; try lia; cbn; unfold Rabs, epsilon; repeat destruct (Rcase_abs _); lra. Qed.
Example C39_solve_example : exists c, built 2 ex_tri /\ reads ex_tri 2 ex_mat /\ decompose ex_tri = Ok c /\ length [1; 2] = 2%nat.
Proof. destruct (proj2 (C39_decompose 2 ex_tri ex_mat ex_built ex_reads) C39_decompose_example) as [c E]. exists c. auto using ex_built, ex_reads. Qed.
