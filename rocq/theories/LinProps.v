(** C55: products of dense matrices and vectors, also into one of the operands; squares of a matrix; volatilities and correlations. *)
From Coq Require Import ZArith Reals List Arith Lia Lra Bool.
From Verif Require Import Base Vec LinNum LinModel BandSpec BandProofs LinSpec LinProofs LinUpper.
Import ListNotations.
Local Open Scope R_scope.
Local Existing Instance RealLin.

(** For matrices of any fitting shapes and any places for operands and result (the same place may be used twice or three times),
    the result is the matrix product of what the operands held before the call, and nothing else changes. *)
Theorem C55_matrix_matrix (left right result : nat) (mem : store matrix) :
  shaped (mem left) -> shaped (mem right) -> mcols (mem left) = nrows (mem right) ->
  exists mem', multiply_mm left right result mem = Ok mem' /\
    is_matrix (mem' result) (nrows (mem left)) (mcols (mem right)) (fun i j => sum (mcols (mem left)) (fun k => entry (mem left) i k * entry (mem right) k j)) /\
    forall place, place <> result -> mem' place = mem place.
Proof. intros H1 H2 H3. destruct (multiply_mm_ok left right result mem H1 H2 H3) as (m & E & O & V). exists m. auto. Qed.
Print Assumptions C55_matrix_matrix.

Theorem C55_matrix_vector (left : matrix) (right result : nat) (mem : store (list num)) :
  shaped left -> mcols left = length (mem right) ->
  exists mem', multiply_mv left right result mem = Ok mem' /\
    is_vector (mem' result) (nrows left) (fun i => sum (mcols left) (fun k => entry left i k * nth k (mem right) 0)) /\
    forall place, place <> result -> mem' place = mem place.
Proof. intros H1 H2. destruct (multiply_mv_ok left right result mem H1 H2) as (m & E & O & V). exists m. auto. Qed.
Print Assumptions C55_matrix_vector.

Theorem C55_vector_matrix (left : nat) (right : matrix) (result : nat) (mem : store (list num)) :
  shaped right -> length (mem left) = nrows right ->
  exists mem', multiply_vm left right result mem = Ok mem' /\
    is_vector (mem' result) (mcols right) (fun j => sum (nrows right) (fun k => nth k (mem left) 0 * entry right k j)) /\
    forall place, place <> result -> mem' place = mem place.
Proof. intros H1 H2. destruct (multiply_vm_ok left right result mem H1 H2) as (m & E & O & V). exists m. auto. Qed.
Print Assumptions C55_vector_matrix.

(** Shapes that do not fit are refused, whatever the numbers. *)
Theorem C55_misfit {L : Lin} :
  (forall left right result (mem : store matrix), mcols (mem left) <> nrows (mem right) -> multiply_mm left right result mem = Throw) /\
  (forall left right result (mem : store (list num)), mcols left <> length (mem right) -> multiply_mv left right result mem = Throw) /\
  (forall left right result (mem : store (list num)), length (mem left) <> nrows right -> multiply_vm left right result mem = Throw) /\
  (forall left w right, length left <> nrows w \/ length right <> mcols w -> weighted left w right = Throw) /\
  (forall a h, nrows h <> nrows a \/ mcols h <> nrows a -> add_j_squared a h = Throw) /\
  (forall cov, mcols cov <> nrows cov -> vols cov = Throw).
Proof.
  unfold multiply_mm, multiply_mv, multiply_vm, weighted, add_j_squared, vols.
  split; [intros ? ? ? ? H; apply Nat.eqb_neq in H; now rewrite H|].
  split; [intros ? ? ? ? H; apply Nat.eqb_neq in H; now rewrite H|].
  split; [intros ? ? ? ? H; apply Nat.eqb_neq in H; now rewrite H|].
  split; [intros ? ? ? [H|H]; apply Nat.eqb_neq in H; rewrite H; [reflexivity|now rewrite orb_true_r]|].
  split; [intros ? ? [H|H]; apply Nat.eqb_neq in H; rewrite H; [reflexivity|now rewrite andb_false_r]|].
  intros ? H; apply Nat.eqb_neq in H; now rewrite H.
Qed.
Print Assumptions C55_misfit.

(** The bilinear form. *)
Theorem C55_weighted (left right : list num) (w : matrix) : shaped w -> length left = nrows w -> length right = mcols w ->
  weighted left w right = Ok (sum (nrows w) (fun i => nth i left 0 * sum (mcols w) (fun j => entry w i j * nth j right 0))).
Proof.
  intros H1 H2 H3. unfold weighted. rewrite H2, H3, !Nat.eqb_refl. cbn [negb orb].
  rewrite weighted_loop_ok by (try assumption; reflexivity). f_equal. rewrite zero_R. cbn [Nat.add nadd]. lra.
Qed.
Print Assumptions C55_weighted.

(** AddJSquaredToUpper adds a times its transpose to the upper triangle, diagonal included, and leaves the rest. *)
Theorem C55_square_upper (a h : matrix) : shaped a -> shaped h -> nrows h = nrows a -> mcols h = nrows a ->
  exists h', add_j_squared a h = Ok h' /\
    is_matrix h' (nrows a) (nrows a) (fun i j => entry h i j + if (i <=? j)%nat then sum (mcols a) (fun k => entry a i k * entry a j k) else 0).
Proof.
  intros Sa Sh Nh Ch. unfold add_j_squared. rewrite Nh, Ch, Nat.eqb_refl. cbn [negb andb].
  destruct (upper_rows_ok a (nrows a) 0 h) as (h' & E & S' & N' & C' & V); try assumption; [reflexivity|].
  exists h'. split; [exact E|]. split; [exact S'|]. split; [exact N'|]. split; [exact C'|].
  intros i j Hi Hj. rewrite V by assumption. reflexivity.
Qed.
Print Assumptions C55_square_upper.

(** Volatilities are the roots of the variances; where they are at least 2e-14 the correlations are the covariances divided by
    both volatilities, so the diagonal of the correlations is 1. *)
Theorem C55_vols (cov : matrix) : shaped cov -> mcols cov = nrows cov ->
  (forall i, (i < nrows cov)%nat -> 2 / 100000000000000 <= R_sqrt.sqrt (entry cov i i)) ->
  exists vs corr, vols cov = Ok (vs, corr) /\
    is_vector vs (nrows cov) (fun i => R_sqrt.sqrt (entry cov i i)) /\
    is_matrix corr (nrows cov) (nrows cov) (fun i j => entry cov i j / R_sqrt.sqrt (entry cov i i) / R_sqrt.sqrt (entry cov j j)) /\
    forall i, (i < nrows cov)%nat -> entry corr i i = 1.
Proof.
  intros Sc Cc Hv. unfold vols. rewrite Cc, Nat.eqb_refl. cbn [negb].
  destruct (vols_loop_ok cov (nrows cov) (nrows cov) 0 (repeat (@zero RealLin) (nrows cov)) cov) as (vs & corr & E & V1 & V2);
    try assumption; try reflexivity; [apply repeat_length|intros; lia|intros p q _ _; cbn [Nat.ltb Nat.leb]; field|].
  exists vs, corr. split; [exact E|]. split; [exact V1|]. destruct V2 as (S2 & N2 & C2 & V2).
  assert (D : forall i, (i < nrows cov)%nat -> denom cov i = R_sqrt.sqrt (entry cov i i)) by (intros i Hi; unfold denom; apply Rmax_right; apply Hv; exact Hi).
  split; [split; [exact S2|split; [exact N2|split; [exact C2|]]]; intros i j Hi Hj; rewrite V2, !D by assumption; reflexivity|].
  intros i Hi. rewrite V2, !D by assumption. specialize (Hv i Hi).
  assert (P : 0 < entry cov i i).
  { destruct (Rle_lt_dec (entry cov i i) 0) as [H|H]; [|exact H]. rewrite (sqrt_neg_0 _ H) in Hv. lra. }
  pose proof (sqrt_sqrt (entry cov i i) (Rlt_le _ _ P)) as Q. set (s := R_sqrt.sqrt (entry cov i i)) in *.
  rewrite <- Q. field. lra.
Qed.
Print Assumptions C55_vols.

(** With a smaller volatility the diagonal of the correlations is not 1. *)
Theorem C55_small_vol_refuted : exists cov vs corr, shaped cov /\ mcols cov = nrows cov /\ 0 < entry cov 0 0 /\
  vols cov = Ok (vs, corr) /\ entry corr 0 0 <> 1.
Proof.
  set (v := / 10000000000000000 * / 10000000000000000).
  assert (P : 0 < v) by (unfold v; lra).
  set (cov := @Matrix RealLin 1 [[v]]).
  destruct (vols_loop_ok cov 1 1 0 [0] cov) as (vs & corr & E & _ & V2); try reflexivity;
    try (apply Forall_cons; [reflexivity|constructor]); [intros; lia|intros p q _ _; cbn [Nat.ltb Nat.leb]; field|].
  exists cov, vs, corr. split; [apply Forall_cons; [reflexivity|constructor]|]. split; [reflexivity|]. split; [exact P|].
  split; [exact E|]. destruct V2 as (_ & _ & _ & V2). rewrite V2 by lia.
  change (entry cov 0 0) with v.
  assert (D : denom cov 0 = 2 / 100000000000000).
  { unfold denom, vol_of. change (entry cov 0 0) with v. unfold v. rewrite sqrt_square by lra. apply Rmax_left. lra. }
  rewrite D. unfold v. lra.
Qed.
Print Assumptions C55_small_vol_refuted.

(** The hypotheses hold of real cases: a 2 by 3 times a 3 by 2 matrix, and a square written over itself. *)
Definition ex_a : @matrix RealLin := Matrix 3 [[1; 2; 3]; [4; 5; 6]].
Definition ex_b : @matrix RealLin := Matrix 2 [[1; 0]; [0; 2]; [1; 1]].
Example C55_product_ex : exists mem', multiply_mm 0 1 2 (fun p => match p with O => ex_a | 1%nat => ex_b | _ => ex_a end) = Ok mem' /\
  entry (mem' 2%nat) 0 1 = 7 /\ entry (mem' 2%nat) 1 0 = 10 /\ nrows (mem' 2%nat) = 2%nat.
Proof.
  destruct (C55_matrix_matrix 0 1 2 (fun p => match p with O => ex_a | 1%nat => ex_b | _ => ex_a end)) as (mem' & E & (_ & N & _ & V) & _);
    try reflexivity; try (repeat (apply Forall_cons; [reflexivity|]); constructor).
  exists mem'. split; [exact E|]. cbn [ex_a ex_b nrows mcols mrows length] in V, N. rewrite !V by lia. unfold entry. cbn. repeat split; [lra|lra|exact N].
Qed.
Definition ex_s : @matrix RealLin := Matrix 2 [[1; 2]; [3; 4]].
Example C55_in_place_ex : exists mem', multiply_mm 0 0 0 (fun _ => ex_s) = Ok mem' /\ entry (mem' O) 0 0 = 7 /\ entry (mem' O) 1 1 = 22.
Proof.
  destruct (C55_matrix_matrix 0 0 0 (fun _ => ex_s)) as (mem' & E & (_ & N & _ & V) & _);
    try reflexivity; try (repeat (apply Forall_cons; [reflexivity|]); constructor).
  exists mem'. split; [exact E|]. cbn [ex_s nrows mcols mrows length] in V. rewrite !V by lia. unfold entry. cbn. split; lra.
Qed.
(** and in binary64 *)
Example C55_float_ex : (let m := Matrix 2 [[of_nat 1; of_nat 2]; [of_nat 3; of_nat 4]] in
  match @multiply_mm FloatLin 0 0 0 (fun _ => m) with
  | Ok mem => match mrows (mem O) with [[a; b]; [c; d]] => neqb a (of_nat 7) && neqb b (of_nat 10) && neqb c (of_nat 15) && neqb d (of_nat 22) | _ => false end
  | _ => false end) = true.
Proof. vm_compute. reflexivity. Qed.
Example C55_vols_ex : exists vs corr, vols (@Matrix RealLin 2 [[4; 3]; [3; 9]]) = Ok (vs, corr) /\ nth 1 vs 0 = 3 /\ entry corr 0 1 = 1 / 2.
Proof.
  assert (S4 : R_sqrt.sqrt 4 = 2) by (replace 4 with (2 * 2) by lra; apply sqrt_square; lra).
  assert (S9 : R_sqrt.sqrt 9 = 3) by (replace 9 with (3 * 3) by lra; apply sqrt_square; lra).
  destruct (C55_vols (@Matrix RealLin 2 [[4; 3]; [3; 9]])) as (vs & corr & E & (_ & V) & (_ & _ & _ & W) & _);
    [repeat (apply Forall_cons; [reflexivity|]); constructor|reflexivity| |].
  - intros [|[|i]] Hi; cbn [nrows mrows length] in Hi; [| |lia]; unfold entry; cbn [mrows nth]; [rewrite S4|rewrite S9]; lra.
  - exists vs, corr. split; [exact E|]. cbn [nrows mrows length] in V, W. rewrite V, W by lia. unfold entry. cbn [mrows nth]. rewrite S4, S9. split; lra.
Qed.
