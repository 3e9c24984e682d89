(** C61: vector statistics. *)
From Coq Require Import Reals List Arith Bool Lia Lra Psatz SpecFloat.
From Verif Require Import Base LinNum StatModel StatSpec.
From Verif Require StatProofs DateModel.
Import ListNotations.
Local Open Scope R_scope.
Import StatProofs.

(** What Covariance returns is the textbook covariance, whatever the vectors. *)
Theorem C61_covariance (x y : list R) : x <> [] -> length x = length y -> covariance x y = Ok (cov x y).
Proof. apply covariance_eq. Qed.
Print Assumptions C61_covariance.
Lemma cov_sym x y : length x = length y -> cov x y = cov y x.
Proof.
  intros H. unfold cov, mean. change (total (times x y)) with (dot x y). change (total (times y x)) with (dot y x). rewrite dot_sym.
  assert (L : length (times x y) = length x) by (apply len_entry; exact H). assert (L' : length (times y x) = length y) by (apply len_entry; symmetry; exact H). rewrite L, L', H. lra.
Qed.
(** Vectors of different sizes are refused by both. *)
Theorem C61_rejects (x y : list R) : length x <> length y -> covariance x y = Throw /\ correlation x y = Throw.
Proof.
  intros H. unfold covariance, correlation. replace (@length (@num RealLin) x =? @length (@num RealLin) y)%nat with false by (symmetry; apply Nat.eqb_neq; exact H). split; reflexivity.
Qed.
Print Assumptions C61_rejects.
(** Swapping the vectors changes nothing. *)
Theorem C61_symmetric (x y : list R) : x <> [] -> covariance x y = covariance y x /\ correlation x y = correlation y x.
Proof.
  intros N. destruct (Nat.eq_dec (length x) (length y)) as [H|H].
  - split.
    + rewrite !covariance_eq; try assumption; try (symmetry; assumption); [rewrite cov_sym by exact H; reflexivity|destruct x, y; cbn in H; congruence].
    + rewrite (correlation_eq x y H), (correlation_eq y x (eq_sym H)). f_equal. rewrite dot_sym. f_equal. ring.
  - destruct (C61_rejects x y H) as [-> ->]. destruct (C61_rejects y x) as [-> ->]; [congruence|]. split; reflexivity.
Qed.
Print Assumptions C61_symmetric.
(** Covariance is linear in each argument (the first, and by symmetry the second). *)
Theorem C61_bilinear (x z y : list R) a b c d : x <> [] -> length x = length y -> length z = length y ->
  covariance x y = Ok c -> covariance z y = Ok d -> covariance (plus (scale a x) (scale b z)) y = Ok (a * c + b * d).
Proof.
  intros N Hx Hz. assert (Nz : z <> []) by (intros ->; apply N; destruct x; [reflexivity|]; rewrite <- Hz in Hx; discriminate Hx).
  rewrite !covariance_eq by assumption. intros [= <-] [= <-].
  assert (Lp : length (plus (scale a x) (scale b z)) = length x) by (unfold plus; rewrite len_entry; [apply len_scale|rewrite !len_scale; transitivity (length y); [exact Hx|symmetry; exact Hz]]).
  rewrite covariance_eq; [|intros E; apply N; rewrite E in Lp; destruct x; [reflexivity|discriminate]|exact (eq_trans Lp Hx)].
  f_equal. unfold cov, mean. rewrite Lp.
  assert (L1 : length (times (plus (scale a x) (scale b z)) y) = length x) by (unfold times; rewrite len_entry; congruence).
  assert (L2 : length (times x y) = length x) by (apply len_entry; exact Hx). assert (L3 : length (times z y) = length z) by (apply len_entry; exact Hz).
  rewrite L1, L2, L3. rewrite <- Hx in *. rewrite Hz in *. change (total (times (plus (scale a x) (scale b z)) y)) with (dot (plus (scale a x) (scale b z)) y).
  rewrite dot_plus by (rewrite ?len_scale; congruence). rewrite total_plus by (rewrite !len_scale; congruence). rewrite !total_scale.
  assert (E : forall k u, dot (scale k u) y = k * dot u y).
  { intros k u. replace y with (scale 1 y) at 1; [rewrite dot_scale; ring|]. unfold scale. rewrite (map_ext _ (fun v => v)); [apply map_id|intros; ring]. }
  rewrite !E. unfold dot. field. assert (P := n_pos x N). lra.
Qed.
Print Assumptions C61_bilinear.
Lemma mean_shift x c : x <> [] -> mean (shift c x) = mean x + c.
Proof. intros N. unfold mean. rewrite total_shift, len_shift. field. assert (P := n_pos x N). lra. Qed.
Lemma central_shift x c : x <> [] -> shift (- mean (shift c x)) (shift c x) = shift (- mean x) x.
Proof. intros N. rewrite mean_shift by exact N. unfold shift. rewrite map_map. apply map_ext. intros v. ring. Qed.
(** Adding a constant to every entry changes neither result. *)
Theorem C61_shift (x y : list R) c d : x <> [] -> length x = length y ->
  covariance (shift c x) (shift d y) = covariance x y /\ correlation (shift c x) (shift d y) = correlation x y.
Proof.
  intros N H. assert (Ny : y <> []) by (intros ->; apply N; destruct x; [reflexivity|discriminate H]). assert (Nx' : shift c x <> []) by (destruct x; [congruence|discriminate]).
  assert (Hl : length (shift c x) = length (shift d y)) by (rewrite !len_shift; exact H). split.
  - rewrite !covariance_eq by assumption. f_equal. assert (P := n_pos x N). apply (Rmult_eq_reg_l (INR (length x))); [|lra].
    rewrite <- central_dot by assumption. rewrite <- (len_shift c x) at 1. rewrite <- central_dot by assumption. rewrite !central_shift by assumption. reflexivity.
  - rewrite !correlation_eq by assumption. rewrite !central_shift by assumption. reflexivity.
Qed.
Print Assumptions C61_shift.
Lemma cov_self x : x <> [] -> 0 <= cov x x.
Proof. intros N. assert (P := n_pos x N). assert (Q := central_dot x x N eq_refl). assert (S0 := dot_self (shift (- mean x) x)). rewrite Q in S0. nra. Qed.
(** The variance is never negative, and zero exactly for constant vectors. *)
Theorem C61_variance (x : list R) : x <> [] -> exists v, covariance x x = Ok v /\ 0 <= v /\ (v = 0 <-> constant x).
Proof.
  intros N. exists (cov x x). rewrite covariance_eq by (assumption || reflexivity). split; [reflexivity|]. assert (P := n_pos x N). assert (Q := central_dot x x N eq_refl).
  split; [apply cov_self; exact N|]. split.
  - intros E. rewrite E, Rmult_0_r in Q. intros v w Hv Hw. assert (Z : forall u, In u x -> u + - mean x = 0) by (intros u Hu; apply (dot_zero _ Q); unfold shift; apply (in_map (fun t => t + - mean x)); exact Hu).
    assert (A := Z v Hv). assert (B := Z w Hw). lra.
  - intros C. destruct x as [|a x0] eqn:Ex; [congruence|]. rewrite <- Ex in *. assert (T : forall l, (forall u, In u l -> u = a) -> total l = INR (length l) * a /\ dot l l = INR (length l) * (a * a)).
    { induction l as [|u l IH]; intros Hl; [cbn; lra|]. destruct IH as [I1 I2]; [intros w Hw; apply Hl; right; exact Hw|]. rewrite dot_cons. change (total (u :: l)) with (u + total l). change (length (u :: l)) with (S (length l)).
      rewrite S_INR, I1, I2, (Hl u (or_introl eq_refl)). split; ring. }
    destruct (T x) as [T1 T2]; [intros u Hu; apply C; [exact Hu|rewrite Ex; left; reflexivity]|]. unfold cov, mean. assert (L : length (times x x) = length x) by (apply len_entry; reflexivity). rewrite L. change (total (times x x)) with (dot x x). rewrite T1, T2. match goal with |- ?a = ?b => change (@eq R a b) end. field. lra.
Qed.
Print Assumptions C61_variance.
Lemma frac x y : length x = length y -> exists r, correlation x y = Ok r /\ -1 < r < 1.
Proof.
  intros H. rewrite correlation_eq by exact H. eexists. split; [reflexivity|]. set (u := shift (- mean x) x). set (v := shift (- mean y) y).
  assert (C := cauchy_abs u v ltac:(unfold u, v; rewrite !len_shift; exact H)). assert (A := l2_pos u). assert (B := l2_pos v). fold (l2_norm u) in *.
  change (sqrt (dot u u)) with (l2_norm u) in C. change (sqrt (dot v v)) with (l2_norm v) in C.
  assert (D : 0 < (l2_norm u + 1 / 100000000000000) * (l2_norm v + 1 / 100000000000000)) by (apply Rmult_lt_0_compat; lra).
  assert (E : Rabs (dot u v) < (l2_norm u + 1 / 100000000000000) * (l2_norm v + 1 / 100000000000000)) by nra.
  set (K := (l2_norm u + _) * _) in *. apply Rabs_def2 in E. assert (F : dot u v / K * K = dot u v) by (field; lra). nra.
Qed.
(** A correlation lies strictly between -1 and 1. *)
Theorem C61_correlation_range (x y : list R) : length x = length y -> exists r, correlation x y = Ok r /\ -1 < r < 1.
Proof. apply frac. Qed.
Print Assumptions C61_correlation_range.
(** ... and has the sign of the covariance: it is the covariance over the product of the deviations, each padded. *)
Theorem C61_correlation_value (x y : list R) r c vx vy : x <> [] -> length x = length y ->
  correlation x y = Ok r -> covariance x y = Ok c -> covariance x x = Ok vx -> covariance y y = Ok vy ->
  let n := INR (length x) in r * ((sqrt (n * vx) + 1 / 100000000000000) * (sqrt (n * vy) + 1 / 100000000000000)) = n * c.
Proof.
  intros N H. assert (Ny : y <> []) by (intros ->; apply N; destruct x; [reflexivity|discriminate H]). rewrite correlation_eq, !covariance_eq by (assumption || reflexivity). intros [= <-] [= <-] [= <-] [= <-] n.
  unfold l2_norm. fold (dot (shift (- mean x) x) (shift (- mean x) x)). fold (dot (shift (- mean y) y) (shift (- mean y) y)).
  rewrite !central_dot by (assumption || reflexivity). rewrite <- H. fold n. field. split; [assert (Q := sqrt_pos (n * cov y y))|assert (Q := sqrt_pos (n * cov x x))]; lra.
Qed.
Print Assumptions C61_correlation_value.
(** A vector is not fully correlated with itself: the padding is always there ... *)
Theorem C61_self_refuted (x : list R) : correlation x x <> Ok 1.
Proof. intros E. destruct (frac x x eq_refl) as (r & E1 & R1). rewrite E1 in E. injection E as E. lra. Qed.
Print Assumptions C61_self_refuted.
(** ... and for small numbers it decides the result: the same data in other units have another correlation. *)
Theorem C61_scale_refuted : exists (x : list R) a r1 r2, 0 < a /\ correlation x x = Ok r1 /\ correlation (scale a x) (scale a x) = Ok r2 /\ r1 > 99 / 100 /\ r2 < 1 / 2.
Proof.
  exists [0; 2], (/ 200000000000000). do 2 eexists. split; [lra|].
  assert (G : forall t, 0 < t -> correlation [0; t] [0; t] = Ok (t * t / 2 / ((sqrt (t * t / 2) + 1 / 100000000000000) * (sqrt (t * t / 2) + 1 / 100000000000000)))).
  { intros t Ht. rewrite correlation_eq by reflexivity. assert (M : shift (- mean [0; t]) [0; t] = [- t / 2; t / 2]) by (assert (E : mean [0; t] = t / 2) by (unfold mean; cbn; field); rewrite E; unfold shift; cbn [map]; f_equal; [field|f_equal; field]).
    rewrite M. unfold l2_norm. change (total (times [- t / 2; t / 2] [- t / 2; t / 2])) with (dot [- t / 2; t / 2] [- t / 2; t / 2]).
    assert (D : dot [- t / 2; t / 2] [- t / 2; t / 2] = t * t / 2) by (cbn; field). rewrite D. reflexivity. }
  split; [exact (G 2 ltac:(lra))|]. split.
  { unfold scale. cbn [map]. rewrite Rmult_0_r. exact (G (/ 200000000000000 * 2) ltac:(lra)). }
  set (e := 1 / 100000000000000). assert (He : 0 < e < 1 / 1000) by (unfold e; lra). split.
  - assert (Hs : 1 < sqrt (2 * 2 / 2)). { rewrite <- sqrt_1 at 1. apply sqrt_lt_1; lra. } assert (Hq : sqrt (2 * 2 / 2) * sqrt (2 * 2 / 2) = 2 * 2 / 2) by (apply sqrt_sqrt; lra). set (s := sqrt (2 * 2 / 2)) in *.
    set (K := (s + e) * (s + e)). assert (HK : 0 < K) by (unfold K; nra). assert (F : 2 * 2 / 2 / K * K = 2) by (field; lra). set (q := 2 * 2 / 2 / K) in *. change (99 / 100 < q). unfold K in *. nra.
  - set (t := / 200000000000000 * 2) in *. assert (Et : t = e) by (unfold t, e; field). rewrite Et. assert (Hp := sqrt_pos (e * e / 2)). assert (Hq : sqrt (e * e / 2) * sqrt (e * e / 2) = e * e / 2) by (apply sqrt_sqrt; nra). set (s := sqrt (e * e / 2)) in *.
    assert (Hd : e * e < (s + e) * (s + e)) by nra. set (K := (s + e) * (s + e)) in *. assert (HK : 0 < K) by nra. assert (F : e * e / 2 / K * K = e * e / 2) by (field; lra). set (q := e * e / 2 / K) in *. change (q < 1 / 2). nra.
Qed.
Print Assumptions C61_scale_refuted.
(** Centralizing makes the sum zero and keeps every difference. *)
Theorem C61_centralized (x : list R) : x <> [] ->
  length (centralized x) = length x /\ total (centralized x) = 0 /\ forall i j, (i < length x)%nat -> (j < length x)%nat -> nth i (centralized x) 0 - nth j (centralized x) 0 = nth i x 0 - nth j x 0.
Proof.
  intros N. rewrite central_eq. split; [apply len_shift|]. split.
  - rewrite total_shift. unfold mean. field. assert (P := n_pos x N). lra.
  - intros i j Hi Hj. unfold shift. rewrite !(nth_indep _ 0 (0 + - mean x)) by (rewrite map_length; assumption). rewrite !(map_nth (fun v => v + - mean x)). ring.
Qed.
Print Assumptions C61_centralized.
Lemma l1_pos x : 0 <= l1_norm x.
Proof. unfold l1_norm. induction x as [|a x IH]; cbn; [lra|]. assert (P := Rabs_pos a). unfold total in IH. lra. Qed.
(** Normalizing divides every entry by the norm, padded: what comes out has norm below 1, missing it by pad / (norm + pad). *)
Theorem C61_l1 (x : list R) : l1_norm (l1_normalized x) = 1 - (1 / 100000000000000) / (l1_norm x + 1 / 100000000000000)
  /\ forall i, nth i x 0 = (l1_norm x + 1 / 100000000000000) * nth i (l1_normalized x) 0.
Proof.
  rewrite l1_eq. assert (P := l1_pos x). set (k := l1_norm x + 1 / 100000000000000). assert (Hk : 0 < k) by (unfold k; lra). split.
  - assert (E : l1_norm (scale (/ k) x) = / k * l1_norm x).
    { unfold l1_norm, scale. rewrite map_map. rewrite (map_ext _ (fun v => / k * Rabs v)); [|intros v; rewrite Rabs_mult, Rabs_inv, (Rabs_right k) by lra; reflexivity].
      rewrite <- (map_map Rabs (Rmult (/ k))). apply total_scale. }
    rewrite E. replace (l1_norm x) with (k - 1 / 100000000000000) by (unfold k; ring). field. lra.
  - intros i. unfold scale. replace 0 with (/ k * 0) at 2 by ring. rewrite map_nth. field. lra.
Qed.
Print Assumptions C61_l1.
Theorem C61_l2 (x : list R) : l2_norm (l2_normalized x) = 1 - (1 / 100000000000000) / (l2_norm x + 1 / 100000000000000)
  /\ forall i, nth i x 0 = (l2_norm x + 1 / 100000000000000) * nth i (l2_normalized x) 0.
Proof.
  rewrite l2_eq. assert (P := l2_pos x). set (k := l2_norm x + 1 / 100000000000000). assert (Hk : 0 < k) by (unfold k; lra). split.
  - assert (E : l2_norm (scale (/ k) x) = / k * l2_norm x).
    { unfold l2_norm. fold (dot (scale (/ k) x) (scale (/ k) x)). fold (dot x x). rewrite dot_scale, sqrt_mult; [|apply Rle_0_sqr|apply dot_self]. f_equal. apply sqrt_square. apply Rlt_le, Rinv_0_lt_compat, Hk. }
    rewrite E. replace (l2_norm x) with (k - 1 / 100000000000000) by (unfold k; ring). field. lra.
  - intros i. unfold scale. replace 0 with (/ k * 0) at 2 by ring. rewrite map_nth. field. lra.
Qed.
Print Assumptions C61_l2.
(** Two empty vectors have the same size and are not refused: in doubles the covariance is NaN, and the correlation zero. *)
Theorem C61_empty_refuted : match @covariance FloatLin [] [] with Ok S754_nan => True | _ => False end /\ @correlation FloatLin [] [] = Ok (S754_zero false).
Proof. split; [exact Logic.I|reflexivity]. Qed.
Print Assumptions C61_empty_refuted.
(** The hypotheses hold of ordinary data: the population covariance of 1, 2, 3 and 2, 4, 9 is 7/3. *)
Example C61_case : [1; 2; 3] <> [] /\ length [1; 2; 3] = length [2; 4; 9] /\ covariance [1; 2; 3] [2; 4; 9] = Ok (7 / 3) /\ ~ constant [1; 2; 3].
Proof.
  split; [discriminate|]. split; [reflexivity|]. split; [rewrite covariance_eq by (discriminate || reflexivity); f_equal; unfold cov, mean; cbn; field|].
  intros C. assert (E : 1 = 2) by (apply C; cbn; auto). lra.
Qed.
