From Coq Require Import Reals List Arith Bool Lia Lra Psatz.
From Verif Require Import Base LinNum StatModel StatSpec.
Import ListNotations.
Local Open Scope R_scope.
Definition dot (x y : list R) : R := total (times x y).
Lemma dot_cons a b x y : dot (a :: x) (b :: y) = a * b + dot x y.
Proof. reflexivity. Qed.
Lemma len_entry op x y : length x = length y -> length (entrywise op x y) = length x.
Proof. revert y. induction x as [|a x IH]; intros [|b y] H; cbn in *; try lia. rewrite IH; lia. Qed.
Lemma dot_sym x y : dot x y = dot y x.
Proof. revert y. induction x as [|a x IH]; intros [|b y]; try reflexivity. rewrite !dot_cons, IH. ring. Qed.
Lemma dot_self x : 0 <= dot x x.
Proof. induction x as [|a x IH]; [cbn; lra|]. rewrite dot_cons. nra. Qed.
Lemma dot_shift x y a b : length x = length y -> dot (shift a x) (shift b y) = dot x y + b * total x + a * total y + INR (length x) * (a * b).
Proof.
  revert y. induction x as [|u x IH]; intros [|v y] H; try (cbn in H; lia); [cbn; lra|].
  change (shift a (u :: x)) with (u + a :: shift a x). change (shift b (v :: y)) with (v + b :: shift b y). rewrite !dot_cons, IH by (cbn in H; lia).
  change (length (u :: x)) with (S (length x)). rewrite S_INR. change (total (u :: x)) with (u + total x). change (total (v :: y)) with (v + total y). ring.
Qed.
Lemma dot_scale x y a b : dot (scale a x) (scale b y) = a * b * dot x y.
Proof. revert y. induction x as [|u x IH]; intros [|v y]; try (cbn; lra). change (scale a (u :: x)) with (a * u :: scale a x). change (scale b (v :: y)) with (b * v :: scale b y). rewrite !dot_cons, IH. ring. Qed.
Lemma total_shift x c : total (shift c x) = total x + INR (length x) * c.
Proof. induction x as [|u x IH]; [cbn; lra|]. change (shift c (u :: x)) with (u + c :: shift c x). change (length (u :: x)) with (S (length x)). rewrite S_INR. change (total (u :: x)) with (u + total x). change (total (u + c :: shift c x)) with (u + c + total (shift c x)). rewrite IH. ring. Qed.
Lemma total_scale x c : total (scale c x) = c * total x.
Proof. induction x as [|u x IH]; [cbn; lra|]. change (total (u :: x)) with (u + total x). change (total (scale c (u :: x))) with (c * u + total (scale c x)). rewrite IH. ring. Qed.
Lemma total_plus x y : length x = length y -> total (plus x y) = total x + total y.
Proof. revert y. induction x as [|u x IH]; intros [|v y] H; try (cbn in H; lia); [cbn; lra|]. change (total (u :: x)) with (u + total x). change (total (v :: y)) with (v + total y). change (total (plus (u :: x) (v :: y))) with (u + v + total (plus x y)). rewrite IH by (cbn in H; lia). ring. Qed.
Lemma dot_plus x z y : length x = length z -> length x = length y -> dot (plus x z) y = dot x y + dot z y.
Proof.
  revert z y. induction x as [|u x IH]; intros [|w z] [|v y] H H1; try (cbn in *; lia); [cbn; lra|].
  change (plus (u :: x) (w :: z)) with (u + w :: plus x z). rewrite !dot_cons, IH by (cbn in *; lia). ring.
Qed.
Lemma len_shift c x : length (shift c x) = length x. Proof. apply map_length. Qed.
Lemma len_scale c x : length (scale c x) = length x. Proof. apply map_length. Qed.
Lemma cauchy x y : length x = length y -> dot x y * dot x y <= dot x x * dot y y.
Proof.
  revert y. induction x as [|a x IH]; intros [|b y] H; try (cbn in H; lia); [cbn; lra|]. rewrite !dot_cons.
  specialize (IH y ltac:(cbn in H; lia)). assert (P := dot_self x). assert (Q := dot_self y). set (d := dot x y) in *. set (X := dot x x) in *. set (Y := dot y y) in *.
  assert (2 * d * a * b <= X * (b * b) + Y * (a * a)).
  { assert (0 <= X * (b * b)) by (apply Rmult_le_pos; [exact P|nra]). assert (0 <= Y * (a * a)) by (apply Rmult_le_pos; [exact Q|nra]).
    destruct (Rle_lt_dec (2 * d * a * b) (X * (b * b) + Y * (a * a))) as [|G]; [assumption|exfalso].
    assert (G2 : (X * (b * b) + Y * (a * a)) * (X * (b * b) + Y * (a * a)) < (2 * d * a * b) * (2 * d * a * b)) by (apply Rmult_le_0_lt_compat; lra).
    assert (E1 : (2 * d * a * b) * (2 * d * a * b) = 4 * (d * d) * ((a * b) * (a * b))) by ring.
    assert (E2 : (d * d) * ((a * b) * (a * b)) <= (X * Y) * ((a * b) * (a * b))) by (apply Rmult_le_compat_r; [apply Rle_0_sqr|exact IH]).
    assert (E3 : 0 <= (X * (b * b) - Y * (a * a)) * (X * (b * b) - Y * (a * a))) by (apply Rle_0_sqr).
    assert (E4 : (X * (b * b) + Y * (a * a)) * (X * (b * b) + Y * (a * a)) = (X * (b * b) - Y * (a * a)) * (X * (b * b) - Y * (a * a)) + 4 * (X * Y) * (a * b * (a * b))) by ring.
    lra. }
  assert (E5 : (a * b + d) * (a * b + d) = a * b * (a * b) + 2 * d * a * b + d * d) by ring.
  assert (E6 : (a * a + X) * (b * b + Y) = a * b * (a * b) + (X * (b * b) + Y * (a * a)) + X * Y) by ring. lra.
Qed.
Lemma cauchy_abs x y : length x = length y -> Rabs (dot x y) <= sqrt (dot x x) * sqrt (dot y y).
Proof.
  intros H. rewrite <- sqrt_mult by apply dot_self. rewrite <- (sqrt_Rsqr_abs). apply sqrt_le_1_alt. unfold Rsqr. apply cauchy, H.
Qed.
Lemma dot_zero x : dot x x = 0 -> forall v, In v x -> v = 0.
Proof.
  induction x as [|a x IH]; [intros _ v []|]. rewrite dot_cons. intros H. assert (P := dot_self x).
  assert (a * a = 0) by nra. intros v [<-|Hv]; [nra|]. apply IH; [nra|exact Hv].
Qed.
(** * the code *)
Lemma fold_sum x acc : fold_left Rplus x acc = acc + total x.
Proof. revert acc. induction x as [|a x IH]; intros acc; cbn [fold_left]; [cbn; lra|]. rewrite IH. change (total (a :: x)) with (a + total x). ring. Qed.
Lemma sum_eq x : @accumulate_sum RealLin x = total x.
Proof. unfold accumulate_sum, accumulate. change (fold_left Rplus x 0 = total x). rewrite fold_sum. ring. Qed.
Lemma inner_eq x y acc : length x = length y -> @inner_from RealLin acc x y = Ok (acc + dot x y).
Proof.
  revert y acc. induction x as [|a x IH]; intros [|b y] acc H; try (cbn in H; lia); cbn [inner_from]; [f_equal; cbn; symmetry; apply Rplus_0_r|].
  rewrite IH by exact (f_equal pred H). rewrite dot_cons. cbn [nadd nmul RealLin]. f_equal. apply Rplus_assoc.
Qed.
Lemma inner_product_eq x y : length x = length y -> @inner_product RealLin x y = Ok (dot x y).
Proof. intros H. unfold inner_product. rewrite inner_eq by exact H. f_equal. change (0 + dot x y = dot x y). ring. Qed.
Lemma central_eq x : @centralized RealLin x = shift (- mean x) x.
Proof. unfold centralized. rewrite sum_eq. reflexivity. Qed.
Lemma l2_eq x : @l2_normalized RealLin x = scale (/ (l2_norm x + 1 / 100000000000000)) x.
Proof.
  unfold l2_normalized, scale. apply map_ext. intros v. cbn [ndiv nadd nsqrt RealLin num].
  assert (E : forall acc, fold_left (fun a b => a + b * b) x acc = acc + dot x x).
  { clear v. induction x as [|a x IH]; intros acc; cbn [fold_left]; [cbn; lra|]. rewrite IH, dot_cons. ring. }
  unfold accumulate. change (@zero RealLin) with 0. cbn [nadd nmul RealLin num]. rewrite E. unfold l2_norm, tiny. cbn [ndiv epsilon of_nat RealLin].
  change (total (times x x)) with (dot x x). rewrite Rplus_0_l. replace (2 / 100000000000000 / INR 2) with (1 / 100000000000000) by (cbn; lra). unfold Rdiv at 1. apply Rmult_comm.
Qed.
Lemma l1_eq x : @l1_normalized RealLin x = scale (/ (l1_norm x + 1 / 100000000000000)) x.
Proof.
  unfold l1_normalized, scale. apply map_ext. intros v. cbn [ndiv nadd RealLin num].
  assert (A : forall u, @absolute RealLin u = Rabs u).
  { intros u. unfold absolute. cbn [nltb nopp RealLin]. change (@zero RealLin) with 0. destruct (Rlt_dec u 0); [rewrite Rabs_left by assumption|rewrite Rabs_right by lra]; reflexivity. }
  assert (E : forall acc, fold_left (fun a b => a + @absolute RealLin b) x acc = acc + total (map Rabs x)).
  { clear v. induction x as [|a x IH]; intros acc; cbn [fold_left map]; [cbn; lra|]. rewrite IH, A. change (total (Rabs a :: map Rabs x)) with (Rabs a + total (map Rabs x)). ring. }
  unfold accumulate. change (@zero RealLin) with 0. cbn [nadd nmul RealLin num]. rewrite E. unfold l1_norm, tiny. cbn [ndiv epsilon of_nat RealLin].
  rewrite Rplus_0_l. replace (2 / 100000000000000 / INR 2) with (1 / 100000000000000) by (cbn; lra). unfold Rdiv at 1. apply Rmult_comm.
Qed.
Lemma n_pos (x : list R) : x <> [] -> 0 < INR (length x).
Proof. intros H. apply lt_0_INR. destruct x; [congruence|cbn; lia]. Qed.
Lemma central_dot x y : x <> [] -> length x = length y -> dot (shift (- mean x) x) (shift (- mean y) y) = INR (length x) * cov x y.
Proof.
  intros N H. assert (P := n_pos x N). rewrite dot_shift by exact H. unfold cov, mean. assert (L : length (times x y) = length x) by (apply len_entry; exact H). rewrite L. rewrite <- H. fold (dot x y). unfold dot. field. lra.
Qed.
Lemma covariance_eq x y : x <> [] -> length x = length y -> @covariance RealLin x y = Ok (cov x y).
Proof.
  intros N H. unfold covariance. replace (@length (@num RealLin) x =? @length (@num RealLin) y)%nat with true by (symmetry; apply Nat.eqb_eq; exact H). cbn [negb]. rewrite !central_eq.
  rewrite inner_product_eq by (rewrite !len_shift; exact H). cbn [obind]. rewrite central_dot by assumption. f_equal. cbn [ndiv of_nat RealLin]. assert (P := n_pos x N). change (INR (@length R x) * cov x y / INR (@length R x) = cov x y). field. lra.
Qed.
Lemma correlation_eq x y : length x = length y ->
  @correlation RealLin x y = Ok (dot (shift (- mean x) x) (shift (- mean y) y) / ((l2_norm (shift (- mean x) x) + 1 / 100000000000000) * (l2_norm (shift (- mean y) y) + 1 / 100000000000000))).
Proof.
  intros H. unfold correlation. replace (@length (@num RealLin) x =? @length (@num RealLin) y)%nat with true by (symmetry; apply Nat.eqb_eq; exact H). cbn [negb]. rewrite !central_eq, !l2_eq.
  rewrite inner_product_eq by (rewrite !len_scale, !len_shift; exact H). rewrite dot_scale. f_equal. unfold Rdiv. rewrite Rinv_mult. ring.
Qed.
Lemma l2_pos x : 0 <= l2_norm x. Proof. apply sqrt_pos. Qed.
