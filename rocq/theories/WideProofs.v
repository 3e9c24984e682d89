(** Proofs about general band matrices. *)
From Coq Require Import Reals List Arith Bool Lia Lra ZifyBool.
From Verif Require Import Base BandSpec BandProofs CholAlgebra Vec LinNum LinModel WideModel WideSpec.
Import ListNotations.
Local Open Scope R_scope.
Local Notation get_ok := Vec.get_ok.
(** the store fits and holds mat; padding is zero *)
Definition holds (n above below : nat) (w : @band RealLin) (mat : nat -> nat -> R) : Prop :=
  b_cols w = (1 + below + above)%nat /\ b_below w = below /\ @length (list R) (b_rows w) = n /\
  (forall i, (i < n)%nat -> @length R (nth i (b_rows w) []) = (1 + below + above)%nat) /\
  (forall i j, (i < n)%nat -> (i <= j + below)%nat -> (j <= i + above)%nat -> @nth R (j + below - i) (nth i (b_rows w) []) 0 = if (j <? n)%nat then mat i j else 0) /\
  (forall i j, (i < n)%nat -> (j < n)%nat -> ~ in_band above below i j -> mat i j = 0).

Lemma my_col_in w above below i j : b_cols w = (1 + below + above)%nat -> b_below w = below -> in_band above below i j -> my_col w i j = Some (j + below - i)%nat.
Proof. intros C B [H1 H2]. unfold my_col. rewrite C, B. destruct (i <=? j + below)%nat eqn:E1; [|lia]. destruct (j + below - i <? 1 + below + above)%nat eqn:E2; [reflexivity|lia]. Qed.
Lemma my_col_out w above below i j : b_cols w = (1 + below + above)%nat -> b_below w = below -> ~ in_band above below i j -> my_col w i j = None.
Proof.
  intros C B H. unfold my_col. rewrite C, B. destruct (i <=? j + below)%nat eqn:E1; [|reflexivity].
  destruct (j + below - i <? 1 + below + above)%nat eqn:E2; [|reflexivity]. exfalso. apply H. split; lia.
Qed.
Lemma in_band_dec above below i j : {in_band above below i j} + {~ in_band above below i j}.
Proof. unfold in_band. destruct (le_dec i (j + below)), (le_dec j (i + above)); [left|right|right|right]; lia. Qed.

Lemma read_wide n above below w mat i j : holds n above below w mat -> (i < n)%nat -> band_at w i j = Ok (if (j <? n)%nat then mat i j else 0).
Proof.
  intros (C & B & Ln & Lr & V & Z) Hi. unfold band_at. destruct (in_band_dec above below i j) as [I|I].
  - rewrite (my_col_in _ _ _ _ _ C B I). rewrite (get_ok _ i []); [|exact (eq_ind_r (fun k => (i < k)%nat) Hi Ln)]. cbn [obind].
    rewrite (get_ok _ _ 0); [|destruct I; pose proof (Lr i Hi) as L0; cbn [num RealLin] in *; lia]. f_equal. destruct I; apply V; assumption.
  - rewrite (my_col_out _ _ _ _ _ C B I). f_equal. destruct (j <? n)%nat eqn:E; [symmetry; apply Z; try assumption; lia|reflexivity].
Qed.
Lemma read_ok n above below w mat i j : holds n above below w mat -> (i < n)%nat -> (j < n)%nat -> band_at w i j = Ok (mat i j).
Proof. intros H Hi Hj. rewrite (read_wide _ _ _ _ _ _ j H Hi). destruct (j <? n)%nat eqn:E; [reflexivity|lia]. Qed.
Lemma read_below n above below w mat i j : holds n above below w mat -> (n <= i)%nat -> band_at w i j = UB \/ band_at w i j = Ok 0.
Proof.
  intros (C & B & Ln & _) Hi. unfold band_at. destruct (my_col w i j); [left|right; reflexivity].
  rewrite get_ub; [reflexivity|]. cbn [num RealLin] in *. lia.
Qed.
Lemma new_holds n above below : holds n above below (band_new n above below) (fun _ _ => 0).
Proof.
  repeat split; cbn [b_cols b_below b_rows band_new].
  - apply repeat_length.
  - intros i Hi. rewrite (nth_indep _ _ (repeat zero (1 + below + above))); [|rewrite repeat_length; exact Hi]. rewrite nth_repeat. apply repeat_length.
  - intros i j Hi H1 H2. rewrite (nth_indep (repeat (repeat (@zero RealLin) (1 + below + above)) n) _ (repeat zero (1 + below + above))); [|rewrite repeat_length; exact Hi].
    rewrite nth_repeat. change (@nth R (j + below - i) (repeat (@zero RealLin) (1 + below + above)) (@zero RealLin) = if (j <? n)%nat then 0 else 0).
    rewrite nth_repeat. destruct (j <? n)%nat; reflexivity.
Qed.
Lemma put_ok n above below w mat i j v : holds n above below w mat -> (i < n)%nat -> (j < n)%nat -> in_band above below i j ->
  exists w', band_put w i j v = Ok w' /\ holds n above below w' (updated mat i j v).
Proof.
  intros (C & B & Ln & Lr & V & Z) Hi Hj I. unfold band_put. rewrite (my_col_in _ _ _ _ _ C B I).
  assert (Hi' : (i < length (b_rows w))%nat) by exact (eq_ind_r (fun k => (i < k)%nat) Hi Ln).
  rewrite (get_ok _ i []) by exact Hi'. cbn [obind].
  assert (Hc : (j + below - i < length (nth i (b_rows w) []))%nat) by (destruct I; pose proof (Lr i Hi) as L0; cbn [num RealLin] in *; lia).
  rewrite Vec.put_ok by exact Hc. cbn [obind]. rewrite Vec.put_ok by exact Hi'. cbn [obind].
  eexists. split; [reflexivity|]. repeat split; cbn [b_cols b_below b_rows]; try assumption.
  - exact (eq_trans (set_nth_length _ _ _) Ln).
  - intros k Hk. rewrite nth_set_nth by exact Hi'. destruct (k =? i)%nat eqn:E; [|exact (Lr k Hk)].
    exact (eq_trans (set_nth_length _ _ _) (Lr i Hi)).
  - intros r c Hr H1 H2. rewrite nth_set_nth by exact Hi'. unfold updated. destruct (r =? i)%nat eqn:E; cbn [andb].
    + apply Nat.eqb_eq in E. subst r. etransitivity; [apply nth_set_nth; exact Hc|].
      destruct I as [I1 I2].
      destruct (c + below - i =? j + below - i)%nat eqn:E1.
      * assert (c = j) by lia. subst c. rewrite Nat.eqb_refl. destruct (j <? n)%nat eqn:E2; [reflexivity|lia].
      * destruct (c =? j)%nat eqn:E2; [lia|]. apply V; assumption.
    + apply V; assumption.
  - intros r c Hr Hc' N. unfold updated. destruct ((r =? i)%nat && (c =? j)%nat) eqn:E; [|apply Z; assumption].
    apply andb_true_iff in E. destruct E as [E1 E2]. apply Nat.eqb_eq in E1, E2. subst. contradiction.
Qed.
Lemma put_out n above below w mat i j v : holds n above below w mat -> ~ in_band above below i j -> band_put w i j v = Throw /\ band_add w i j v = Throw.
Proof. intros (C & B & _) N. unfold band_put, band_add. rewrite (my_col_out _ _ _ _ _ C B N). split; reflexivity. Qed.
Lemma add_ok n above below w mat i j v : holds n above below w mat -> (i < n)%nat -> (j < n)%nat -> in_band above below i j ->
  band_add w i j v = band_put w i j (mat i j + v).
Proof.
  intros H Hi Hj I. unfold band_add. destruct H as (C & B & H'). rewrite (my_col_in _ _ _ _ _ C B I).
  rewrite (read_ok n above below w mat i j (conj C (conj B H')) Hi Hj). reflexivity.
Qed.
Lemma written_holds n above below w mat : written n above below w mat -> holds n above below w mat.
Proof.
  induction 1 as [|w mat i j v w' _ IH Hi Hj E|w mat i j v w' _ IH Hi Hj E].
  - apply new_holds.
  - destruct (in_band_dec above below i j) as [I|I].
    + destruct (put_ok _ _ _ _ _ _ _ v IH Hi Hj I) as (w2 & E2 & H2). unfold band_set in E. rewrite E2 in E. injection E as <-. exact H2.
    + destruct (put_out _ _ _ _ _ _ _ v IH I) as [E2 _]. unfold band_set in E. rewrite E2 in E. discriminate.
  - destruct (in_band_dec above below i j) as [I|I].
    + rewrite (add_ok _ _ _ _ _ _ _ v IH Hi Hj I) in E.
      destruct (put_ok _ _ _ _ _ _ _ (mat i j + v) IH Hi Hj I) as (w2 & E2 & H2). rewrite E2 in E. injection E as <-. exact H2.
    + destruct (put_out _ _ _ _ _ _ _ v IH I) as [_ E2]. rewrite E2 in E. discriminate.
Qed.

(** products *)
Lemma sum_split n k f : (k <= n)%nat -> sum n f = sum k f + sum (n - k) (fun j => f (k + j)%nat).
Proof.
  intros H. replace n with (k + (n - k))%nat at 1 by lia. generalize (n - k)%nat as m. clear H. induction m as [|m IH].
  - rewrite Nat.add_0_r. cbn [sum]. lra.
  - rewrite Nat.add_succ_r. cbn [sum]. rewrite IH. lra.
Qed.
Lemma sum_none n f : (forall j, (j < n)%nat -> f j = 0) -> sum n f = 0.
Proof. intros H. rewrite (sum_ext n f (fun _ => 0) H). apply sum_zero. Qed.
Lemma sum_range n s e f : (s <= e)%nat -> (e <= n)%nat -> (forall j, (j < n)%nat -> (j < s \/ e <= j)%nat -> f j = 0) -> sum n f = sum (e - s) (fun q => f (s + q)%nat).
Proof.
  intros H1 H2 Z. rewrite (sum_split n s) by lia. rewrite (sum_none s) by (intros; apply Z; lia). rewrite Rplus_0_l.
  apply sum_cut; [lia|]. intros j Hj. apply Z; lia.
Qed.
Section Mult.
Variables (n above below : nat) (w : @band RealLin) (mat : nat -> nat -> R) (x : list R) (t : bool).
Hypothesis (H : holds n above below w mat) (Lx : @length R x = n).
Definition target (i j : nat) : nat := if t then j else i.
Definition source (i j : nat) : nat := if t then i else j.
Definition part (i j p : nat) : R := if (target i j =? p)%nat then nth (source i j) x 0 * mat i j else 0.
Lemma mul_cols_ok ii : (ii < n)%nat -> forall k jj b, (jj + k <= n)%nat -> @length R b = n ->
  exists b', mul_cols t w x ii jj k b = Ok b' /\ @length R b' = n /\ forall p, (p < n)%nat -> @nth R p b' 0 = @nth R p b 0 + sum k (fun q => part ii (jj + q) p).
Proof.
  intros Hi. induction k as [|k IH]; intros jj b Hk Lb; cbn [mul_cols].
  - exists b. repeat split; [exact Lb|]. intros. cbn [sum]. lra.
  - rewrite (read_ok _ _ _ _ _ _ jj H Hi) by lia. cbn [obind].
    assert (Hs : (source ii jj < n)%nat) by (unfold source; destruct t; lia).
    assert (Ht : (target ii jj < n)%nat) by (unfold target; destruct t; lia).
    fold (source ii jj). fold (target ii jj).
    rewrite (get_ok _ (source ii jj) 0) by exact (eq_ind_r (fun k => (_ < k)%nat) Hs Lx). cbn [obind].
    rewrite (get_ok _ (target ii jj) 0) by exact (eq_ind_r (fun k => (_ < k)%nat) Ht Lb). cbn [obind].
    rewrite Vec.put_ok by exact (eq_ind_r (fun k => (_ < k)%nat) Ht Lb). cbn [obind].
    destruct (IH (S jj) (set_nth b (target ii jj) (@nth R (target ii jj) b 0 + @nth R (source ii jj) x 0 * mat ii jj))) as (b' & E & Lb' & V);
      [lia|exact (eq_trans (set_nth_length _ _ _) Lb)|].
    exists b'. split; [exact E|]. split; [exact Lb'|]. intros p Hp. rewrite (V p Hp).
    rewrite nth_set_nth by exact (eq_ind_r (fun k => (_ < k)%nat) Ht Lb).
    rewrite (sum_split (S k) 1) by lia. cbn [sum]. rewrite Nat.add_0_r, Nat.sub_succ, Nat.sub_0_r.
    rewrite (sum_ext k (fun q => part ii (S jj + q) p) (fun j => part ii (jj + (1 + j)) p)) by (intros; f_equal; lia).
    unfold part at 2. rewrite Nat.eqb_sym. destruct (target ii jj =? p)%nat eqn:E1; [apply Nat.eqb_eq in E1; subst p|]; lra.
Qed.
Lemma mul_rows_ok : forall k ii b, (ii + k = n)%nat -> @length R b = n ->
  exists b', mul_rows t w x n ii k b = Ok b' /\ @length R b' = n /\
    forall p, (p < n)%nat -> @nth R p b' 0 = @nth R p b 0 + sum k (fun q => sum n (fun j => part (ii + q) j p)).
Proof.
  induction k as [|k IH]; intros ii b Hk Lb; cbn [mul_rows].
  - exists b. repeat split; [exact Lb|]. intros. cbn [sum]. lra.
  - pose proof H as (C & B & _ & _ & _ & Z). rewrite C, B.
    set (e := Nat.min n (ii + (1 + below + above) - below)). set (s := (ii - below)%nat).
    destruct (mul_cols_ok ii ltac:(lia) (e - s) s b) as (b1 & E1 & L1 & V1); [unfold e, s; lia|exact Lb|]. rewrite E1. cbn [obind].
    destruct (IH (S ii) b1) as (b' & E & Lb' & V); [lia|exact L1|]. exists b'. split; [exact E|]. split; [exact Lb'|].
    intros p Hp. rewrite (V p Hp), (V1 p Hp). rewrite (sum_split (S k) 1) by lia. cbn [sum]. rewrite Nat.add_0_r, Nat.sub_succ, Nat.sub_0_r.
    rewrite (sum_ext k (fun q => sum n (fun j => part (S ii + q) j p)) (fun q => sum n (fun j => part (ii + (1 + q)) j p))) by (intros; apply sum_ext; intros; f_equal; lia).
    rewrite (sum_range n s e (fun j => part ii j p)); [lra|unfold e, s; lia|unfold e; lia|].
    intros j Hj Ho. unfold part. rewrite (Z ii j); [|lia|exact Hj|unfold in_band, e, s in *; lia]. destruct (target ii j =? p)%nat; lra.
Qed.
End Mult.
Lemma multiply_ok n above below w mat x : holds n above below w mat -> @length R x = n ->
  (exists r, band_multiply false w x = Ok r /\ product n mat x r) /\ (exists r, band_multiply true w x = Ok r /\ product n (transposed mat) x r).
Proof.
  intros H Lx. pose proof H as (_ & _ & Ln & _).
  assert (F : forall t, exists r, band_multiply t w x = Ok r /\ @length R r = n /\ forall p, (p < n)%nat -> @nth R p r 0 = sum n (fun i => sum n (fun j => part mat x t i j p))).
  { intros t. unfold band_multiply. assert (Es : (size w =? @length R x)%nat = true) by (apply Nat.eqb_eq; unfold size; exact (eq_trans Ln (eq_sym Lx))).
    change (@length (@num RealLin) x) with (@length R x). rewrite Es.
    destruct (mul_rows_ok n above below w mat x t H Lx n 0 (repeat 0 n)) as (r & E & Lr & V); [lia|apply repeat_length|].
    exists r. rewrite Lx. split; [exact E|]. split; [exact Lr|]. intros p Hp. rewrite (V p Hp). rewrite nth_repeat. rewrite Rplus_0_l. reflexivity. }
  split.
  - destruct (F false) as (r & E & Lr & V). exists r. split; [exact E|]. split; [exact Lr|]. intros p Hp. rewrite (V p Hp).
    rewrite (sum_ext n _ (fun i => if (i =? p)%nat then sum n (fun j => mat p j * nth j x 0) else 0)).
    + rewrite sum_one. destruct (p <? n)%nat eqn:E1; [reflexivity|lia].
    + intros i Hi. unfold part, target, source. destruct (i =? p)%nat eqn:E1; [apply Nat.eqb_eq in E1; subst i; apply sum_ext; intros; lra|apply sum_zero].
  - destruct (F true) as (r & E & Lr & V). exists r. split; [exact E|]. split; [exact Lr|]. intros p Hp. rewrite (V p Hp).
    apply sum_ext. intros i Hi. unfold part, target, source, transposed.
    rewrite (sum_ext n _ (fun j => if (j =? p)%nat then nth i x 0 * mat i p else 0)).
    + rewrite sum_one. destruct (p <? n)%nat eqn:E1; [lra|lia].
    + intros j Hj. destruct (j =? p)%nat eqn:E1; [apply Nat.eqb_eq in E1; subst j|]; reflexivity.
Qed.

(** forward substitution *)
Lemma zero_small z : @is_zero RealLin z = true -> Rabs z < @epsilon RealLin.
Proof.
  unfold is_zero. cbn [nltb nopp epsilon RealLin]. destruct (Rlt_dec z _) as [A|], (Rlt_dec (- z) _) as [A'|]; try discriminate. intros _.
  unfold Rabs. destruct (Rcase_abs z); lra.
Qed.
Lemma zero_solid z : @is_zero RealLin z = false -> @epsilon RealLin <= Rabs z.
Proof.
  unfold is_zero. cbn [nltb nopp epsilon RealLin]. pose proof (Rle_abs z). pose proof (Rle_abs (- z)) as A. rewrite Rabs_Ropp in A.
  destruct (Rlt_dec z _), (Rlt_dec (- z) _); try discriminate; intros _; lra.
Qed.
Lemma eps_pos : 0 < @epsilon RealLin. Proof. cbn. lra. Qed.
Section Lower.
Variables (n below : nat) (w : @band RealLin) (mat : nat -> nat -> R).
Hypothesis (H : holds n 0 below w mat).
Lemma lsolve_row_ok x ii : (ii < n)%nat -> @length R x = n -> forall k jj r, (jj + k <= ii)%nat ->
  lsolve_row w x ii jj k r = Ok (r - sum k (fun q => mat ii (jj + q) * @nth R (jj + q) x 0)).
Proof.
  intros Hi Lx. induction k as [|k IH]; intros jj r Hk; cbn [lsolve_row].
  - cbn [sum]. f_equal. lra.
  - assert (Hj : (jj < n)%nat) by lia. rewrite (get_ok _ jj 0) by exact (eq_ind_r (fun k => (_ < k)%nat) Hj Lx). cbn [obind].
    rewrite (read_ok _ _ _ _ _ _ jj H Hi Hj). cbn [obind]. rewrite IH by lia. f_equal.
    rewrite (sum_split (S k) 1) by lia. cbn [sum]. rewrite Nat.add_0_r, Nat.sub_succ, Nat.sub_0_r.
    rewrite (sum_ext k (fun q => mat ii (S jj + q) * @nth R (S jj + q) x 0) (fun q => mat ii (jj + (1 + q)) * @nth R (jj + (1 + q)) x 0))
      by (intros; replace (S jj + j)%nat with (jj + (1 + j))%nat by lia; reflexivity).
    cbn [nsub nmul RealLin]. lra.
Qed.
Lemma lsolve_rows_ok (ob : option (list R)) (b : list R) : @length R b = n -> solid_diagonal n mat -> forall k ii x, (ii + k = n)%nat -> @length R x = n ->
  (match ob with Some b' => b' = b | None => forall p, (ii <= p < n)%nat -> @nth R p x 0 = @nth R p b 0 end) ->
  (forall p, (p < ii)%nat -> sum n (fun j => mat p j * @nth R j x 0) = @nth R p b 0) ->
  exists y, lsolve_rows w ob ii k x = Ok y /\ product n mat y b.
Proof.
  intros Lb Sd. induction k as [|k IH]; intros ii x Hk Lx Hb V; cbn [lsolve_rows].
  - exists x. split; [reflexivity|]. split; [exact Lb|]. intros p Hp. symmetry. apply V. lia.
  - assert (Hi : (ii < n)%nat) by lia. pose proof H as (C & B & _ & _ & _ & Z).
    assert (G : get (match ob with Some w => w | None => x end) ii = Ok (@nth R ii b 0)).
    { destruct ob as [b'|]; [subst b'; apply (get_ok _ ii 0); exact (eq_ind_r (fun k => (_ < k)%nat) Hi Lb)|].
      rewrite (get_ok _ ii 0) by exact (eq_ind_r (fun k => (_ < k)%nat) Hi Lx). f_equal. apply Hb. lia. }
    change (get match ob with Some w => w | None => x end ii) with (get (match ob with Some w => w | None => x end) ii) in *.
    unfold get in G |- *. cbn [num RealLin] in G |- *. rewrite G. cbn [obind]. rewrite B.
    rewrite (lsolve_row_ok x ii Hi Lx) by lia. cbn [obind]. rewrite (read_ok _ _ _ _ _ _ ii H Hi Hi). cbn [obind].
    pose proof (Sd ii Hi) as Sd'. destruct (@is_zero RealLin (mat ii ii)) eqn:Ez; [apply zero_small in Ez; lra|].
    rewrite Vec.put_ok by exact (eq_ind_r (fun k => (_ < k)%nat) Hi Lx). cbn [obind].
    set (r := @nth R ii b 0 - sum (ii - (ii - below)) (fun q => mat ii (ii - below + q) * @nth R (ii - below + q) x 0)).
    assert (Nz : mat ii ii <> 0) by (intros Q; rewrite Q, Rabs_R0 in Sd'; pose proof eps_pos; lra).
    assert (P : forall p, (p < n)%nat -> @nth R p (@set_nth R x ii (r / mat ii ii)) 0 = if (p =? ii)%nat then r / mat ii ii else @nth R p x 0)
      by (intros; apply nth_set_nth; exact (eq_ind_r (fun k => (_ < k)%nat) Hi Lx)).
    destruct (IH (S ii) (@set_nth R x ii (r / mat ii ii))) as (y & E & Py).
    + lia.
    + exact (eq_trans (set_nth_length _ _ _) Lx).
    + destruct ob; [exact Hb|]. intros p Hp. rewrite P by lia. destruct (p =? ii)%nat eqn:E1; [lia|]. apply Hb. lia.
    + intros p Hp. destruct (Nat.eq_dec p ii) as [->|Np].
      * rewrite (sum_pick n ii) by exact Hi. rewrite P by exact Hi. rewrite Nat.eqb_refl.
        rewrite (sum_range n (ii - below) ii).
        -- rewrite (sum_ext _ _ (fun q => mat ii (ii - below + q) * @nth R (ii - below + q) x 0)).
           ++ fold r. unfold r at 1. set (s := sum _ _). field. exact Nz.
           ++ intros q Hq. rewrite P by lia. destruct (ii - below + q =? ii)%nat eqn:E1; [lia|reflexivity].
        -- lia.
        -- lia.
        -- intros j Hj Ho. destruct (j =? ii)%nat eqn:E1; [reflexivity|]. rewrite (Z ii j Hi Hj); [lra|]. unfold in_band. lia.
      * rewrite <- (V p) by lia. apply sum_ext. intros j Hj. rewrite P by exact Hj. destruct (j =? ii)%nat eqn:E1; [|reflexivity].
        apply Nat.eqb_eq in E1. subst j. rewrite (Z p ii); [lra|lia|exact Hi|]. unfold in_band. lia.
    + exists y. split; [exact E|exact Py].
Qed.
Lemma lsolve_rows_bad (ob : option (list R)) i : (i < n)%nat -> @is_zero RealLin (mat i i) = true ->
  (match ob with Some b' => @length R b' = n | None => True end) -> forall k ii x, (ii + k = n)%nat -> (ii <= i)%nat -> @length R x = n -> lsolve_rows w ob ii k x = Throw.
Proof.
  intros Hi0 Z0 Lb. induction k as [|k IH]; intros ii x Hk Hii Lx; [lia|]. cbn [lsolve_rows].
  assert (Hi : (ii < n)%nat) by lia. pose proof H as (C & B & _).
  assert (G : exists v, get (match ob with Some w => w | None => x end) ii = Ok v).
  { exists (@nth R ii (match ob with Some w => w | None => x end) 0). apply get_ok. destruct ob; cbn [num RealLin] in *; lia. }
  destruct G as [v G]. unfold get in G |- *. cbn [num RealLin] in G |- *. rewrite G. cbn [obind]. rewrite B.
  rewrite (lsolve_row_ok x ii Hi Lx) by lia. cbn [obind]. rewrite (read_ok _ _ _ _ _ _ ii H Hi Hi). cbn [obind].
  destruct (@is_zero RealLin (mat ii ii)) eqn:Ez; [reflexivity|].
  assert (ii <> i) by (intros ->; congruence).
  rewrite Vec.put_ok by exact (eq_ind_r (fun k => (_ < k)%nat) Hi Lx). cbn [obind]. apply IH; [lia|lia|].
  exact (eq_trans (set_nth_length _ _ _) Lx).
Qed.
End Lower.

(** the symmetry test *)
Lemma sym_cols_true (w : @band RealLin) ii : forall k jj, sym_cols w ii jj k = Ok true -> forall q, (q < k)%nat -> exists v, band_at w (jj + q) ii = Ok v.
Proof.
  induction k as [|k IH]; intros jj E q Hq; [lia|]. cbn [sym_cols] in E.
  destruct (band_at w ii jj) as [a| | |]; cbn [obind] in E; try discriminate.
  destruct (band_at w jj ii) as [b| | |] eqn:Eb; cbn [obind] in E; try discriminate.
  destruct (negb _) in E; [discriminate|]. destruct q as [|q]; [exists b; rewrite Nat.add_0_r; exact Eb|].
  destruct (IH (S jj) E q ltac:(lia)) as [v Ev]. exists v. rewrite <- Ev. f_equal. lia.
Qed.
Lemma sym_rows_true (w : @band RealLin) n width : forall k ii, sym_rows w n width ii k = Ok true -> forall q, (q < k)%nat ->
  forall j, (ii + q - width <= j <= Nat.max (n - 1) (ii + q + width))%nat -> exists v, band_at w j (ii + q) = Ok v.
Proof.
  induction k as [|k IH]; intros ii E q Hq j Hj; [lia|]. cbn [sym_rows] in E.
  destruct (sym_cols w ii (ii - width) _) as [r| | |] eqn:E1 in E; cbn [obind] in E; try discriminate. destruct r; [|discriminate].
  destruct q as [|q].
  - rewrite Nat.add_0_r in *. destruct (sym_cols_true _ _ _ _ E1 (j - (ii - width))%nat) as [v Ev]; [lia|]. exists v. rewrite <- Ev. f_equal. lia.
  - destruct (IH (S ii) E q ltac:(lia) j ltac:(lia)) as [v Ev]. exists v. rewrite <- Ev. f_equal. lia.
Qed.
Lemma never_symmetric n above below w mat : holds n above below w mat -> (0 < n)%nat -> (0 < below)%nat -> is_symmetric w <> Ok true.
Proof.
  intros (C & B & Ln & _) Hn Hb E. unfold is_symmetric in E. assert (Es : size w = n) by exact Ln. rewrite Es in E.
  destruct (sym_rows_true _ _ _ _ _ E (n - 1)%nat ltac:(lia) n) as [v Ev]; [rewrite B; lia|].
  unfold band_at in Ev. rewrite (my_col_in w above below) in Ev; [|exact C|exact B|split; lia].
  rewrite get_ub in Ev; [discriminate|]. cbn [num RealLin] in *. lia.
Qed.
Lemma zero_is_zero z : z = 0 -> @is_zero RealLin z = true.
Proof. intros ->. unfold is_zero. cbn [nltb nopp epsilon RealLin]. destruct (Rlt_dec 0 _), (Rlt_dec (- 0) _); try reflexivity; lra. Qed.
Lemma symmetric_ub n above below w mat : holds n above below w mat -> equal_transpose n mat -> (0 < n)%nat -> (0 < below)%nat -> is_symmetric w = UB.
Proof.
  intros H Sy Hn Hb. pose proof (never_symmetric _ _ _ _ _ H Hn Hb) as N. revert N. pose proof H as (C & B & Ln & _).
  assert (Es : size w = n) by exact Ln. unfold is_symmetric. rewrite Es.
  assert (F1 : forall k ii jj, (ii < n)%nat -> sym_cols w ii jj k = Ok true \/ sym_cols w ii jj k = UB).
  { induction k as [|k IH]; intros ii jj Hi; [left; reflexivity|]. cbn [sym_cols]. rewrite (read_wide _ _ _ _ _ _ jj H Hi). cbn [obind].
    destruct (le_lt_dec n jj) as [Hj|Hj].
    - destruct (jj <? n)%nat eqn:E; [lia|]. destruct (read_below _ _ _ _ _ _ ii H Hj) as [R|R]; rewrite R; [right; reflexivity|]. cbn [obind].
      rewrite zero_is_zero by (cbn [nsub RealLin]; lra). cbn [negb]. apply IH; exact Hi.
    - destruct (jj <? n)%nat eqn:E; [|lia]. rewrite (read_ok _ _ _ _ _ _ ii H Hj Hi). cbn [obind].
      rewrite zero_is_zero by (cbn [nsub RealLin]; rewrite (Sy ii jj Hi Hj); lra). cbn [negb]. apply IH; exact Hi. }
  assert (F2 : forall width k ii, (ii + k <= n)%nat -> sym_rows w n width ii k = Ok true \/ sym_rows w n width ii k = UB).
  { intros width. induction k as [|k IH]; intros ii Hi; [left; reflexivity|]. cbn [sym_rows].
    destruct (F1 (S (Nat.max (n - 1) (ii + width)) - (ii - width))%nat ii (ii - width)%nat ltac:(lia)) as [R|R]; rewrite R; [|right; reflexivity].
    cbn [obind]. apply IH. lia. }
  intros N. destruct (F2 (Nat.max (b_below w) (b_cols w - b_below w - 1)) n 0%nat ltac:(lia)) as [R|R]; [contradiction|exact R].
Qed.
Lemma cholesky_throws n above below w mat : holds n above below w mat -> (2 <= n)%nat -> (0 < below)%nat -> band_cholesky w = Throw.
Proof.
  intros H Hn Hb. pose proof H as (C & B & Ln & _). unfold band_cholesky. assert (Es : size w = n) by exact Ln. rewrite Es, B.
  destruct (b_cols w =? 2 * below + 1)%nat; [|reflexivity]. destruct n as [|[|n]]; [lia|lia|].
  destruct below as [|below]; [lia|]. cbn [bchol_rows]. rewrite B. replace (0 - S below)%nat with 0%nat by lia. cbn [bchol_cols Nat.sub].
  rewrite (read_ok _ _ _ _ _ 0%nat 0%nat H) by lia. cbn [obind chol_residual]. rewrite Nat.ltb_irrefl.
  destruct (nltb _ _); [|reflexivity].
  destruct (put_ok (S (S n)) (S below) 0 _ _ 0%nat 0%nat (@nsqrt RealLin (mat 0%nat 0%nat)) (new_holds (S (S n)) (S below) 0)) as (v & Ev & Hv); [lia|lia|split; lia|].
  rewrite Ev. cbn [obind bchol_cols Nat.sub].
  rewrite (read_ok _ _ _ _ _ 1%nat 0%nat H) by lia. cbn [obind chol_residual]. change (0 <? 1)%nat with true. cbn [negb].
  assert (T : forall u, band_put v 1 0 u = Throw) by (intros u; apply (put_out _ _ _ _ _ _ _ u Hv); unfold in_band; lia).
  destruct (is_zero _); [rewrite T; reflexivity|]. rewrite (read_ok _ _ _ _ _ 0%nat 0%nat Hv) by lia. cbn [obind].
  destruct (is_zero _); [reflexivity|]. rewrite T. reflexivity.
Qed.
Lemma decompose_never n above below w mat : holds n above below w mat -> (0 < n)%nat -> (2 <= above \/ 2 <= below)%nat -> forall d, band_decompose w <> Ok d.
Proof.
  intros H Hn Hw d E. pose proof H as (C & B & _). unfold band_decompose in E.
  destruct (is_symmetric w) as [[|]| | |] eqn:Es; cbn [obind] in E; try discriminate.
  destruct (Nat.eq_dec below 0) as [Z|Z].
  - unfold band_cholesky in E. rewrite C, B in E. destruct (1 + below + above =? 2 * below + 1)%nat eqn:E1; [lia|discriminate].
  - exact (never_symmetric _ _ _ _ _ H Hn ltac:(lia) Es).
Qed.
Lemma resized_length (x : list R) n : @length R (@resized RealLin x n) = n.
Proof. unfold resized. etransitivity; [apply app_length|]. rewrite firstn_length. etransitivity; [apply f_equal; apply repeat_length|]. cbn [num RealLin]. lia. Qed.
Lemma transpose_solve_ub n below w mat b x : holds n 0 below w mat -> (0 < n)%nat -> (0 < below)%nat -> @length R b = n -> ltsolve w b x = UB.
Proof.
  intros (C & B & Ln & _) Hn Hb Lb. unfold ltsolve. rewrite C, B.
  replace (negb (1 + below + 0 =? below + 1)%nat) with false by lia. change (@length (@num RealLin) b) with (@length R b).
  assert (Es : size w = n) by exact Ln. rewrite Es, Lb, Nat.eqb_refl. destruct n as [|n]; [lia|]. cbn [ltsolve_rows].
  rewrite (get_ok _ n 0) by (cbn [num RealLin] in *; lia). cbn [obind]. rewrite B.
  replace (Nat.max (S n - 1) (n + below)) with (n + below)%nat by lia. replace (n + below - n)%nat with (S (below - 1)) by lia. cbn [ltsolve_row].
  rewrite get_ub; [reflexivity|]. pose proof (resized_length x (S n)) as L0. cbn [num RealLin] in *. lia.
Qed.
Lemma lsolve_ok n below w mat b x : holds n 0 below w mat -> @length R b = n -> solid_diagonal n mat -> exists y, lsolve w b x = Ok y /\ product n mat y b.
Proof.
  intros H Lb Sd. pose proof H as (C & B & Ln & _). unfold lsolve. rewrite C, B.
  replace (negb (1 + below + 0 =? below + 1)%nat) with false by lia. change (@length (@num RealLin) b) with (@length R b).
  assert (Es : size w = n) by exact Ln. rewrite Es, Lb, Nat.eqb_refl.
  apply (lsolve_rows_ok n below w mat H (Some b) b Lb Sd n 0); [lia|apply resized_length|reflexivity|lia].
Qed.
Lemma lsolve_in_place_ok n below w mat b : holds n 0 below w mat -> @length R b = n -> solid_diagonal n mat -> exists y, lsolve_in_place w b = Ok y /\ product n mat y b.
Proof.
  intros H Lb Sd. pose proof H as (C & B & Ln & _). unfold lsolve_in_place. rewrite C, B.
  replace (negb (1 + below + 0 =? below + 1)%nat) with false by lia. change (@length (@num RealLin) b) with (@length R b).
  assert (Es : size w = n) by exact Ln. rewrite Es, Lb, Nat.eqb_refl.
  apply (lsolve_rows_ok n below w mat H None b Lb Sd n 0); [lia|exact Lb|reflexivity|lia].
Qed.
Lemma lsolve_throws n below w mat b x i : holds n 0 below w mat -> @length R b = n -> (i < n)%nat -> Rabs (mat i i) < @epsilon RealLin ->
  lsolve w b x = Throw /\ lsolve_in_place w b = Throw.
Proof.
  intros H Lb Hi Hz. pose proof H as (C & B & Ln & _). unfold lsolve, lsolve_in_place. rewrite C, B.
  replace (negb (1 + below + 0 =? below + 1)%nat) with false by lia. change (@length (@num RealLin) b) with (@length R b).
  assert (Es : size w = n) by exact Ln. rewrite Es, Lb, Nat.eqb_refl.
  assert (Z : @is_zero RealLin (mat i i) = true) by (destruct (@is_zero RealLin (mat i i)) eqn:E; [reflexivity|apply zero_solid in E; lra]).
  split; [apply (lsolve_rows_bad n below w mat H (Some b) i Hi Z Lb n 0); [lia|lia|apply resized_length]|].
  apply (lsolve_rows_bad n below w mat H None i Hi Z Logic.I n 0); [lia|lia|exact Lb].
Qed.

(** ** the accumulator keeps its shape *)
Section Accumulator.
Context {L : Lin}.
Lemma rotate_lengths c s v : forall row, length (fst (rotate_pairs c s v row)) = length v /\ length (snd (rotate_pairs c s v row)) = length row.
Proof.
  induction v as [|x v IH]; intros [|y row]; cbn [rotate_pairs]; try (split; reflexivity). specialize (IH row). destruct (rotate_pairs c s v row) as [a b]. cbn [fst snd length] in *. lia.
Qed.
Lemma removelast_length {A} (l : list A) : length (removelast l) = (length l - 1)%nat.
Proof. induction l as [|x [|y l] IH]; [reflexivity|reflexivity|]. cbn [removelast length] in *. lia. Qed.
Lemma acc_loop_shape cols k : forall rows v, Forall (fun r => length r = cols) rows -> (length v <= cols)%nat -> (k <= length rows)%nat ->
  match acc_loop cols rows v k with Ok rows' => length rows' = length rows /\ Forall (fun r => length r = cols) rows' | Throw => True | _ => False end.
Proof.
  induction k as [|i IH]; intros rows v F Hv Hk; cbn [acc_loop]; [auto|].
  rewrite (Vec.get_ok rows i []) by lia. cbn [obind]. assert (Lr : length (nth i rows []) = cols) by (rewrite Forall_forall in F; apply F, nth_In; lia).
  set (row := nth i rows []) in *.
  assert (P : forall x, length x = cols -> exists rows', put rows i x = Ok rows' /\ length rows' = length rows /\ Forall (fun r => length r = cols) rows').
  { intros x Hx. exists (set_nth rows i x). split; [apply Vec.put_ok; lia|]. split; [apply set_nth_length|]. apply Forall_forall. intros r Hr. apply (In_nth _ _ []) in Hr as (j & Hj & <-). rewrite set_nth_length in Hj.
    rewrite nth_set_nth by lia. destruct (Nat.eqb_spec j i); [exact Hx|]. rewrite Forall_forall in F. apply F, nth_In. lia. }
  destruct (all_zero row).
  - destruct (P (firstn (cols - length v) row ++ v)) as (r & -> & A & B); [rewrite app_length, firstn_length; lia|]. auto.
  - destruct (all_zero v) eqn:Ez; [auto|]. assert (Nv : (0 < length v)%nat) by (destruct v; [discriminate|cbn; lia]).
    set (c := ndiv _ _). set (s := ndiv _ _). pose proof (rotate_lengths c s v (skipn (cols - length v) row)) as [L1 L2]. destruct (rotate_pairs c s v (skipn (cols - length v) row)) as [v1 t1]. cbn [fst snd] in L1, L2.
    rewrite skipn_length in L2. destruct (P (firstn (cols - length v) row ++ t1)) as (r & -> & A & B); [rewrite app_length, firstn_length; lia|]. cbn [obind].
    destruct (negb (is_zero (back v1))); [exact I|].
    match goal with |- match acc_loop _ _ ?w _ with _ => _ end => assert (Hw : (length w <= cols)%nat) end.
    { destruct ((length v1 <=? i - 1)%nat && (1 <=? i)%nat); cbn [length]; rewrite removelast_length; lia. }
    specialize (IH r _ B Hw ltac:(lia)). destruct (acc_loop cols r _ i); auto. rewrite A in IH. exact IH.
Qed.
End Accumulator.
