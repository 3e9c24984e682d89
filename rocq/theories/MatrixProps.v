(** Property C43: matrix storage. *)
From Coq Require Import List Arith Bool Lia.
From Verif Require Import Base Vec MatrixModel MatrixSpec MatrixProofs.
Import ListNotations.

Section Props.
Context {A : Type}.
Variable d : A.
Notation mat := (mat A).
Implicit Types m t : mat.
Lemma from_rect vv by_cols (quiet ragged : bool) c : vv <> [] -> rectangular vv c -> (by_cols = true -> 0 < c) ->
  exists m, from_vectors d vv by_cols quiet ragged = Ok m /\ wf m /\ rows m = (if by_cols then c else length vv) /\ cols m = (if by_cols then length vv else c) /\
    forall i j, i < length vv -> j < c -> (if by_cols then ent d m j i else ent d m i j) = entry d vv i j.
Proof.
  intros Hne Hrect Hc. unfold from_vectors. destruct vv as [|v0 vv0]; [congruence|]. set (vv := v0 :: vv0) in *. assert (length v0 = c) as L0 by (apply Hrect; now left).
  assert ((if ragged then list_max (map (@length A) vv) else length v0) = c) as ->.
  { destruct ragged; [|exact L0]. apply Nat.le_antisymm; [apply list_max_le, Forall_forall; intros x Hx; apply in_map_iff in Hx as (v & <- & Hv); rewrite (Hrect v Hv); lia|]. rewrite <- L0. apply list_max_ge. apply in_map. now left. }
  assert (forall i, i < length vv -> length (nth i vv []) = c) as Hlen by (intros i Hi; apply Hrect, nth_In, Hi). destruct by_cols.
  - destruct (wf_new c (length vv) d) as (W & R & C). destruct (from_cols_ok d quiet ragged c (Hc eq_refl) vv _ 0 W R C) as (m & E & Wm & Rm & Cm & N); [intros v Hv; rewrite (Hrect v Hv); lia|right; exact Hrect|]. exists m. rewrite Cm, C. repeat (split; [assumption||reflexivity|]). intros i j Hi Hj. rewrite N by (rewrite ?C; assumption). rewrite Nat.sub_0_r, Hlen by exact Hi.
    destruct (Nat.ltb_spec j c); [reflexivity|lia].
  - destruct (wf_new (length vv) c d) as (W & R & C). destruct (from_rows_ok d quiet ragged c vv _ 0 W C R) as (m & E & Wm & Rm & Cm & N); [intros v Hv; rewrite (Hrect v Hv); lia|right; exact Hrect|]. exists m. rewrite Rm, R. repeat (split; [assumption||reflexivity|]). intros i j Hi Hj. rewrite N by (rewrite ?R; assumption). rewrite Nat.sub_0_r, Hlen by exact Hi.
    destruct (Nat.ltb_spec j c); [reflexivity|lia].
Qed.
Lemma made_wf m : made d m -> wf m.
Proof.
  intros H; induction H as [|r c v|moved m r c m' H IH E|m i j x m' H IH Hi Hj E|m H IH|m m' H IH E|vv by_cols m Hrect E].
  - apply wf_none.
  - apply wf_new.
  - destruct (resize_ok d moved m r c IH) as (m2 & E2 & W & _). congruence.
  - destruct (put_at_ok d m i j x IH Hi Hj) as (m2 & E2 & W & _). congruence.
  - now apply (copy_ok d).
  - destruct (Nat.eq_dec (cols m) 0) as [Hc|Hc]; [|destruct (transpose_ok d m IH ltac:(lia)) as (t & E2 & W & _); congruence]. unfold make_transpose in E. destruct (rows m) as [|n] eqn:Er; [cbn in E; injection E as <-; apply wf_new|]. cbn [transpose_loop] in E. destruct (row m 0) as [xs| | |]; try discriminate. cbn [obind] in E. unfold set_col in E. rewrite hook_ub in E; [discriminate|]. rewrite Hc. destruct (wf_new 0 (S n) d) as (_ & -> & _). lia.
  - destruct vv as [|v0 vv]; [cbn in E; injection E as <-; apply wf_none|]. assert (rectangular (v0 :: vv) (length v0)) as HR by (intros v Hv; apply Hrect; [exact Hv|now left]). destruct by_cols; [destruct (Nat.eq_dec (length v0) 0) as [H0|H0]|].
    + exfalso. unfold from_vectors in E. rewrite H0 in E. cbn [from_loop] in E. cbn [orb] in E. rewrite hook_ub in E; [discriminate|]. destruct (wf_new 0 (length (v0 :: vv)) d) as (_ & -> & _). lia.
    + destruct (from_rect (v0 :: vv) true true false (length v0)) as (m2 & E2 & W & _); [discriminate|exact HR|lia|]. congruence.
    + destruct (from_rect (v0 :: vv) false true false (length v0)) as (m2 & E2 & W & _); [discriminate|exact HR|discriminate|]. congruence.
Qed.

(** Resizing works for every matrix and shape; the new matrix has the shape asked for and every entry whose row and
    column exist in both shapes is kept, whether or not the storage moves. *)
Theorem C43_resize m : made d m -> forall moved r c, exists m', resize d moved m r c = Ok m' /\ rows m' = r /\ cols m' = c /\
  forall i j, i < r -> j < c -> i < rows m -> j < cols m -> exists x, at_ m i j = Ok x /\ at_ m' i j = Ok x.
Proof.
  intros H moved r c. apply made_wf in H. destruct (resize_ok d moved m r c H) as (m' & E & W & R & C & N & _). exists m'. repeat (split; [assumption|]). intros i j Hi Hj Hi' Hj'. exists (ent d m i j). split; [now apply ent_at|]. rewrite (ent_at d m') by (assumption || lia). f_equal. now apply N.
Qed.
(** ... entries that are new are default values, except when the width stays: then the first new row need not be. *)
Theorem C43_resize_new m : made d m -> forall moved r c m', resize d moved m r c = Ok m' ->
  forall i j, i < r -> j < c -> rows m <= i \/ cols m <= j -> c <> cols m \/ rows m < i -> at_ m' i j = Ok d.
Proof.
  intros H moved r c m' E i j Hi Hj H1 H2. apply made_wf in H. destruct (resize_ok d moved m r c H) as (m2 & E2 & W & R & C & _ & N1 & N2). rewrite E in E2. injection E2 as <-. rewrite (ent_at d m') by (assumption || lia). f_equal. destruct (Nat.eq_dec c (cols m)) as [Ec|Ec]; [apply N2; lia|now apply N1].
Qed.
(** Every cell is its own: writing one changes that one only. *)
Theorem C43_write m : made d m -> forall i j x, i < rows m -> j < cols m -> exists m', put_at m i j x = Ok m' /\ rows m' = rows m /\ cols m' = cols m /\
  at_ m' i j = Ok x /\ forall k l, k < rows m -> l < cols m -> (k, l) <> (i, j) -> at_ m' k l = at_ m k l.
Proof.
  intros H i j x Hi Hj. apply made_wf in H. destruct (put_at_ok d m i j x H Hi Hj) as (m' & E & W & R & C & N). exists m'. repeat (split; [assumption|]). split.
  - rewrite (ent_at d) by (assumption || lia). rewrite N, !Nat.eqb_refl by assumption. reflexivity.
  - intros k l Hk Hl Hne. rewrite !(ent_at d) by (assumption || lia). rewrite N by assumption. destruct (Nat.eqb_spec k i), (Nat.eqb_spec l j); cbn [andb]; subst; congruence.
Qed.
(** Transposing exchanges rows and columns, and twice gives the matrix back. *)
Theorem C43_transpose m : made d m -> 0 < rows m -> 0 < cols m -> exists t m', make_transpose d m = Ok t /\ rows t = cols m /\ cols t = rows m /\
  (forall i j, i < rows m -> j < cols m -> exists x, at_ m i j = Ok x /\ at_ t j i = Ok x) /\
  make_transpose d t = Ok m' /\ rows m' = rows m /\ cols m' = cols m /\ forall i j, i < rows m -> j < cols m -> at_ m' i j = at_ m i j.
Proof.
  intros H Hr Hc. apply made_wf in H. destruct (transpose_ok d m H Hc) as (t & E & W & R & C & N). destruct (transpose_ok d t W ltac:(lia)) as (m' & E' & W' & R' & C' & N'). exists t, m'. repeat (split; [assumption|]). split; [|split; [exact E'|split; [lia|split; [lia|]]]].
  - intros i j Hi Hj. exists (ent d m i j). split; [now apply ent_at|]. rewrite (ent_at d t) by (assumption || lia). f_equal. now apply N.
  - intros i j Hi Hj. rewrite !(ent_at d) by (assumption || lia). f_equal. rewrite N' by lia. apply N; assumption.
Qed.
(** A list of rows of one length, written into a matrix and read back, is the same list; and so is a list of columns. *)
Theorem C43_vectors_round_trip vv c by_cols quiet ragged : vv <> [] -> rectangular vv c -> (by_cols = true -> 0 < c) ->
  exists m, from_vectors d vv by_cols quiet ragged = Ok m /\ rows m = (if by_cols then c else length vv) /\ cols m = (if by_cols then length vv else c) /\ to_vectors m by_cols = Ok vv.
Proof.
  intros Hne HR Hc. destruct (from_rect vv by_cols quiet ragged c Hne HR Hc) as (m & E & W & R & C & N). exists m. repeat (split; [assumption|]). assert (forall ww, length ww = length vv -> (forall i, i < length vv -> length (nth i ww []) = c /\ forall j, j < c -> nth j (nth i ww []) d = entry d vv i j) -> ww = vv) as Heq.
  { intros ww L H. apply (nth_ext _ _ [] []); [exact L|]. intros i Hi. rewrite L in Hi. destruct (H i Hi) as [H1 H2]. apply (nth_ext _ _ d d); [rewrite H1; symmetry; apply HR, nth_In, Hi|]. intros j Hj. apply H2. lia. }
  unfold to_vectors. destruct by_cols.
  - destruct (to_cols_ok d m W ltac:(rewrite R; auto) (cols m) 0 ltac:(lia)) as (ww & Ew & Lw & Nw). rewrite Ew. f_equal. apply Heq; [congruence|]. intros i Hi. destruct (Nw i ltac:(lia)) as [H1 H2]. split; [congruence|]. intros j Hj. rewrite H2 by lia. cbn [Nat.add]. now apply N.
  - destruct (to_rows_ok d m W (rows m) 0 ltac:(lia)) as (ww & Ew & Lw & Nw). rewrite Ew. f_equal. apply Heq; [congruence|]. intros i Hi. destruct (Nw i ltac:(lia)) as [H1 H2]. split; [congruence|]. intros j Hj. rewrite H2 by lia. cbn [Nat.add]. now apply N.
Qed.
(** A matrix written out as rows or as columns and rebuilt has the same shape and entries. *)
Theorem C43_matrix_round_trip m by_cols : made d m -> 0 < rows m -> (by_cols = true -> 0 < cols m) ->
  exists vv m', to_vectors m by_cols = Ok vv /\ from_vectors d vv by_cols true false = Ok m' /\ rows m' = rows m /\ cols m' = cols m /\ forall i j, i < rows m -> j < cols m -> at_ m' i j = at_ m i j.
Proof.
  intros H Hr Hc. apply made_wf in H. unfold to_vectors. destruct by_cols.
  - specialize (Hc eq_refl). destruct (to_cols_ok d m H Hr (cols m) 0 ltac:(lia)) as (vv & E & L & N). exists vv. assert (rectangular vv (rows m)) as HR by (intros v Hv; apply (In_nth _ _ []) in Hv as (i & Hi & <-); apply N; lia).
    destruct (from_rect vv true true false (rows m)) as (m' & E' & W' & R' & C' & N'); [intros ->; cbn in L; lia|exact HR|auto|]. exists m'. split; [exact E|]. split; [exact E'|]. split; [exact R'|]. split; [congruence|]. intros i j Hi Hj. rewrite !(ent_at d) by (assumption || lia). f_equal. rewrite N' by lia. unfold entry. destruct (N j ltac:(lia)) as [_ ->]; [reflexivity|exact Hi].
  - destruct (to_rows_ok d m H (rows m) 0 ltac:(lia)) as (vv & E & L & N). exists vv. assert (rectangular vv (cols m)) as HR by (intros v Hv; apply (In_nth _ _ []) in Hv as (i & Hi & <-); apply N; lia).
    destruct (from_rect vv false true false (cols m)) as (m' & E' & W' & R' & C' & N'); [intros ->; cbn in L; lia|exact HR|discriminate|]. exists m'. split; [exact E|]. split; [exact E'|]. split; [congruence|]. split; [congruence|]. intros i j Hi Hj. rewrite !(ent_at d) by (assumption || lia). f_equal. rewrite N' by lia. unfold entry. destruct (N i ltac:(lia)) as [_ ->]; [reflexivity|exact Hj].
Qed.
(** Rows of several lengths are filled up with default values when this is asked for. *)
Theorem C43_ragged vv quiet : vv <> [] -> exists m, from_vectors d vv false quiet true = Ok m /\ rows m = length vv /\ cols m = list_max (map (@length A) vv) /\
  forall i j, i < rows m -> j < cols m -> at_ m i j = Ok (entry d vv i j).
Proof.
  intros Hne. unfold from_vectors. destruct vv as [|v0 vv0]; [congruence|]. set (vv := v0 :: vv0) in *. set (c := list_max _). destruct (wf_new (length vv) c d) as (W & R & C).
  destruct (from_rows_ok d quiet true c vv _ 0 W C R) as (m & E & Wm & Rm & Cm & N); [intros v Hv; apply list_max_ge, in_map, Hv|left; apply orb_true_r|]. exists m. split; [exact E|]. split; [congruence|]. split; [exact Cm|]. intros i j Hi Hj. rewrite (ent_at d) by assumption. f_equal. rewrite N by lia. rewrite Nat.sub_0_r. cbn [Nat.leb andb]. unfold entry.
  destruct (Nat.ltb_spec j (length (nth i vv []))) as [|Hge]; [reflexivity|]. rewrite nth_overflow with (n := j) by exact Hge. pose proof (new_at d (length vv) c d i j ltac:(lia) ltac:(lia)) as En. rewrite (ent_at d) in En by (assumption || lia). now injection En.
Qed.
(** Appending puts one matrix below the other ... *)
Theorem C43_append m t moved : made d m -> made d t -> cols m <= cols t -> exists m', append d moved m t = Ok m' /\ rows m' = rows m + rows t /\ cols m' = cols t /\
  (forall i j, i < rows m -> j < cols m -> at_ m' i j = at_ m i j) /\ (forall i j, i < rows t -> j < cols t -> at_ m' (rows m + i) j = at_ t i j).
Proof.
  intros H1 H2 Hc. apply made_wf in H1, H2. unfold append. replace (Nat.max (cols m) (cols t)) with (cols t) by lia. destruct (resize_ok d moved m (rows m + rows t) (cols t) H1) as (a & E & Wa & Ra & Ca & N & _). rewrite E. cbn [obind].
  destruct (append_loop_ok d t H2 (rows t) a (rows m) 0 Wa Ca ltac:(lia) Ra) as (m' & E' & W' & R' & C' & N'). exists m'. split; [exact E'|]. split; [lia|]. split; [lia|]. split; intros i j Hi Hj; rewrite !(ent_at d) by (assumption || lia); f_equal; rewrite N' by lia.
  - destruct (Nat.leb_spec (rows m + 0) i); [lia|]. apply N; lia.
  - destruct (Nat.leb_spec (rows m + 0) (rows m + i)); [|lia]. f_equal. lia.
Qed.
(** ... but a narrower matrix below a wider one is refused. *)
Theorem C43_append_narrow_refuted m t moved : made d m -> made d t -> cols t < cols m -> 0 < rows t -> append d moved m t = Throw.
Proof.
  intros H1 H2 Hc Hr. apply made_wf in H1, H2. unfold append. replace (Nat.max (cols m) (cols t)) with (cols m) by lia. destruct (resize_ok d moved m (rows m + rows t) (cols m) H1) as (a & E & Wa & Ra & Ca & N & _). rewrite E. cbn [obind]. destruct (rows t) as [|n] eqn:Er; [lia|]. cbn [append_loop].
  destruct (row_ok d t 0 H2 ltac:(lia)) as (xs & Ex & Lx & _). rewrite Ex. cbn [obind]. unfold set_row. rewrite hook_ok by (assumption || lia). cbn [obind]. destruct (Nat.eqb_spec (length xs) (cols a)); [lia|reflexivity].
Qed.
(** Apply acts on every element. *)
Theorem C43_apply op m : made d m -> 0 < rows m -> exists m', apply d op m = Ok m' /\ rows m' = rows m /\ cols m' = cols m /\ forall i j, i < rows m -> j < cols m -> exists x, at_ m i j = Ok x /\ at_ m' i j = Ok (op x).
Proof.
  intros H Hr. apply made_wf in H. destruct (apply_ok d op m H Hr) as (m' & E & W & R & C & N). exists m'. repeat (split; [assumption|]). intros i j Hi Hj. exists (ent d m i j). split; [now apply ent_at|]. rewrite (ent_at d) by (assumption || lia). f_equal. now apply N.
Qed.
(** A matrix of rows without columns cannot be transposed, one without rows has no columns to read, and Apply needs a row:
    the code then reads before its storage. *)
Theorem C43_empty_refuted r c v : (0 < r -> make_transpose d (new_mat r 0 v) = UB) /\ col (new_mat 0 c v) 0 = UB /\ forall op, apply d op (new_mat 0 c v) = UB.
Proof.
  split; [|split; [|intros op]].
  - intros Hr. unfold make_transpose. destruct (wf_new r 0 v) as (W & -> & ->). destruct r; [lia|]. cbn [transpose_loop]. destruct (row_ok d (new_mat (S r) 0 v) 0 W ltac:(destruct (wf_new (S r) 0 v) as (_ & -> & _); lia)) as (xs & -> & _). cbn [obind]. unfold set_col. rewrite hook_ub; [reflexivity|]. destruct (wf_new 0 (S r) d) as (_ & -> & _). lia.
  - unfold col. rewrite hook_ub; [reflexivity|]. destruct (wf_new 0 c v) as (_ & -> & _). lia.
  - unfold apply. rewrite hook_ub; [reflexivity|]. destruct (wf_new 0 c v) as (_ & -> & _). lia.
Qed.
End Props.
Example C43_resize_ex : made 0 (new_mat 2 3 7) /\ exists m, resize 0 true (new_mat 2 3 7) 4 5 = Ok m.
Proof. split; [constructor|eexists; reflexivity]. Qed.
Example C43_resize_new_ex : exists m, resize 0 false (new_mat 2 3 7) 4 3 = Ok m /\ at_ m 3 2 = Ok 0. Proof. eexists. split; reflexivity. Qed.
Example C43_write_ex : 1 < rows (new_mat 2 3 7) /\ 2 < cols (new_mat 2 3 7). Proof. cbv; lia. Qed.
Example C43_transpose_ex : exists m, from_vectors 0 [[1; 2; 3]; [4; 5; 6]] false true false = Ok m /\ made 0 m /\ 0 < rows m /\ 0 < cols m.
Proof. eexists. split; [reflexivity|]. split; [|cbv; lia]. apply (made_from 0 [[1; 2; 3]; [4; 5; 6]] false); [|reflexivity]. intros v w [<-|[<-|[]]] [<-|[<-|[]]]; reflexivity. Qed.
Example C43_vectors_ex : rectangular [[1; 2; 3]; [4; 5; 6]] 3. Proof. intros v [<-|[<-|[]]]; reflexivity. Qed.
Example C43_matrix_round_trip_ex : 0 < rows (new_mat 2 3 7) /\ 0 < cols (new_mat 2 3 7). Proof. cbv; lia. Qed.
Example C43_ragged_ex : exists m, from_vectors 0 [[1]; [2; 3]] false true true = Ok m /\ at_ m 0 1 = Ok 0. Proof. eexists. split; reflexivity. Qed.
Example C43_append_ex : cols (new_mat 2 3 7) <= cols (new_mat 1 4 8). Proof. cbv; lia. Qed.
Example C43_append_narrow_ex : cols (new_mat 2 3 7) < cols (new_mat 1 4 8) /\ 0 < rows (new_mat 2 3 7). Proof. cbv; lia. Qed.
Example C43_apply_ex : exists m, apply 0 S (new_mat 2 3 7) = Ok m /\ at_ m 1 2 = Ok 8. Proof. eexists. split; reflexivity. Qed.
(** With the width unchanged the first new row shows what was in the hidden padding row: the fill value of the
    constructor, or a row cut off earlier. *)
Theorem C43_new_row_refuted : (exists m, resize 0 false (new_mat 2 2 7) 3 2 = Ok m /\ at_ m 2 0 = Ok 7) /\
  (exists m m1 m2, from_vectors 0 [[1; 2]; [3; 4]] false true false = Ok m /\ resize 0 false m 1 2 = Ok m1 /\ resize 0 false m1 2 2 = Ok m2 /\ at_ m2 1 1 = Ok 4).
Proof. split; [eexists; split; reflexivity|]. do 3 eexists. repeat split; reflexivity. Qed.
(** By default rows of different lengths are not refused: a row too long is written over what follows it, and from the last
    row beyond the storage. *)
Theorem C43_long_row_refuted : from_vectors 0 [[1]; [2; 3; 4]] false true false = UB /\ exists m, from_vectors 0 [[1; 2]; [3; 4; 5]] false true false = Ok m /\ cols m = 2 /\ from_vectors 0 [[1; 2]; [3; 4; 5]] false false false = Throw.
Proof. split; [reflexivity|]. eexists. split; [reflexivity|]. split; reflexivity. Qed.
Print Assumptions C43_resize.
Print Assumptions C43_resize_new.
Print Assumptions C43_write.
Print Assumptions C43_transpose.
Print Assumptions C43_vectors_round_trip.
Print Assumptions C43_matrix_round_trip.
Print Assumptions C43_ragged.
Print Assumptions C43_append.
Print Assumptions C43_append_narrow_refuted.
Print Assumptions C43_apply.
Print Assumptions C43_empty_refuted.
Print Assumptions C43_new_row_refuted.
Print Assumptions C43_long_row_refuted.
