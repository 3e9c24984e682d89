(** Products of dense matrices: proofs. *)
From Coq Require Import Reals List Arith Lia Lra Bool.
From Verif Require Import Base Vec LinNum LinModel BandSpec BandProofs LinSpec.
Import ListNotations.
Local Open Scope R_scope.
Local Existing Instance RealLin.

Lemma inner_sum (xs ys : list R) n init : length xs = n -> (n <= length ys)%nat -> inner init xs ys = init + sum n (fun k => nth k xs 0 * nth k ys 0).
Proof.
  intros Hx Hy. revert xs ys init Hx Hy. induction n as [|n IH] using nat_ind.
  - intros [|x xs] ys init; cbn; intros H1 H2; [lra|discriminate].
  - assert (Hs : forall m f, sum (S m) f = f O + sum m (fun k => f (S k))).
    { intros m f. induction m as [|m IHm]; cbn; [lra|]. cbn in IHm. rewrite IHm. lra. }
    intros [|x xs] [|y ys] init; cbn [length]; intros H1 H2; try discriminate; try lia.
    cbn [inner]. rewrite Hs. cbn [nth]. rewrite (IH xs ys) by (cbn in *; lia). cbn [nadd nmul RealLin]. lra.
Qed.
Lemma zero_R : @zero RealLin = 0.
Proof. reflexivity. Qed.
Lemma sum_head m f : sum (S m) f = f O + sum m (fun k => f (S k)).
Proof. induction m as [|m IHm]; cbn; [lra|]. cbn in IHm. rewrite IHm. lra. Qed.
Lemma increment_ok (c : R) dst src : (length dst <= length src)%nat ->
  exists r, increment c dst src = Ok r /\ length r = length dst /\ forall k, (k < length dst)%nat -> nth k r 0 = nth k dst 0 + c * nth k src 0.
Proof.
  revert src. induction dst as [|d dst IH]; intros [|s src] H; cbn [length] in H; try lia.
  - exists []. cbn. repeat split; intros; lia.
  - exists []. cbn. repeat split; intros; lia.
  - destruct (IH src) as (r & E & Hl & Hk); [lia|]. cbn [increment]. rewrite E. eexists. split; [reflexivity|].
    cbn [length]. split; [lia|]. intros [|k] Hk'; [reflexivity|]. cbn [nth]. apply Hk. lia.
Qed.
Lemma shaped_row m i : shaped m -> (i < nrows m)%nat -> length (nth i (mrows m) []) = mcols m.
Proof. intros H Hi. unfold shaped in H. rewrite Forall_nth in H. apply H. exact Hi. Qed.
Lemma mat_row_ok m i : (i < nrows m)%nat -> mat_row m i = Ok (nth i (mrows m) []).
Proof. intros H. apply get_ok. exact H. Qed.
Lemma mat_get_ok m i j : shaped m -> (i < nrows m)%nat -> (j < mcols m)%nat -> mat_get m i j = Ok (entry m i j).
Proof.
  intros Hs Hi Hj. unfold mat_get. change (get (mrows m) i) with (mat_row m i). rewrite mat_row_ok by exact Hi. cbn [obind].
  rewrite (@get_ok (@num RealLin) _ j (0%R)); [reflexivity|]. rewrite shaped_row; assumption.
Qed.
Lemma Forall_set {A} (P : A -> Prop) l i a : Forall P l -> P a -> Forall P (set_nth l i a).
Proof. intros H Ha. revert i. induction H as [|x l Hx H IH]; intros [|i]; cbn; try constructor; auto. Qed.
Lemma update_same {A} (st : store A) p a : update st p a p = a.
Proof. unfold update. now rewrite Nat.eqb_refl. Qed.
Lemma update_other {A} (st : store A) p a q : q <> p -> update st p a q = st q.
Proof. intros H. unfold update. apply Nat.eqb_neq in H. now rewrite H. Qed.
Lemma read_update {A} (st : store A) o p a : is_place o p = false -> read (update st p a) o = read st o.
Proof. destruct o as [q|b]; cbn; [|reflexivity]. intros H. unfold update. now rewrite H. Qed.

(** one row of a product *)
Lemma mm_inner_ok left right res ir (lm rm : matrix) n : forall jr st,
  is_place left res = false -> is_place right res = false -> read st left = lm -> read st right = rm ->
  shaped lm -> shaped rm -> shaped (st res) -> mcols (st res) = mcols rm -> (ir < nrows lm)%nat -> (ir < nrows (st res))%nat ->
  (jr + n <= mcols lm)%nat -> (jr + n <= nrows rm)%nat ->
  exists st', mm_inner left right res ir jr n st = Ok st' /\ (forall p, p <> res -> st' p = st p) /\ shaped (st' res) /\
    nrows (st' res) = nrows (st res) /\ mcols (st' res) = mcols (st res) /\
    (forall i j, (i < nrows (st res))%nat -> (j < mcols rm)%nat ->
       entry (st' res) i j = entry (st res) i j + if (i =? ir)%nat then sum n (fun k => entry lm ir (jr + k) * entry rm (jr + k) j) else 0).
Proof.
  induction n as [|n IH]; intros jr st Hl Hr El Er Sl Sr Ss Hc Hil His H1 H2.
  - exists st. cbn [mm_inner sum]. split; [reflexivity|]. split; [auto|]. split; [exact Ss|]. split; [reflexivity|]. split; [reflexivity|].
    intros i j _ _. destruct (i =? ir)%nat; lra.
  - cbn [mm_inner]. rewrite El, Er.
    assert (Hjl : (jr < mcols lm)%nat) by lia. assert (Hjr : (jr < nrows rm)%nat) by lia.
    rewrite (mat_get_ok lm ir jr Sl Hil Hjl). cbn [obind].
    rewrite (mat_row_ok rm jr Hjr). cbn [obind].
    rewrite (mat_row_ok (st res) ir His). cbn [obind].
    destruct (increment_ok (entry lm ir jr) (nth ir (mrows (st res)) []) (nth jr (mrows rm) [])) as (d & Ed & Ld & Kd).
    { rewrite (shaped_row _ _ Ss His), (shaped_row _ _ Sr Hjr), Hc. lia. }
    rewrite (shaped_row _ _ Ss His) in Ld, Kd. rewrite Ed. cbn [obind].
    set (m' := Matrix (mcols (st res)) (set_nth (mrows (st res)) ir d)).
    assert (Hn' : nrows m' = nrows (st res)) by (unfold nrows, m'; cbn [mrows]; apply set_nth_length).
    assert (Sm' : shaped m') by (unfold shaped, m'; cbn [mrows mcols]; apply Forall_set; [exact Ss|exact Ld]).
    destruct (IH (S jr) (update st res m')) as (st' & E & Ho & S' & N' & C' & V); rewrite ?(read_update st _ res m') by assumption;
      rewrite ?update_same; try assumption; try lia.
    exists st'. split; [exact E|]. split; [intros p Hp; rewrite Ho by exact Hp; apply update_other; exact Hp|].
    rewrite update_same in N', C', V. rewrite Hn' in V.
    split; [exact S'|]. split; [lia|]. split; [rewrite C'; reflexivity|].
    intros i j Hi Hj. rewrite V by assumption.
    unfold entry at 1. unfold m'. cbn [mrows].
    rewrite nth_set_nth by exact His. destruct (i =? ir)%nat eqn:Ei.
    + apply Nat.eqb_eq in Ei. subst i. rewrite Kd by (rewrite Hc; exact Hj). rewrite sum_head.
      rewrite Nat.add_0_r. unfold entry. rewrite (sum_ext n _ (fun k => nth (jr + S k) (nth ir (mrows lm) []) 0 * nth j (nth (jr + S k) (mrows rm) []) 0)); [cbn [num RealLin]; lra|].
      intros k _. rewrite Nat.add_succ_r. reflexivity.
    + unfold entry. reflexivity.
Qed.

Lemma mm_outer_ok left right res (lm rm : matrix) n : forall ir st,
  is_place left res = false -> is_place right res = false -> read st left = lm -> read st right = rm ->
  shaped lm -> shaped rm -> mcols lm = nrows rm -> shaped (st res) -> mcols (st res) = mcols rm -> nrows (st res) = nrows lm ->
  (ir + n = nrows lm)%nat ->
  exists st', mm_outer left right res ir n st = Ok st' /\ (forall p, p <> res -> st' p = st p) /\ shaped (st' res) /\
    nrows (st' res) = nrows lm /\ mcols (st' res) = mcols rm /\
    (forall i j, (i < nrows lm)%nat -> (j < mcols rm)%nat ->
       entry (st' res) i j = entry (st res) i j + if (ir <=? i)%nat then sum (nrows rm) (fun k => entry lm i k * entry rm k j) else 0).
Proof.
  induction n as [|n IH]; intros ir st Hl Hr El Er Sl Sr Hk Ss Hc Hn Hi.
  - exists st. cbn [mm_outer]. repeat (split; [auto|]). intros i j H _. replace (ir <=? i)%nat with false; [lra|].
    symmetry. apply Nat.leb_gt. lia.
  - cbn [mm_outer]. rewrite Er.
    destruct (mm_inner_ok left right res ir lm rm (nrows rm) 0 st) as (st1 & E1 & O1 & S1 & N1 & C1 & V1); try assumption; try lia.
    rewrite E1. cbn [obind].
    assert (Rd : forall o : operand matrix, is_place o res = false -> read st1 o = read st o).
    { intros [p|a]; cbn; [|reflexivity]. intros H. apply O1. apply Nat.eqb_neq in H. exact H. }
    destruct (IH (S ir) st1) as (st' & E & Ho & S' & N' & C' & V); rewrite ?Rd by assumption; try assumption; try lia; try congruence.
    exists st'. split; [exact E|]. split; [intros p Hp; rewrite Ho by exact Hp; apply O1; exact Hp|].
    split; [exact S'|]. split; [exact N'|]. split; [exact C'|].
    intros i j Hi' Hj. rewrite V, V1 by (try assumption; lia).
    destruct (i =? ir)%nat eqn:Ei.
    + apply Nat.eqb_eq in Ei. subst i. replace (S ir <=? ir)%nat with false by (symmetry; apply Nat.leb_gt; lia).
      rewrite Nat.leb_refl. cbn [Nat.add]. lra.
    + apply Nat.eqb_neq in Ei. destruct (ir <=? i)%nat eqn:E2.
      * apply Nat.leb_le in E2. replace (S ir <=? i)%nat with true by (symmetry; apply Nat.leb_le; lia). lra.
      * apply Nat.leb_gt in E2. replace (S ir <=? i)%nat with false by (symmetry; apply Nat.leb_gt; lia). lra.
Qed.
Lemma nth_repeat_any {A} (a d : A) n i : (i < n)%nat -> nth i (repeat a n) d = a.
Proof. revert i. induction n as [|n IH]; intros [|i] H; cbn; try lia; auto. apply IH. lia. Qed.
Lemma zeros_ok r c : is_matrix (zeros r c) r c (fun _ _ => 0).
Proof.
  unfold is_matrix, zeros, shaped, nrows, entry. cbn [mrows mcols].
  split. { apply Forall_forall. intros x Hx. apply repeat_spec in Hx. subst x. apply repeat_length. }
  split; [apply repeat_length|]. split; [reflexivity|].
  intros i j Hi Hj. rewrite nth_repeat_any by exact Hi. rewrite nth_repeat_any by exact Hj. reflexivity.
Qed.
Lemma mm_alias_free_ok left right res st (lm rm : matrix) : is_place left res = false -> is_place right res = false -> read st left = lm -> read st right = rm ->
  shaped lm -> shaped rm -> mcols lm = nrows rm ->
  exists st', mm_alias_free left right res st = Ok st' /\ (forall p, p <> res -> st' p = st p) /\
    is_matrix (st' res) (nrows lm) (mcols rm) (fun i j => sum (mcols lm) (fun k => entry lm i k * entry rm k j)).
Proof.
  intros Hl Hr El Er Sl Sr Hk. unfold mm_alias_free. rewrite Hr, El, Er.
  set (z := zeros (nrows lm) (mcols rm)). destruct (zeros_ok (nrows lm) (mcols rm)) as (Sz & Nz & Cz & Vz). fold z in Sz, Nz, Cz, Vz.
  rewrite (read_update st left res z Hl), El.
  destruct (mm_outer_ok left right res lm rm (nrows lm) 0 (update st res z)) as (st' & E & Ho & S' & N' & C' & V);
    rewrite ?(read_update st _ res z) by assumption; rewrite ?update_same; try assumption; try reflexivity.
  exists st'. split; [exact E|]. split; [intros p Hp; rewrite Ho by exact Hp; apply update_other; exact Hp|].
  split; [exact S'|]. split; [exact N'|]. split; [exact C'|].
  intros i j Hi Hj. rewrite V by assumption. rewrite update_same, Vz by assumption. cbn [Nat.leb]. rewrite Hk. lra.
Qed.
Lemma multiply_mm_ok l r d st : shaped (st l) -> shaped (st r) -> mcols (st l) = nrows (st r) ->
  exists st', multiply_mm l r d st = Ok st' /\ (forall p, p <> d -> st' p = st p) /\
    is_matrix (st' d) (nrows (st l)) (mcols (st r)) (fun i j => sum (mcols (st l)) (fun k => entry (st l) i k * entry (st r) k j)).
Proof.
  intros Sl Sr Hk. unfold multiply_mm. rewrite Hk, Nat.eqb_refl. cbn [negb].
  destruct (d =? l)%nat eqn:E1; destruct (d =? r)%nat eqn:E2; rewrite <- ?Hk;
    apply mm_alias_free_ok; try assumption; try reflexivity; cbn [is_place]; rewrite Nat.eqb_sym; assumption.
Qed.

(** matrix by vector *)
Lemma resized_length (v : list R) n : length (resized v n) = n.
Proof. unfold resized. rewrite app_length, firstn_length, repeat_length. lia. Qed.
Lemma mv_loop_ok left right res (rv : list (@num RealLin)) n : forall ir st,
  is_place right res = false -> read st right = rv -> shaped left -> mcols left = length rv -> length (st res) = nrows left -> (ir + n = nrows left)%nat ->
  exists st', mv_loop left right res ir n st = Ok st' /\ (forall p, p <> res -> st' p = st p) /\ length (st' res) = nrows left /\
    forall i, (i < nrows left)%nat -> nth i (st' res) 0 = if (ir <=? i)%nat then sum (mcols left) (fun k => entry left i k * nth k rv 0) else nth i (st res) 0.
Proof.
  induction n as [|n IH]; intros ir st Hr Er Sl Hc Hn Hi.
  - exists st. cbn [mv_loop]. repeat (split; [auto|]). intros i H. replace (ir <=? i)%nat with false; [reflexivity|]. symmetry. apply Nat.leb_gt. lia.
  - cbn [mv_loop]. assert (Hir : (ir < nrows left)%nat) by lia. rewrite (mat_row_ok left ir Hir). cbn [obind]. rewrite Er.
    rewrite put_ok by (rewrite Hn; exact Hir). cbn [obind].
    set (v := inner zero (nth ir (mrows left) []) rv).
    assert (Hv : v = sum (mcols left) (fun k => entry left ir k * nth k rv 0)).
    { unfold v. rewrite (inner_sum _ _ (mcols left)); [rewrite zero_R; unfold entry; cbn [num RealLin]; lra|apply shaped_row; assumption|exact (Nat.eq_le_incl _ _ Hc)]. }
    destruct (IH (S ir) (update st res (set_nth (st res) ir v))) as (st' & E & Ho & L' & V); rewrite ?(read_update st) by assumption;
      rewrite ?update_same, ?set_nth_length; try assumption; try lia.
    exists st'. split; [exact E|]. split; [intros p Hp; rewrite Ho by exact Hp; apply update_other; exact Hp|]. split; [exact L'|].
    intros i H. rewrite V by exact H. rewrite update_same.
    destruct (Nat.eq_dec i ir) as [->|Ne].
    + rewrite Nat.leb_refl. replace (S ir <=? ir)%nat with false by (symmetry; apply Nat.leb_gt; lia).
      rewrite nth_set_same by (rewrite Hn; exact Hir). exact Hv.
    + rewrite nth_set_other by (try exact Ne; rewrite Hn; exact Hir).
      destruct (ir <=? i)%nat eqn:E2; [apply Nat.leb_le in E2; replace (S ir <=? i)%nat with true by (symmetry; apply Nat.leb_le; lia); reflexivity|].
      apply Nat.leb_gt in E2. replace (S ir <=? i)%nat with false by (symmetry; apply Nat.leb_gt; lia). reflexivity.
Qed.
Lemma mv_alias_free_ok left right res st (rv : list (@num RealLin)) : is_place right res = false -> read st right = rv -> shaped left -> mcols left = length rv ->
  exists st', mv_alias_free left right res st = Ok st' /\ (forall p, p <> res -> st' p = st p) /\
    is_vector (st' res) (nrows left) (fun i => sum (mcols left) (fun k => entry left i k * nth k rv 0)).
Proof.
  intros Hr Er Sl Hc. unfold mv_alias_free. rewrite Hr.
  destruct (mv_loop_ok left right res rv (nrows left) 0 (update st res (resized (st res) (nrows left)))) as (st' & E & Ho & L' & V);
    rewrite ?(read_update st) by assumption; rewrite ?update_same; try assumption; try reflexivity; [apply resized_length|].
  exists st'. split; [exact E|]. split; [intros p Hp; rewrite Ho by exact Hp; apply update_other; exact Hp|].
  split; [exact L'|]. intros i Hi. rewrite V by exact Hi. reflexivity.
Qed.
Lemma multiply_mv_ok left r d st : shaped left -> mcols left = length (st r) ->
  exists st', multiply_mv left r d st = Ok st' /\ (forall p, p <> d -> st' p = st p) /\
    is_vector (st' d) (nrows left) (fun i => sum (mcols left) (fun k => entry left i k * nth k (st r) 0)).
Proof.
  intros Sl Hc. unfold multiply_mv. rewrite Hc, Nat.eqb_refl. cbn [negb]. rewrite <- Hc.
  destruct (d =? r)%nat eqn:E1; apply mv_alias_free_ok; try assumption; try reflexivity. cbn [is_place]. rewrite Nat.eqb_sym. assumption.
Qed.

(** vector by matrix *)
Lemma vm_loop_ok left right res (lv : list (@num RealLin)) n : forall ir st,
  is_place left res = false -> read st left = lv -> shaped right -> nrows right = length lv -> length (st res) = mcols right -> (ir + n = nrows right)%nat ->
  exists st', vm_loop left right res ir n st = Ok st' /\ (forall p, p <> res -> st' p = st p) /\ length (st' res) = mcols right /\
    forall j, (j < mcols right)%nat -> nth j (st' res) 0 = nth j (st res) 0 + sum n (fun k => nth (ir + k) lv 0 * entry right (ir + k) j).
Proof.
  induction n as [|n IH]; intros ir st Hl El Sr Hc Hn Hi.
  - exists st. cbn [vm_loop sum]. repeat (split; [auto|]). intros j _. lra.
  - cbn [vm_loop]. assert (Hir : (ir < nrows right)%nat) by lia. rewrite El. rewrite (get_ok lv ir 0) by lia. cbn [obind].
    rewrite (mat_row_ok right ir Hir). cbn [obind].
    destruct (increment_ok (nth ir lv 0) (st res) (nth ir (mrows right) [])) as (v & E1 & L1 & V1).
    { rewrite (shaped_row right ir Sr Hir), Hn. lia. }
    rewrite E1. cbn [obind]. rewrite Hn in L1, V1.
    destruct (IH (S ir) (update st res v)) as (st' & E & Ho & L' & V); rewrite ?(read_update st) by assumption; rewrite ?update_same; try assumption; try lia.
    exists st'. split; [exact E|]. split; [intros p Hp; rewrite Ho by exact Hp; apply update_other; exact Hp|]. split; [exact L'|].
    intros j Hj. rewrite V by exact Hj. rewrite update_same, V1 by exact Hj. rewrite sum_head, Nat.add_0_r.
    rewrite (sum_ext n _ (fun k => nth (ir + S k) lv 0 * entry right (ir + S k) j)); [unfold entry; cbn [num RealLin]; lra|].
    intros k _. rewrite Nat.add_succ_r. reflexivity.
Qed.
Lemma vm_alias_free_ok left right res st (lv : list (@num RealLin)) : is_place left res = false -> read st left = lv -> shaped right -> length lv = nrows right ->
  exists st', vm_alias_free left right res st = Ok st' /\ (forall p, p <> res -> st' p = st p) /\
    is_vector (st' res) (mcols right) (fun j => sum (nrows right) (fun k => nth k lv 0 * entry right k j)).
Proof.
  intros Hl El Sr Hc. unfold vm_alias_free. rewrite Hl, (read_update st left res _ Hl), El, Hc, Nat.eqb_refl. cbn [negb].
  destruct (vm_loop_ok left right res lv (nrows right) 0 (update st res (repeat zero (mcols right)))) as (st' & E & Ho & L' & V);
    rewrite ?(read_update st) by assumption; rewrite ?update_same; try assumption; try reflexivity; [symmetry; exact Hc|apply repeat_length|].
  exists st'. split; [exact E|]. split; [intros p Hp; rewrite Ho by exact Hp; apply update_other; exact Hp|].
  split; [exact L'|]. intros j Hj. rewrite V by exact Hj. rewrite update_same, nth_repeat_any by exact Hj. cbn [Nat.add]. rewrite zero_R. lra.
Qed.
Lemma multiply_vm_ok l right d st : shaped right -> length (st l) = nrows right ->
  exists st', multiply_vm l right d st = Ok st' /\ (forall p, p <> d -> st' p = st p) /\
    is_vector (st' d) (mcols right) (fun j => sum (nrows right) (fun k => nth k (st l) 0 * entry right k j)).
Proof.
  intros Sr Hc. unfold multiply_vm. rewrite Hc, Nat.eqb_refl. cbn [negb].
  destruct (d =? l)%nat eqn:E1; apply vm_alias_free_ok; try assumption; try reflexivity. cbn [is_place]. rewrite Nat.eqb_sym. assumption.
Qed.

(** bilinear form *)
Lemma weighted_loop_ok (l : list (@num RealLin)) w (r : list (@num RealLin)) n : forall ir acc, shaped w -> length l = nrows w -> length r = mcols w -> (ir + n = nrows w)%nat ->
  weighted_loop l w r ir n acc = Ok (acc + sum n (fun i => nth (ir + i) l 0 * sum (mcols w) (fun j => entry w (ir + i) j * nth j r 0))).
Proof.
  induction n as [|n IH]; intros ir acc Sw Hl Hr Hi.
  - cbn. f_equal. lra.
  - cbn [weighted_loop]. rewrite (get_ok l ir 0) by lia. cbn [obind]. rewrite (mat_row_ok w ir) by lia. cbn [obind].
    rewrite IH by (try assumption; lia). f_equal. rewrite sum_head, Nat.add_0_r.
    rewrite (inner_sum _ _ (mcols w)); [|apply shaped_row; [assumption|lia]|exact (Nat.eq_le_incl _ _ (eq_sym Hr))].
    rewrite (sum_ext n _ (fun i => nth (ir + S i) l 0 * sum (mcols w) (fun j => entry w (ir + S i) j * nth j r 0))) by (intros k _; rewrite Nat.add_succ_r; reflexivity).
    rewrite zero_R. unfold entry. cbn [nadd nmul RealLin num]. lra.
Qed.
