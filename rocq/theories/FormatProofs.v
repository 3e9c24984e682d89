(** Proofs about laying tables out: writing. *)
From Coq Require Import List Arith ZArith Bool Lia.
From Verif Require Import Base Vec StringModel MatrixModel MatrixSpec MatrixProofs FormatModel FormatSpec.
Import ListNotations.
Open Scope nat_scope.

Lemma writer_induction (P : writer -> Prop) :
  (forall b, P b -> P (WTransposed b)) -> (forall b, P b -> P (WInverted b)) -> (forall b, P b -> P (WLinear b)) ->
  (forall j es, Forall P es -> P (WHorizontal j es)) -> (forall j es, Forall P es -> P (WVertical j es)) -> P WEmpty -> (forall k, P (WArg k)) -> forall w, P w.
Proof.
  intros HT HI HL HH HV HE HA. fix IH 1. intros [b|b|b|j es|j es| |k]; [apply HT, IH|apply HI, IH|apply HL, IH|apply HH|apply HV|exact HE|apply HA];
    (induction es as [|e es IHes]; constructor; [apply IH|exact IHes]).
Qed.
Lemma max_in (l : list nat) x : In x l -> x <= fold_right Nat.max 0 l.
Proof. induction l as [|y l IH]; cbn; [tauto|]. intros [->|H]; [lia|]. specialize (IH H). lia. Qed.

Section W.
Context {A : Type}.
Variable d : A.
Variable args : list (mat A).
Hypothesis args_wf : forall m, In m args -> wf m.
Implicit Types (m : mat A).
Notation lay := (layout d args).
Notation dim := (dims args).

Lemma dims_layout w : dim w = (trows (lay w), tcols (lay w)).
Proof.
  induction w as [b IH|b IH|b IH|j es IH|j es IH| |k] using writer_induction; cbn [dims layout].
  - rewrite IH. reflexivity.
  - rewrite IH. reflexivity.
  - rewrite IH. reflexivity.
  - cbn [horizontal trows tcols]. unfold highest. rewrite !map_map. f_equal; f_equal; apply map_ext_in; intros e He; rewrite Forall_forall in IH; now rewrite IH.
  - cbn [vertical trows tcols]. unfold widest. rewrite !map_map. f_equal; f_equal; apply map_ext_in; intros e He; rewrite Forall_forall in IH; now rewrite IH.
  - reflexivity.
  - destruct (nth_error args k); reflexivity.
Qed.

(** where a view puts an input coordinate *)
Definition vrow (v : view) (i j : nat) : Z := (row_off v + r2r v * Z.of_nat i + c2r v * Z.of_nat j)%Z.
Definition vcol (v : view) (i j : nat) : Z := (col_off v + r2c v * Z.of_nat i + c2c v * Z.of_nat j)%Z.
(** ... on a box, inside a matrix and without collisions *)
Definition fits (v : view) (R C : nat) (m : mat A) : Prop :=
  (forall i j, i < R -> j < C -> (0 <= vrow v i j < Z.of_nat (rows m))%Z /\ (0 <= vcol v i j < Z.of_nat (cols m))%Z) /\
  (forall i j k l, i < R -> j < C -> k < R -> l < C -> vrow v i j = vrow v k l -> vcol v i j = vcol v k l -> i = k /\ j = l).
Definition entZ (m : mat A) (r c : Z) : A := ent d m (Z.to_nat r) (Z.to_nat c).
Definition same_shape (m m' : mat A) : Prop := wf m' /\ rows m' = rows m /\ cols m' = cols m.
(** what writing a table through a view does *)
Definition written (v : view) (R C : nat) (f : nat -> nat -> option A) (m m' : mat A) : Prop :=
  same_shape m m' /\
  (forall i j, i < R -> j < C -> entZ m' (vrow v i j) (vcol v i j) = match f i j with Some x => x | None => entZ m (vrow v i j) (vcol v i j) end) /\
  (forall k l, k < rows m -> l < cols m -> (forall i j, i < R -> j < C -> vrow v i j <> Z.of_nat k \/ vcol v i j <> Z.of_nat l) -> ent d m' k l = ent d m k l).
Lemma written_outside v R C f m m' r c : written v R C f m m' -> (0 <= r < Z.of_nat (rows m))%Z -> (0 <= c < Z.of_nat (cols m))%Z ->
  (forall i j, i < R -> j < C -> vrow v i j <> r \/ vcol v i j <> c) -> entZ m' r c = entZ m r c.
Proof. clear args_wf. intros (_ & _ & O) Hr Hc H. unfold entZ. apply O; [lia|lia|]. rewrite !Z2Nat.id by lia. exact H. Qed.
Lemma fits_shape v R C m m' : rows m' = rows m -> cols m' = cols m -> fits v R C m -> fits v R C m'.
Proof. clear args_wf. unfold fits. now intros -> ->. Qed.

Lemma v_write_ok v m i j x : wf m -> (0 <= vrow v i j < Z.of_nat (rows m))%Z -> (0 <= vcol v i j < Z.of_nat (cols m))%Z ->
  exists m', v_write v m (Z.of_nat i) (Z.of_nat j) x = Ok m' /\ same_shape m m' /\
    forall r c, (0 <= r < Z.of_nat (rows m))%Z -> (0 <= c < Z.of_nat (cols m))%Z -> entZ m' r c = if ((r =? vrow v i j) && (c =? vcol v i j))%Z then x else entZ m r c.
Proof.
  clear args_wf. intros W Hr Hc. unfold v_write. fold (vrow v i j). fold (vcol v i j). cbv zeta.
  replace ((vrow v i j <? 0)%Z || (vcol v i j <? 0)%Z) with false by (symmetry; apply orb_false_intro; apply Z.ltb_ge; lia).
  destruct (put_at_ok d m (Z.to_nat (vrow v i j)) (Z.to_nat (vcol v i j)) x W) as (m' & E & W' & R & C & N); [lia|lia|].
  exists m'. split; [exact E|]. split; [repeat split; assumption || apply W'|]. intros r c Hr' Hc'. unfold entZ. rewrite N by lia.
  destruct (Z.eqb_spec r (vrow v i j)) as [->|], (Z.eqb_spec c (vcol v i j)) as [->|]; cbn [andb]; rewrite ?Nat.eqb_refl; cbn [andb]; [reflexivity| | |];
    repeat match goal with |- context [Nat.eqb ?a ?b] => destruct (Nat.eqb_spec a b); [lia|] end; rewrite ?andb_false_r; reflexivity.
Qed.

(** an argument *)
Lemma write_cells_ok v src ir n : wf src -> ir < rows src -> forall ic m, wf m -> ic + n = cols src -> fits v (rows src) (cols src) m ->
  exists m', write_cells v src ir ic n m = Ok m' /\ same_shape m m' /\
    (forall j, ic <= j < cols src -> entZ m' (vrow v ir j) (vcol v ir j) = ent d src ir j) /\
    (forall r c, (0 <= r < Z.of_nat (rows m))%Z -> (0 <= c < Z.of_nat (cols m))%Z -> (forall j, ic <= j < cols src -> vrow v ir j <> r \/ vcol v ir j <> c) -> entZ m' r c = entZ m r c).
Proof.
  clear args_wf. intros Ws Hir. induction n as [|n IH]; intros ic m W Hn [F1 F2].
  - exists m. split; [reflexivity|]. split; [now repeat split; apply W|]. split; intros; [lia|reflexivity].
  - cbn [write_cells]. rewrite (ent_at d src) by (assumption || lia). cbn [obind].
    destruct (F1 ir ic) as [Hr Hc]; [lia|lia|]. destruct (v_write_ok v m ir ic (ent d src ir ic) W Hr Hc) as (m1 & E1 & (W1 & R1 & C1) & N1). rewrite E1. cbn [obind].
    destruct (IH (S ic) m1 W1) as (m' & E' & (W' & R' & C') & N' & O'); [lia|apply (fits_shape _ _ _ m); [assumption|assumption|now split]|].
    exists m'. split; [exact E'|]. split; [split; [exact W'|]; split; congruence|]. split.
    + intros j Hj. destruct (Nat.eq_dec j ic) as [->|]; [|apply N'; lia]. rewrite O'; [|rewrite R1; exact Hr|rewrite C1; exact Hc|].
      * rewrite N1 by assumption. now rewrite !Z.eqb_refl.
      * intros j Hj'. destruct (Z.eq_dec (vrow v ir j) (vrow v ir ic)) as [Ea|]; [|now left]. right. intros Eb. destruct (F2 ir j ir ic); lia.
    + intros r c Hr' Hc' H. rewrite O'; [|rewrite R1; exact Hr'|rewrite C1; exact Hc'|intros j Hj; apply H; lia]. rewrite N1 by assumption.
      destruct (Z.eqb_spec r (vrow v ir ic)), (Z.eqb_spec c (vcol v ir ic)); cbn [andb]; try reflexivity. destruct (H ic ltac:(lia)); congruence.
Qed.
Lemma write_rows_ok v src n : wf src -> forall ir m, wf m -> ir + n = rows src -> fits v (rows src) (cols src) m ->
  exists m', write_rows v src ir n m = Ok m' /\ same_shape m m' /\
    (forall i j, ir <= i < rows src -> j < cols src -> entZ m' (vrow v i j) (vcol v i j) = ent d src i j) /\
    (forall r c, (0 <= r < Z.of_nat (rows m))%Z -> (0 <= c < Z.of_nat (cols m))%Z -> (forall i j, ir <= i < rows src -> j < cols src -> vrow v i j <> r \/ vcol v i j <> c) -> entZ m' r c = entZ m r c).
Proof.
  clear args_wf. intros Ws. induction n as [|n IH]; intros ir m W Hn F.
  - exists m. split; [reflexivity|]. split; [now repeat split; apply W|]. split; intros; [lia|reflexivity].
  - cbn [write_rows]. destruct (write_cells_ok v src ir (cols src) Ws ltac:(lia) 0 m W eq_refl F) as (m1 & E1 & (W1 & R1 & C1) & N1 & O1). rewrite E1. cbn [obind].
    destruct (IH (S ir) m1 W1) as (m' & E' & (W' & R' & C') & N' & O'); [lia|now apply (fits_shape _ _ _ m)|].
    exists m'. split; [exact E'|]. split; [split; [exact W'|]; split; congruence|]. destruct F as [F1 F2]. split.
    + intros i j Hi Hj. destruct (Nat.eq_dec i ir) as [->|]; [|apply N'; lia]. destruct (F1 ir j) as [Hr Hc]; [lia|lia|]. rewrite O'; [|rewrite R1; exact Hr|rewrite C1; exact Hc|].
      * apply N1. lia.
      * intros i' j' Hi' Hj'. destruct (Z.eq_dec (vrow v i' j') (vrow v ir j)) as [Ea|]; [|now left]. right. intros Eb. destruct (F2 i' j' ir j); lia.
    + intros r c Hr' Hc' H. rewrite O'; [|rewrite R1; exact Hr'|rewrite C1; exact Hc'|intros i j Hi Hj; apply H; lia]. apply O1; [assumption|assumption|]. intros j Hj. apply H; lia.
Qed.

(** one table inside a strip, then the rest of the strip *)
Definition inside (v : view) (P : nat -> nat -> Prop) (f : nat -> nat -> option A) (m m' : mat A) : Prop :=
  same_shape m m' /\
  (forall i j, P i j -> entZ m' (vrow v i j) (vcol v i j) = match f i j with Some x => x | None => entZ m (vrow v i j) (vcol v i j) end) /\
  (forall r c, (0 <= r < Z.of_nat (rows m))%Z -> (0 <= c < Z.of_nat (cols m))%Z -> (forall i j, P i j -> vrow v i j <> r \/ vcol v i j <> c) -> entZ m' r c = entZ m r c).

Definition goes_right (w : writer) : Prop := forall v m, wf m -> fits v (trows (lay w)) (tcols (lay w)) m ->
  exists m', write d args w v m = Ok m' /\ written v (trows (lay w)) (tcols (lay w)) (tcell (lay w)) m m'.

Lemma horizontal_ok (bottom : bool) H C v es : Forall goes_right es -> forall off temp m, wf m -> fits v H C m ->
  (forall i j, vrow temp i j = vrow v i (off + j)) -> (forall i j, vcol temp i j = vcol v i (off + j)) -> r2r temp = r2r v -> r2c temp = r2c v -> c2r temp = c2r v -> c2c temp = c2c v ->
  (forall e, In e es -> trows (lay e) <= H) -> off + fold_right Nat.add 0 (map tcols (map lay es)) <= C ->
  exists m', (fix go es temp m := match es with
       | [] => Ok m
       | e :: r => let sh := if bottom then ((if bottom then Z.of_nat H else 0) - Z.of_nat (fst (dim e)))%Z else 0%Z in
                   let temp1 := v_shift temp sh 0 in
                   do m' <- write d args e temp1 m; go r (v_shift temp1 (- sh) (Z.of_nat (snd (dim e)))) m'
       end) es temp m = Ok m' /\
    inside v (fun i j => i < H /\ off <= j < off + fold_right Nat.add 0 (map tcols (map lay es))) (fun i j => beside bottom H (map lay es) i (j - off)) m m'.
Proof.
  clear args_wf. intros Hes. induction Hes as [|e es He Hes IH]; intros off temp m W F Tr Tc T1 T2 T3 T4 Hh Hc.
  - exists m. split; [reflexivity|]. split; [now repeat split; apply W|]. split; [intros i j Hij; cbn in Hij; lia|reflexivity].
  - cbn [map fold_right] in Hc. remember (if bottom then H - trows (lay e) else 0) as top eqn:Et.
    set (sh := if bottom then _ else 0%Z). assert (sh = Z.of_nat top) as Esh by (unfold sh; rewrite dims_layout; cbn [fst]; specialize (Hh e (or_introl eq_refl)); destruct bottom; lia).
    assert (top + trows (lay e) <= H) as Htop by (specialize (Hh e (or_introl eq_refl)); destruct bottom; lia). cbv zeta. rewrite dims_layout. cbn [snd]. clearbody sh. subst sh.
    set (t1 := v_shift temp (Z.of_nat top) 0). assert (forall i j, vrow t1 i j = vrow v (top + i) (off + j)) as A1 by (intros; specialize (Tr (top + i) j); unfold vrow in *; cbn in *; lia).
    assert (forall i j, vcol t1 i j = vcol v (top + i) (off + j)) as A2 by (intros; specialize (Tc (top + i) j); unfold vcol in *; cbn in *; lia).
    pose proof F as [F1 F2].
    destruct (He t1 m W) as (m1 & E1 & (W1 & R1 & C1) & N1 & O1).
    { split; intros; rewrite ?A1, ?A2 in *; [apply F1; lia|]. destruct (F2 (top + i) (off + j) (top + k) (off + l)); lia. }
    rewrite E1. cbn [obind]. set (t2 := v_shift t1 _ _).
    destruct (IH (off + tcols (lay e)) t2 m1 W1) as (m' & E' & (W' & R' & C') & N' & O').
    { now apply (fits_shape _ _ _ m). }
    { intros; specialize (Tr i (tcols (lay e) + j)); unfold vrow in *; cbn in *; lia. }
    { intros; specialize (Tc i (tcols (lay e) + j)); unfold vcol in *; cbn in *; lia. }
    1-4: assumption.
    { intros e' He'. apply Hh. now right. }
    { lia. }
    exists m'. split; [exact E'|]. split; [split; [exact W'|]; split; congruence|].
    assert (forall i j, i < H -> off <= j < off + tcols (lay e) -> entZ m1 (vrow v i j) (vcol v i j) = match (if (top <=? i) && (i <? top + trows (lay e)) then tcell (lay e) (i - top) (j - off) else None) with Some x => x | None => entZ m (vrow v i j) (vcol v i j) end) as N1'.
    { intros i j Hi Hj. destruct (F1 i j) as [Hr Hcc]; [lia|lia|]. destruct (Nat.leb_spec top i) as [L1|L1], (Nat.ltb_spec i (top + trows (lay e))) as [L2|L2]; cbn [andb].
      - specialize (N1 (i - top) (j - off) ltac:(lia) ltac:(lia)). rewrite A1, A2 in N1. replace (top + (i - top)) with i in N1 by lia. replace (off + (j - off)) with j in N1 by lia. exact N1.
      - unfold entZ. apply O1; [lia|lia|]. rewrite !Z2Nat.id by lia. intros i' j' Hi' Hj'. rewrite A1, A2. destruct (Z.eq_dec (vrow v (top + i') (off + j')) (vrow v i j)) as [Ea|]; [|now left]. right. intros Eb. destruct (F2 (top + i') (off + j') i j); lia.
      - unfold entZ. apply O1; [lia|lia|]. rewrite !Z2Nat.id by lia. intros i' j' Hi' Hj'. rewrite A1, A2. destruct (Z.eq_dec (vrow v (top + i') (off + j')) (vrow v i j)) as [Ea|]; [|now left]. right. intros Eb. destruct (F2 (top + i') (off + j') i j); lia.
      - lia. }
    assert (forall r c, (0 <= r < Z.of_nat (rows m))%Z -> (0 <= c < Z.of_nat (cols m))%Z -> (forall i j, i < H -> off <= j < off + tcols (lay e) -> vrow v i j <> r \/ vcol v i j <> c) -> entZ m1 r c = entZ m r c) as O1'.
    { intros r c Hr Hcc Hn. unfold entZ. apply O1; [lia|lia|]. rewrite !Z2Nat.id by lia. intros i' j' Hi' Hj'. rewrite A1, A2. apply Hn; lia. }
    split.
    + intros i j [Hi Hj]. cbn [map fold_right] in Hj. destruct (F1 i j) as [Hr Hcc]; [lia|lia|]. cbn [map beside]. destruct (Nat.ltb_spec (j - off) (tcols (lay e))) as [L|L].
      * rewrite O'; [rewrite <- Et; apply N1'; lia|lia|lia|]. intros i' j' [Hi' Hj']. destruct (Z.eq_dec (vrow v i' j') (vrow v i j)) as [Ea|]; [|now left]. right. intros Eb. destruct (F2 i' j' i j); lia.
      * rewrite N' by lia. replace (j - off - tcols (lay e)) with (j - (off + tcols (lay e))) by lia. destruct (beside _ _ _ _ _); [reflexivity|]. apply O1'; [assumption|assumption|].
        intros i' j' Hi' Hj'. destruct (Z.eq_dec (vrow v i' j') (vrow v i j)) as [Ea|]; [|now left]. right. intros Eb. destruct (F2 i' j' i j); lia.
    + intros r c Hr Hcc Hn. cbn [map fold_right] in Hn. rewrite O'; [|lia|lia|intros i j [Hi Hj]; apply Hn; lia]. apply O1'; [assumption|assumption|]. intros i j Hi Hj. apply Hn. lia.
Qed.

Lemma vertical_ok (jr : bool) R W0 v es : Forall goes_right es -> forall off temp m, wf m -> fits v R W0 m ->
  (forall i j, vrow temp i j = vrow v (off + i) j) -> (forall i j, vcol temp i j = vcol v (off + i) j) -> r2r temp = r2r v -> r2c temp = r2c v -> c2r temp = c2r v -> c2c temp = c2c v ->
  (forall e, In e es -> tcols (lay e) <= W0) -> off + fold_right Nat.add 0 (map trows (map lay es)) <= R ->
  exists m', (fix go es temp m := match es with
       | [] => Ok m
       | e :: r => let sh := if jr then ((if jr then Z.of_nat W0 else 0) - Z.of_nat (snd (dim e)))%Z else 0%Z in
                   let temp1 := v_shift temp 0 sh in
                   do m' <- write d args e temp1 m; go r (v_shift temp1 (Z.of_nat (fst (dim e))) (- sh)) m'
       end) es temp m = Ok m' /\
    inside v (fun i j => j < W0 /\ off <= i < off + fold_right Nat.add 0 (map trows (map lay es))) (fun i j => below jr W0 (map lay es) (i - off) j) m m'.
Proof.
  clear args_wf. intros Hes. induction Hes as [|e es He Hes IH]; intros off temp m W F Tr Tc T1 T2 T3 T4 Hh Hc.
  - exists m. split; [reflexivity|]. split; [now repeat split; apply W|]. split; [intros i j Hij; cbn in Hij; lia|reflexivity].
  - cbn [map fold_right] in Hc. remember (if jr then W0 - tcols (lay e) else 0) as lft eqn:Et.
    set (sh := if jr then _ else 0%Z). assert (sh = Z.of_nat lft) as Esh by (unfold sh; rewrite dims_layout; cbn [snd]; specialize (Hh e (or_introl eq_refl)); destruct jr; lia).
    assert (lft + tcols (lay e) <= W0) as Hlft by (specialize (Hh e (or_introl eq_refl)); destruct jr; lia). cbv zeta. rewrite dims_layout. cbn [fst]. clearbody sh. subst sh.
    set (t1 := v_shift temp 0 (Z.of_nat lft)). assert (forall i j, vrow t1 i j = vrow v (off + i) (lft + j)) as A1 by (intros; specialize (Tr i (lft + j)); unfold vrow in *; cbn in *; lia).
    assert (forall i j, vcol t1 i j = vcol v (off + i) (lft + j)) as A2 by (intros; specialize (Tc i (lft + j)); unfold vcol in *; cbn in *; lia).
    pose proof F as [F1 F2].
    destruct (He t1 m W) as (m1 & E1 & (W1 & R1 & C1) & N1 & O1).
    { split; intros; rewrite ?A1, ?A2 in *; [apply F1; lia|]. destruct (F2 (off + i) (lft + j) (off + k) (lft + l)); lia. }
    rewrite E1. cbn [obind]. set (t2 := v_shift t1 _ _).
    destruct (IH (off + trows (lay e)) t2 m1 W1) as (m' & E' & (W' & R' & C') & N' & O').
    { now apply (fits_shape _ _ _ m). }
    { intros; specialize (Tr (trows (lay e) + i) j); unfold vrow in *; cbn in *; lia. }
    { intros; specialize (Tc (trows (lay e) + i) j); unfold vcol in *; cbn in *; lia. }
    1-4: assumption.
    { intros e' He'. apply Hh. now right. }
    { lia. }
    exists m'. split; [exact E'|]. split; [split; [exact W'|]; split; congruence|].
    assert (forall i j, j < W0 -> off <= i < off + trows (lay e) -> entZ m1 (vrow v i j) (vcol v i j) = match (if (lft <=? j) && (j <? lft + tcols (lay e)) then tcell (lay e) (i - off) (j - lft) else None) with Some x => x | None => entZ m (vrow v i j) (vcol v i j) end) as N1'.
    { intros i j Hj Hi. destruct (F1 i j) as [Hr Hcc]; [lia|lia|]. destruct (Nat.leb_spec lft j) as [L1|L1], (Nat.ltb_spec j (lft + tcols (lay e))) as [L2|L2]; cbn [andb].
      - specialize (N1 (i - off) (j - lft) ltac:(lia) ltac:(lia)). rewrite A1, A2 in N1. replace (lft + (j - lft)) with j in N1 by lia. replace (off + (i - off)) with i in N1 by lia. exact N1.
      - unfold entZ. apply O1; [lia|lia|]. rewrite !Z2Nat.id by lia. intros i' j' Hi' Hj'. rewrite A1, A2. destruct (Z.eq_dec (vrow v (off + i') (lft + j')) (vrow v i j)) as [Ea|]; [|now left]. right. intros Eb. destruct (F2 (off + i') (lft + j') i j); lia.
      - unfold entZ. apply O1; [lia|lia|]. rewrite !Z2Nat.id by lia. intros i' j' Hi' Hj'. rewrite A1, A2. destruct (Z.eq_dec (vrow v (off + i') (lft + j')) (vrow v i j)) as [Ea|]; [|now left]. right. intros Eb. destruct (F2 (off + i') (lft + j') i j); lia.
      - lia. }
    assert (forall r c, (0 <= r < Z.of_nat (rows m))%Z -> (0 <= c < Z.of_nat (cols m))%Z -> (forall i j, j < W0 -> off <= i < off + trows (lay e) -> vrow v i j <> r \/ vcol v i j <> c) -> entZ m1 r c = entZ m r c) as O1'.
    { intros r c Hr Hcc Hn. unfold entZ. apply O1; [lia|lia|]. rewrite !Z2Nat.id by lia. intros i' j' Hi' Hj'. rewrite A1, A2. apply Hn; lia. }
    split.
    + intros i j [Hj Hi]. cbn [map fold_right] in Hi. destruct (F1 i j) as [Hr Hcc]; [lia|lia|]. cbn [map below]. destruct (Nat.ltb_spec (i - off) (trows (lay e))) as [L|L].
      * rewrite O'; [rewrite <- Et; apply N1'; lia|lia|lia|]. intros i' j' [Hj' Hi']. destruct (Z.eq_dec (vrow v i' j') (vrow v i j)) as [Ea|]; [|now left]. right. intros Eb. destruct (F2 i' j' i j); lia.
      * rewrite N' by lia. replace (i - off - trows (lay e)) with (i - (off + trows (lay e))) by lia. destruct (below _ _ _ _ _); [reflexivity|]. apply O1'; [assumption|assumption|].
        intros i' j' Hj' Hi'. destruct (Z.eq_dec (vrow v i' j') (vrow v i j)) as [Ea|]; [|now left]. right. intros Eb. destruct (F2 i' j' i j); lia.
    + intros r c Hr Hcc Hn. cbn [map fold_right] in Hn. rewrite O'; [|lia|lia|intros i j [Hj Hi]; apply Hn; lia]. apply O1'; [assumption|assumption|]. intros i j Hj Hi. apply Hn. lia.
Qed.

Lemma write_ok w : goes_right w.
Proof.
  induction w as [b IH|b IH|b IH|jb es IH|jr es IH| |k] using writer_induction; intros v m W F; cbn [write layout] in *.
  - cbn [transposed trows tcols tcell] in *. destruct F as [F1 F2]. assert (forall i j, vrow (v_transpose v) i j = vrow v j i /\ vcol (v_transpose v) i j = vcol v j i) as A1 by (intros; unfold vrow, vcol; cbn; lia).
    destruct (IH (v_transpose v) m W) as (m' & E & S & N & O).
    { split; [intros i j Hi Hj; destruct (A1 i j) as [-> ->]; now apply F1|]. intros i j k l Hi Hj Hk Hl. destruct (A1 i j) as [-> ->], (A1 k l) as [-> ->]. intros Ea Eb. destruct (F2 j i l k); auto. }
    exists m'. split; [exact E|]. split; [exact S|]. split.
    + intros i j Hi Hj. specialize (N j i Hj Hi). destruct (A1 j i) as [-> ->] in N. exact N.
    + intros k l Hk Hl H. apply O; [assumption|assumption|]. intros i j Hi Hj. destruct (A1 i j) as [-> ->]. now apply H.
  - rewrite dims_layout. cbn [fst snd]. cbn [inverted trows tcols tcell] in *. destruct F as [F1 F2]. set (R := trows (lay b)) in *. set (C := tcols (lay b)) in *. set (v' := v_invert v _ _).
    assert (forall i j, i < R -> j < C -> vrow v' i j = vrow v (R - 1 - i) (C - 1 - j) /\ vcol v' i j = vcol v (R - 1 - i) (C - 1 - j)) as A1.
    { intros i j Hi Hj. clearbody R C. unfold vrow, vcol, v'. cbn. rewrite !Nat2Z.inj_sub by lia. split; ring. }
    destruct (IH v' m W) as (m' & E & S & N & O).
    { split; [intros i j Hi Hj; destruct (A1 i j Hi Hj) as [-> ->]; apply F1; lia|]. intros i j k l Hi Hj Hk Hl. destruct (A1 i j Hi Hj) as [-> ->], (A1 k l Hk Hl) as [-> ->]. intros Ea Eb. destruct (F2 (R - 1 - i) (C - 1 - j) (R - 1 - k) (C - 1 - l)); lia. }
    exists m'. split; [exact E|]. split; [exact S|]. split.
    + intros i j Hi Hj. specialize (N (R - 1 - i) (C - 1 - j)). destruct (A1 (R - 1 - i) (C - 1 - j)) as [Ea Eb]; [lia|lia|]. rewrite Ea, Eb in N. replace (R - 1 - (R - 1 - i)) with i in N by lia. replace (C - 1 - (C - 1 - j)) with j in N by lia. apply N; lia.
    + intros k l Hk Hl H. apply O; [assumption|assumption|]. intros i j Hi Hj. destruct (A1 i j Hi Hj) as [-> ->]. apply H; lia.
  - rewrite dims_layout. cbn [fst snd]. cbn [flattened trows tcols tcell] in *. destruct F as [F1 F2]. set (R := trows (lay b)) in *. set (C := tcols (lay b)) in *. set (v' := v_flatten v _).
    assert (forall i j, vrow v' i j = vrow v 0 (i * C + j) /\ vcol v' i j = vcol v 0 (i * C + j)) as A1.
    { intros i j. clearbody R C. unfold vrow, vcol, v'. cbn [v_flatten row_off col_off r2r r2c c2r c2c]. rewrite !Nat2Z.inj_add, !Nat2Z.inj_mul. split; ring. }
    destruct (IH v' m W) as (m' & E & S & N & O).
    { split; [intros i j Hi Hj; destruct (A1 i j) as [-> ->]; apply F1; [lia|now apply index_lt]|]. intros i j k l Hi Hj Hk Hl. destruct (A1 i j) as [-> ->], (A1 k l) as [-> ->]. intros Ea Eb. destruct (F2 0 (i * C + j) 0 (k * C + l)) as [_ Ei]; [lia|now apply index_lt|lia|now apply index_lt|assumption|assumption|]. now apply (index_inj C). }
    exists m'. split; [exact E|]. split; [exact S|]. split.
    + intros i j Hi Hj. assert (C <> 0) as HC by (intros ->; lia). assert (i = 0) as -> by lia. clear Hi. assert (j mod C < C) as Hm by now apply Nat.mod_upper_bound. assert (j / C < R) as Hq by (apply Nat.div_lt_upper_bound; lia).
      specialize (N (j / C) (j mod C) Hq Hm). destruct (A1 (j / C) (j mod C)) as [Ea Eb]. rewrite Ea, Eb in N. replace (j / C * C + j mod C) with j in N; [exact N|]. rewrite (Nat.div_mod j C) at 1 by exact HC. lia.
    + intros k l Hk Hl H. apply O; [assumption|assumption|]. intros i j Hi Hj. destruct (A1 i j) as [-> ->]. apply H; [lia|now apply index_lt].
  - rewrite (dims_layout (WHorizontal jb es)). cbn [fst layout]. cbn [horizontal trows tcols tcell] in *.
    destruct (horizontal_ok jb (highest (map lay es)) _ v es IH 0 v m W F) as (m' & E & S & N & O); try reflexivity.
    { intros e He. apply max_in. apply in_map, in_map, He. }
    exists m'. split; [exact E|]. split; [exact S|]. split.
    + intros i j Hi Hj. rewrite N by (split; [exact Hi|lia]). now rewrite Nat.sub_0_r.
    + intros k l Hk Hl H. specialize (O (Z.of_nat k) (Z.of_nat l)). unfold entZ in O. rewrite !Nat2Z.id in O. apply O; [lia|lia|]. intros i j [Hi Hj]. apply H; [exact Hi|lia].
  - rewrite (dims_layout (WVertical jr es)). cbn [snd layout]. cbn [vertical trows tcols tcell] in *.
    destruct (vertical_ok jr _ (widest (map lay es)) v es IH 0 v m W F) as (m' & E & S & N & O); try reflexivity.
    { intros e He. apply max_in. apply in_map, in_map, He. }
    exists m'. split; [exact E|]. split; [exact S|]. split.
    + intros i j Hi Hj. rewrite N by (split; [exact Hj|lia]). now rewrite Nat.sub_0_r.
    + intros k l Hk Hl H. specialize (O (Z.of_nat k) (Z.of_nat l)). unfold entZ in O. rewrite !Nat2Z.id in O. apply O; [lia|lia|]. intros i j [Hj Hi]. apply H; [lia|exact Hj].
  - cbn [trows tcols tcell] in *. destruct F as [F1 F2]. destruct (F1 0 0) as [Hr Hc]; [lia|lia|]. destruct (v_write_ok v m 0 0 d W Hr Hc) as (m' & E & S & N).
    exists m'. split; [exact E|]. split; [exact S|]. split.
    + intros i j Hi Hj. replace i with 0 by lia. replace j with 0 by lia. rewrite N by assumption. now rewrite !Z.eqb_refl.
    + intros k l Hk Hl H. specialize (N (Z.of_nat k) (Z.of_nat l)). unfold entZ in N. rewrite !Nat2Z.id in N. rewrite N by lia. destruct (H 0 0) as [H'|H']; [lia|lia| |]; destruct (Z.eqb_spec (Z.of_nat k) (vrow v 0 0)), (Z.eqb_spec (Z.of_nat l) (vcol v 0 0)); cbn [andb]; reflexivity || congruence.
  - destruct (nth_error args k) as [src|] eqn:Ek.
    + assert (wf src) as Ws by (apply args_wf; now apply nth_error_In in Ek). cbn [of_matrix trows tcols tcell] in *. destruct (write_rows_ok v src (rows src) Ws 0 m W eq_refl F) as (m' & E & S & N & O).
      exists m'. split; [exact E|]. split; [exact S|]. split.
      * intros i j Hi Hj. rewrite (ent_at d src) by assumption. apply N; lia.
      * intros r c Hr Hc H. specialize (O (Z.of_nat r) (Z.of_nat c)). unfold entZ in O. rewrite !Nat2Z.id in O. apply O; [lia|lia|]. intros i j Hi Hj. apply H; lia.
    + cbn [trows tcols tcell]. exists m. split; [reflexivity|]. split; [now repeat split; apply W|]. split; intros; [lia|reflexivity].
Qed.

Lemma format_writer_ok w : 0 < trows (lay w) * tcols (lay w) -> exists m, format_writer d args w = Ok m /\ wf m /\ rows m = trows (lay w) /\ cols m = tcols (lay w) /\
  forall i j, i < trows (lay w) -> j < tcols (lay w) -> at_ m i j = Ok (match tcell (lay w) i j with Some x => x | None => d end).
Proof.
  intros H. unfold format_writer. rewrite dims_layout. cbn [fst snd]. cbv zeta. destruct (wf_new (trows (lay w)) (tcols (lay w)) d) as (W & R & C). rewrite R, C. destruct (Nat.ltb_spec 0 (trows (lay w) * tcols (lay w))); [|lia].
  assert (forall i j, vrow plain_view i j = Z.of_nat i /\ vcol plain_view i j = Z.of_nat j) as A1 by (intros; unfold vrow, vcol, plain_view; cbn [row_off col_off r2r r2c c2r c2c]; lia).
  destruct (write_ok w plain_view _ W) as (m & E & (W' & R' & C') & N & _).
  { unfold fits. rewrite R, C. split; [intros i j Hi Hj; destruct (A1 i j) as [-> ->]; lia|]. intros i j k l Hi Hj Hk Hl. destruct (A1 i j) as [-> ->], (A1 k l) as [-> ->]. lia. }
  exists m. split; [exact E|]. split; [exact W'|]. split; [congruence|]. split; [congruence|]. intros i j Hi Hj. rewrite (ent_at d m) by (assumption || congruence). f_equal. specialize (N i j Hi Hj). destruct (A1 i j) as [Ea Eb]. rewrite Ea, Eb in N. unfold entZ in N. rewrite !Nat2Z.id in N. rewrite N. destruct (tcell (lay w) i j); [reflexivity|].
  pose proof (new_at d (trows (lay w)) (tcols (lay w)) d i j Hi Hj) as Hn. rewrite (ent_at d) in Hn by (rewrite ?R, ?C; assumption). congruence.
Qed.
Lemma format_writer_empty w : trows (lay w) * tcols (lay w) = 0 -> format_writer d args w = Throw.
Proof.
  clear args_wf. intros H. unfold format_writer. rewrite dims_layout. cbn [fst snd]. cbv zeta. destruct (wf_new (trows (lay w)) (tcols (lay w)) d) as (W & R & C). rewrite R, C, H. reflexivity.
Qed.
End W.
