From Coq Require Import String Ascii ZArith List Bool Lia Sorted.
From Verif Require Import Base DateModel StringModel StringSpec StringProofs OMap DictModel DictSpec DictProofs SplatModel SplatSpec.
Import ListNotations.
Open Scope Z_scope.

Section Proofs.
Context {N T : Type}.
Notation cell := (DictModel.cell N T).
Notation node := (node N T).
Notation grid := (grid N T).

Lemma node_ind2 (P : node -> Prop) : (forall w m, P (Leaf w m)) ->
  (forall tag type ch, Forall (fun p => P (snd p)) ch -> P (Obj tag type ch)) -> forall t, P t.
Proof.
  intros H1 H2. fix IH 1. intros [w m|tag type ch]; [apply H1|]. apply H2. induction ch as [|[n k] ch IHch]; constructor; [apply IH|exact IHch].
Qed.

(** Size and content of a tree *)
Fixpoint height (t : node) : Z :=
  match t with
  | Leaf _ m => zlen m
  | Obj _ _ ch => (fix sum (l : list (str * node)) := match l with [] => 0 | (_, c) :: r => height c + sum r end) ch
  end.
Definition heights (l : list (str * node)) : Z := (fix sum (l : list (str * node)) := match l with [] => 0 | (_, c) :: r => height c + sum r end) l.
Lemma heights_cons n k l : heights ((n, k) :: l) = height k + heights l. Proof. reflexivity. Qed.
Definition cell_at (m : list (list cell)) (i j : Z) : cell := nth (Z.to_nat j) (nth (Z.to_nat i) m []) CEmpty.
Fixpoint content (t : node) (i j : Z) : cell :=
  match t with
  | Leaf _ m => cell_at m i j
  | Obj tag type ch =>
      if j =? 0 then (if i =? 0 then CStr (header tag type) else CEmpty)
      else (fix go (l : list (str * node)) (i : Z) : cell :=
              match l with
              | [] => CEmpty
              | (n, k) :: r => if i <? height k
                               then (if j =? 1 then (if i =? 0 then CStr n else CEmpty) else content k i (j - 2))
                               else go r (i - height k)
              end) ch i
  end.
Definition contents (l : list (str * node)) (i j : Z) : cell :=
  (fix go (l : list (str * node)) (i : Z) : cell :=
              match l with
              | [] => CEmpty
              | (n, k) :: r => if i <? height k
                               then (if j =? 1 then (if i =? 0 then CStr n else CEmpty) else content k i (j - 2))
                               else go r (i - height k)
              end) l i.
Lemma contents_cons n k l i j : contents ((n, k) :: l) i j =
  if i <? height k then (if j =? 1 then (if i =? 0 then CStr n else CEmpty) else content k i (j - 2)) else contents l (i - height k) j.
Proof. reflexivity. Qed.
Lemma content_obj tag type ch i j : content (Obj tag type ch) i j =
  if j =? 0 then (if i =? 0 then CStr (header tag type) else CEmpty) else contents ch i j.
Proof. reflexivity. Qed.

Definition wf_list (l : list (str * node)) : Prop := Forall (fun p => fst p <> [] /\ wf (snd p)) l.
Lemma wf_leaf_inv w m : wf (Leaf w m : node) -> 1 <= w /\ m <> [] /\ Forall (fun l => zlen l = w) m.
Proof. intros H. inversion H. auto. Qed.
Lemma wf_obj_inv tag type ch : wf (Obj tag type ch : node) -> tag_ok tag /\ type <> [] /\ ch <> [] /\ wf_list ch /\
  StronglySorted (fun p q => ci_compare (fst p) (fst q) = Lt) ch.
Proof. intros H. inversion H. auto. Qed.
Lemma height_pos t : wf t -> 1 <= height t.
Proof.
  induction t as [w m|tag type ch IH] using node_ind2; intros H.
  - apply wf_leaf_inv in H as (_ & Hm & _). cbn [height]. unfold zlen. destruct m; [congruence|]. cbn [length]. lia.
  - apply wf_obj_inv in H as (_ & _ & Hc & Hw & _). change (1 <= heights ch).
    assert (G : 0 <= heights ch /\ (ch <> [] -> 1 <= heights ch)); [|apply G; exact Hc]. clear Hc.
    induction ch as [|[n k] ch IHc]; [split; [reflexivity|congruence]|].
    inversion Hw as [|? ? [_ Hk] Hr]; inversion IH as [|? ? Ik Ir]; subst. rewrite heights_cons. cbn [snd] in *.
    specialize (Ik Hk). specialize (IHc Ir Hr). lia.
Qed.
Lemma heights_pos l : wf_list l -> 0 <= heights l.
Proof.
  induction 1 as [|[n k] l [_ H] Hl IH]; [reflexivity|]. rewrite heights_cons. pose proof (height_pos k H). lia.
Qed.

Lemma rows_ok t : wf t -> rows t = Ok (height t).
Proof.
  induction t as [w m|tag type ch IH] using node_ind2; intros H.
  - apply wf_leaf_inv in H as (Hw & Hm & _). cbn [rows height]. unfold no_cells, zlen.
    destruct m as [|l m]; [congruence|]. cbn [length]. replace (w * Z.of_nat (S (length m)) =? 0) with false by nia. reflexivity.
  - apply wf_obj_inv in H as (_ & Ht & Hc & Hw & _). cbn [rows].
    replace (Bool.eqb (is_nil type) (is_nil ch)) with true by (destruct type, ch; (congruence || reflexivity)). clear Hc Ht.
    change (height (Obj tag type ch)) with (heights ch).
    induction ch as [|[n k] ch IHc]; [reflexivity|].
    inversion Hw as [|? ? [_ Hk] Hr]; inversion IH as [|? ? Ik Ir]; subst. rewrite heights_cons. cbn [snd] in *.
    rewrite (Ik Hk). cbn [obind]. rewrite (IHc Ir Hr). reflexivity.
Qed.

(** Width: what Cols computes covers the children *)
Definition cols_sum : Z -> list (str * node) -> outcome Z :=
  fix sum (acc : Z) (l : list (str * node)) : outcome Z :=
                 match l with
                 | [] => Ok acc
                 | (_, c) :: r => do a <- cols c; do acc' <- int32 (acc + Z.max acc a); sum acc' r
                 end.
Lemma cols_obj tag type ch : cols (Obj tag type ch) = do s <- cols_sum 0 ch; int32 (2 + s). Proof. reflexivity. Qed.
Lemma int32_ok z w : int32 z = Ok w -> w = z. Proof. unfold int32. destruct (_ && _); congruence. Qed.
Lemma cols_sum_covers ch : forall acc s, 0 <= acc -> cols_sum acc ch = Ok s ->
  acc <= s /\ Forall (fun p => exists w, cols (snd p) = Ok w /\ w <= s) ch.
Proof.
  induction ch as [|[n k] ch IH]; intros acc s Ha H; cbn [cols_sum] in H.
  - injection H as <-. split; [lia|constructor].
  - destruct (cols k) as [a| | |] eqn:Ek; cbn [obind] in H; try discriminate.
    destruct (int32 (acc + Z.max acc a)) as [acc'| | |] eqn:Ei; cbn [obind] in H; try discriminate.
    apply int32_ok in Ei. change (cols_sum acc' ch = Ok s) in H. apply IH in H as [H1 H2]; [|lia].
    split; [lia|]. constructor; [exists a; split; [exact Ek|lia]|exact H2].
Qed.
Lemma cols_leaf w m : wf (Leaf w m : node) -> cols (Leaf w m) = Ok w.
Proof.
  intros H. apply wf_leaf_inv in H as (Hw & Hm & _). cbn [cols]. unfold no_cells, zlen.
  destruct m as [|l m]; [congruence|]. cbn [length]. replace (w * Z.of_nat (S (length m)) =? 0) with false by nia. reflexivity.
Qed.

(** Cells *)
Definition at_ (g : grid) (i j : Z) : cell := g_at g (i * g_cols g + j).
Definition same_size (g g' : grid) : Prop := g_rows g' = g_rows g /\ g_cols g' = g_cols g.
Lemma put_ok g r c v : 0 <= r < g_rows g -> 0 <= c < g_cols g ->
  exists g', put g r c v = Ok g' /\ same_size g g' /\
    forall i j, 0 <= j < g_cols g -> at_ g' i j = if (i =? r) && (j =? c) then v else at_ g i j.
Proof.
  intros Hr Hc. unfold put. replace (in_storage g r c) with true by (unfold in_storage; symmetry; rewrite !andb_true_iff; nia).
  eexists. split; [reflexivity|]. split; [split; reflexivity|]. intros i j Hj. unfold at_. cbn [g_at g_cols].
  destruct ((i =? r) && (j =? c)) eqn:E.
  - replace (i * g_cols g + j =? r * g_cols g + c) with true by nia. reflexivity.
  - replace (i * g_cols g + j =? r * g_cols g + c) with false; [reflexivity|]. symmetry. apply Z.eqb_neq. intros G.
    assert (i = r) by nia. assert (j = c) by nia. subst. rewrite !Z.eqb_refl in E. discriminate.
Qed.
Lemma same_size_trans g g' g'' : same_size g g' -> same_size g' g'' -> same_size g g''.
Proof. unfold same_size. intuition congruence. Qed.
Lemma get_ok g r c : 0 <= r < g_rows g -> 0 <= c < g_cols g -> get g r c = Ok (at_ g r c).
Proof.
  intros Hr Hc. unfold get. replace (in_storage g r c) with true by (unfold in_storage; symmetry; rewrite !andb_true_iff; nia).
  reflexivity.
Qed.

Lemma put_row_ok l : forall g r c, 0 <= r < g_rows g -> 0 <= c -> c + zlen l <= g_cols g ->
  exists g', put_row g r c l = Ok g' /\ same_size g g' /\
    forall i j, 0 <= j < g_cols g -> at_ g' i j = if (i =? r) && (c <=? j) && (j <? c + zlen l) then nth (Z.to_nat (j - c)) l CEmpty else at_ g i j.
Proof.
  induction l as [|v l IH]; intros g r c Hr Hc Hl; cbn [put_row].
  - exists g. split; [reflexivity|]. split; [split; reflexivity|]. intros i j Hj.
    replace ((i =? r) && (c <=? j) && (j <? c + zlen [])) with false by (unfold zlen; cbn [length]; lia). reflexivity.
  - unfold zlen in *. cbn [length] in *.
    destruct (put_ok g r c v Hr ltac:(lia)) as (g1 & -> & [S1 S2] & A1). cbn [obind].
    destruct (IH g1 r (c + 1) ltac:(lia) ltac:(lia) ltac:(lia)) as (g2 & -> & S3 & A2). exists g2. split; [reflexivity|].
    split; [eapply same_size_trans; [split; eassumption|exact S3]|]. intros i j Hj. rewrite A2 by lia. rewrite A1 by lia.
    destruct (i =? r) eqn:Ei; cbn [andb]; [|reflexivity].
    destruct (Z.eq_dec j c) as [->|Hne].
    + replace (c + 1 <=? c) with false by lia. replace (c =? c) with true by lia. replace (c <=? c) with true by lia. cbn [andb].
      replace (c <? c + Z.of_nat (S (length l))) with true by lia. replace (Z.to_nat (c - c)) with O by lia. reflexivity.
    + replace (j =? c) with false by lia. cbn [andb]. destruct (c <=? j) eqn:E1; [|replace (c + 1 <=? j) with false by lia; reflexivity].
      replace (c + 1 <=? j) with true by lia. cbn [andb].
      destruct (j <? c + Z.of_nat (S (length l))) eqn:E2.
      * replace (j <? c + 1 + Z.of_nat (length l)) with true by lia. replace (Z.to_nat (j - c)) with (S (Z.to_nat (j - (c + 1)))) by lia. reflexivity.
      * replace (j <? c + 1 + Z.of_nat (length l)) with false by lia. reflexivity.
Qed.
Lemma put_rows_ok w m : Forall (fun l : list cell => zlen l = w) m -> forall g r c, 0 <= r -> r + zlen m <= g_rows g -> 0 <= c -> c + w <= g_cols g ->
  exists g', put_rows g r c m = Ok g' /\ same_size g g' /\
    forall i j, 0 <= j < g_cols g -> at_ g' i j = if (r <=? i) && (i <? r + zlen m) && (c <=? j) && (j <? c + w) then cell_at m (i - r) (j - c) else at_ g i j.
Proof.
  induction 1 as [|l m Hl Hm IH]; intros g r c Hr HR Hc Hw; cbn [put_rows].
  - exists g. split; [reflexivity|]. split; [split; reflexivity|]. intros i j Hj.
    replace ((r <=? i) && (i <? r + zlen [])) with false by (unfold zlen; cbn [length]; lia). reflexivity.
  - assert (zlen (l :: m) = 1 + zlen m) as Ez by (unfold zlen; cbn [length]; lia). rewrite Ez in *.
    assert (0 <= zlen m) by (unfold zlen; lia).
    destruct (put_row_ok l g r c ltac:(lia) Hc ltac:(lia)) as (g1 & -> & [S1 S2] & A1). cbn [obind].
    destruct (IH g1 (r + 1) c ltac:(lia) ltac:(lia) Hc ltac:(lia)) as (g2 & -> & S3 & A2). exists g2. split; [reflexivity|].
    split; [eapply same_size_trans; [split; eassumption|exact S3]|]. intros i j Hj. rewrite A2 by lia. rewrite A1 by lia. rewrite Hl.
    destruct (c <=? j) eqn:E1; [|rewrite !andb_false_r; reflexivity]. rewrite !andb_true_r.
    destruct (j <? c + w) eqn:E2; [|rewrite !andb_false_r; reflexivity]. rewrite !andb_true_r.
    destruct (Z.eq_dec i r) as [->|Hne].
    + replace (r + 1 <=? r) with false by lia. replace (r =? r) with true by lia. cbn [andb].
      replace ((r <=? r) && (r <? r + (1 + zlen m))) with true by lia. unfold cell_at. replace (Z.to_nat (r - r)) with O by lia. reflexivity.
    + replace (i =? r) with false by lia. destruct ((r <=? i) && (i <? r + (1 + zlen m))) eqn:E3.
      * replace ((r + 1 <=? i) && (i <? r + 1 + zlen m)) with true by lia. unfold cell_at.
        replace (Z.to_nat (i - r)) with (S (Z.to_nat (i - (r + 1)))) by lia. reflexivity.
      * replace ((r + 1 <=? i) && (i <? r + 1 + zlen m)) with false by lia. reflexivity.
Qed.

Definition writes (t : node) : Prop := forall w, cols t = Ok w -> forall g r c, 0 <= r -> r + height t <= g_rows g -> 0 <= c ->
  c + w <= g_cols g -> (forall i j, r <= i < r + height t -> c <= j < g_cols g -> at_ g i j = CEmpty) ->
  exists g', write t g r c = Ok g' /\ same_size g g' /\
    forall i j, 0 <= j < g_cols g -> at_ g' i j = if (r <=? i) && (i <? r + height t) && (c <=? j) then content t (i - r) (j - c) else at_ g i j.
Definition write_each (c : Z) := fix each (l : list (str * node)) (g : grid) (r : Z) : outcome grid :=
         match l with
         | [] => Ok g
         | (n, k) :: l' =>
             do g2 <- put g r (1 + c) (CStr n);
             do g3 <- write k g2 r (2 + c);
             do h <- rows k;
             each l' g3 (r + h)
         end.
Lemma write_each_ok s c l : wf_list l -> Forall (fun p => writes (snd p)) l ->
  Forall (fun p => exists w, cols (snd p) = Ok w /\ w <= s) l -> 0 <= c ->
  forall g r, 0 <= r -> r + heights l <= g_rows g -> 2 + c + s <= g_cols g -> 0 <= s ->
  (forall i j, r <= i < r + heights l -> c + 1 <= j < g_cols g -> at_ g i j = CEmpty) ->
  exists g', write_each c l g r = Ok g' /\ same_size g g' /\
    forall i j, 0 <= j < g_cols g -> at_ g' i j = if (r <=? i) && (i <? r + heights l) && (c + 1 <=? j) then contents l (i - r) (j - c) else at_ g i j.
Proof.
  intros Hw Hwr Hs Hc. induction l as [|[n k] l IH]; intros g r Hr HR HC Hs0 He; cbn [write_each].
  - exists g. split; [reflexivity|]. split; [split; reflexivity|]. intros i j Hj. change (heights []) with 0.
    replace ((r <=? i) && (i <? r + 0)) with false by lia. reflexivity.
  - inversion Hw as [|? ? [_ Hk] Hl]; inversion Hwr as [|? ? Wk Wl]; inversion Hs as [|? ? (wk & Ck & Lk) Sl]; subst.
    rewrite heights_cons in *. cbn [fst snd] in *. pose proof (height_pos k Hk). pose proof (heights_pos l Hl).
    destruct (put_ok g r (1 + c) (CStr n) ltac:(lia) ltac:(lia)) as (g2 & -> & [S1 S2] & A2). cbn [obind].
    destruct (Wk wk Ck g2 r (2 + c) ltac:(lia) ltac:(lia) ltac:(lia) ltac:(lia)) as (g3 & -> & [S3 S4] & A3).
    { intros i j Hi Hj. rewrite A2 by lia. replace (j =? 1 + c) with false by lia. rewrite andb_false_r. apply He; lia. }
    cbn [obind]. rewrite (rows_ok k Hk). cbn [obind].
    assert (B3 : forall i j, 0 <= j < g_cols g -> at_ g3 i j = if (r <=? i) && (i <? r + height k) && (c + 1 <=? j) then contents ((n, k) :: l) (i - r) (j - c) else at_ g i j).
    { intros i j Hj. rewrite A3 by lia. rewrite A2 by lia. rewrite contents_cons.
      destruct ((r <=? i) && (i <? r + height k)) eqn:E1; cbn [andb].
      - replace (i - r <? height k) with true by lia. destruct (2 + c <=? j) eqn:E2.
        + replace (c + 1 <=? j) with true by lia. replace (j - c =? 1) with false by lia. f_equal; lia.
        + destruct (c + 1 <=? j) eqn:E3.
          * replace (j - c =? 1) with true by lia. replace (j =? 1 + c) with true by lia. rewrite andb_true_r.
            destruct (i =? r) eqn:E4.
            { replace (i - r =? 0) with true by lia. reflexivity. }
            { replace (i - r =? 0) with false by lia. apply He; lia. }
          * replace (j =? 1 + c) with false by lia. rewrite andb_false_r. reflexivity.
      - replace (i =? r) with false by lia. reflexivity. }
    destruct (IH Hl Wl Sl g3 (r + height k) ltac:(lia) ltac:(lia) ltac:(lia) Hs0) as (g4 & E4 & [S5 S6] & A4).
    { intros i j Hi Hj. rewrite B3 by lia. replace ((r <=? i) && (i <? r + height k)) with false by lia. apply He; lia. }
    exists g4. split; [exact E4|]. split; [split; congruence|].
    intros i j Hj. rewrite A4 by lia. rewrite B3 by lia.
    destruct (c + 1 <=? j) eqn:Ec; [|rewrite !andb_false_r; reflexivity]. rewrite !andb_true_r.
    destruct ((r <=? i) && (i <? r + (height k + heights l))) eqn:E1.
    + destruct (i <? r + height k) eqn:E2.
      * replace (r + height k <=? i) with false by lia. replace (r <=? i) with true by lia. reflexivity.
      * replace ((r + height k <=? i) && (i <? r + height k + heights l)) with true by lia. rewrite contents_cons.
        replace (i - r <? height k) with false by lia. f_equal. lia.
    + replace ((r + height k <=? i) && (i <? r + height k + heights l)) with false by lia.
      replace ((r <=? i) && (i <? r + height k)) with false by lia. reflexivity.
Qed.
Lemma cell_at_wide w m i j : Forall (fun l : list cell => zlen l = w) m -> w <= j -> cell_at m i j = CEmpty.
Proof.
  intros H Hj. unfold cell_at. destruct (nth_in_or_default (Z.to_nat i) m []) as [G|G].
  - rewrite Forall_forall in H. apply H in G. unfold zlen in G. apply nth_overflow. lia.
  - rewrite G. destruct (Z.to_nat j); reflexivity.
Qed.
Lemma write_ok t : wf t -> writes t.
Proof.
  induction t as [w m|tag type ch IH] using node_ind2; intros H v Hv g r c Hr HR Hc HC He.
  - rewrite (cols_leaf _ _ H) in Hv. injection Hv as ->. pose proof H as H'. apply wf_leaf_inv in H' as (Hw & Hm & Hl).
    cbn [write height] in *. replace (no_cells v m) with false
      by (unfold no_cells, zlen; destruct m as [|l m]; [congruence|]; cbn [length]; nia).
    destruct (put_rows_ok v m Hl g r c Hr HR Hc HC) as (g' & -> & S1 & A1). exists g'. split; [reflexivity|]. split; [exact S1|].
    intros i j Hj. rewrite A1 by lia. cbn [content].
    destruct ((r <=? i) && (i <? r + zlen m) && (c <=? j)) eqn:E; cbn [andb]; [|reflexivity].
    destruct (j <? c + v) eqn:E2; [reflexivity|]. rewrite (cell_at_wide v) by (assumption || lia). apply He; lia.
  - apply wf_obj_inv in H as (_ & _ & Hch & Hw & _). rewrite cols_obj in Hv.
    destruct (cols_sum 0 ch) as [s| | |] eqn:Es; cbn [obind] in Hv; try discriminate. apply int32_ok in Hv as ->.
    apply cols_sum_covers in Es as [Hs0 Hcov]; [|lia]. change (height (Obj tag type ch)) with (heights ch) in *.
    pose proof (heights_pos ch Hw) as Hh.
    assert (1 <= heights ch).
    { destruct ch as [|[n k] l]; [congruence|]. inversion Hw as [|? ? [_ Hk] Hl]; subst. rewrite heights_cons.
      pose proof (height_pos k Hk). pose proof (heights_pos l Hl). lia. }
    cbn [write]. destruct (put_ok g r c (CStr (header tag type)) ltac:(lia) ltac:(lia)) as (g1 & -> & [S1 S2] & A1). cbn [obind].
    assert (Forall (fun p => writes (snd p)) ch) as Hwr.
    { rewrite Forall_forall in IH |- *. unfold wf_list in Hw. rewrite Forall_forall in Hw. intros p Hp. apply IH; [exact Hp|]. now apply Hw. }
    destruct (write_each_ok s c ch Hw Hwr Hcov Hc g1 r Hr ltac:(lia) ltac:(lia) Hs0) as (g2 & E2 & [S3 S4] & A2).
    { intros i j Hi Hj. rewrite A1 by lia. replace (j =? c) with false by lia. rewrite andb_false_r. apply He; lia. }
    exists g2. split; [exact E2|]. split; [split; congruence|]. intros i j Hj. rewrite A2 by lia. rewrite A1 by lia. rewrite content_obj.
    destruct ((r <=? i) && (i <? r + heights ch)) eqn:E1; cbn [andb].
    + destruct (c + 1 <=? j) eqn:E3.
      * replace (c <=? j) with true by lia. replace (j - c =? 0) with false by lia. reflexivity.
      * destruct (c <=? j) eqn:E4.
        { replace (j - c =? 0) with true by lia. replace (j =? c) with true by lia. rewrite andb_true_r.
          destruct (i =? r) eqn:E5; [replace (i - r =? 0) with true by lia; reflexivity|]. replace (i - r =? 0) with false by lia. apply He; lia. }
        { replace (j =? c) with false by lia. now rewrite andb_false_r. }
    + replace (i =? r) with false by lia. reflexivity.
Qed.

(** the columns a tree really takes *)
Fixpoint span (t : node) : Z :=
  match t with
  | Leaf w _ => w
  | Obj _ _ ch => 2 + (fix most (l : list (str * node)) : Z := match l with [] => 0 | (_, c) :: r => Z.max (span c) (most r) end) ch
  end.
Definition spans (l : list (str * node)) : Z := (fix most (l : list (str * node)) : Z := match l with [] => 0 | (_, c) :: r => Z.max (span c) (most r) end) l.
Lemma span_obj tag type ch : span (Obj tag type ch) = 2 + spans ch. Proof. reflexivity. Qed.
Lemma spans_cons n k l : spans ((n, k) :: l) = Z.max (span k) (spans l). Proof. reflexivity. Qed.
Lemma spans_in l n k : In (n, k) l -> span k <= spans l.
Proof.
  induction l as [|[n' k'] l IH]; [intros []|]. rewrite spans_cons. intros [E|Hin]; [injection E as <- <-; lia|]. specialize (IH Hin). lia.
Qed.
Lemma spans_pos l : 0 <= spans l.
Proof. induction l as [|[n k] l IH]; [reflexivity|]. rewrite spans_cons. lia. Qed.
Lemma span_cols t : wf t -> forall w, cols t = Ok w -> span t <= w.
Proof.
  induction t as [w m|tag type ch IH] using node_ind2; intros H v Hv.
  - rewrite (cols_leaf _ _ H) in Hv. injection Hv as <-. cbn [span]. lia.
  - apply wf_obj_inv in H as (_ & _ & _ & Hw & _). rewrite cols_obj in Hv. destruct (cols_sum 0 ch) as [s| | |] eqn:Es; cbn [obind] in Hv; try discriminate.
    apply int32_ok in Hv as ->. apply cols_sum_covers in Es as [Hs Hc]; [|lia]. rewrite span_obj.
    assert (spans ch <= s); [|lia]. clear - IH Hw Hc Hs. induction ch as [|[n k] ch IHch]; [exact Hs|]. rewrite spans_cons.
    inversion IH as [|? ? I1 I2]; inversion Hw as [|? ? [_ W1] W2]; inversion Hc as [|? ? (w & C1 & C2) C3]; subst. cbn [snd] in *.
    specialize (I1 W1 w C1). specialize (IHch I2 W2 C3). lia.
Qed.

(** Reading *)
Definition realises (g : grid) (r c : Z) (t : node) : Prop :=
  0 <= r /\ r + height t <= g_rows g /\ 0 <= c /\ c + span t <= g_cols g /\
  forall i j, 0 <= i < height t -> 0 <= j -> c + j < g_cols g -> at_ g (r + i) (c + j) = content t i j.
(** nothing below the first row in the first column, nor in the spare row *)
Definition edge (g : grid) : Prop := forall i, 1 <= i <= g_rows g -> g_at g (i * g_cols g) = CEmpty.

Lemma first_row_skip p g c n : forall r k, 0 <= r -> r + Z.of_nat n <= g_rows g -> 0 <= c < g_cols g ->
  (forall i, r <= i < r + Z.of_nat n -> p (at_ g i c) = false) ->
  first_row p g c r (n + k) = first_row p g c (r + Z.of_nat n) k.
Proof.
  induction n as [|n IH]; intros r k Hr HR Hc H; [cbn [Nat.add]; f_equal; lia|].
  cbn [Nat.add first_row]. rewrite get_ok by lia. cbn [obind]. rewrite H by lia. rewrite IH; try lia.
  - f_equal. lia.
  - intros i Hi. apply H. lia.
Qed.
Lemma first_row_none p g c n r : 0 <= r -> r + Z.of_nat n <= g_rows g -> 0 <= c < g_cols g ->
  (forall i, r <= i < r + Z.of_nat n -> p (at_ g i c) = false) -> first_row p g c r n = Ok None.
Proof. intros. rewrite <- (Nat.add_0_r n). now rewrite first_row_skip. Qed.
Lemma first_row_hit p g c n r k : 0 <= r -> r + Z.of_nat n < g_rows g -> 0 <= c < g_cols g -> (0 < k)%nat ->
  (forall i, r <= i < r + Z.of_nat n -> p (at_ g i c) = false) -> p (at_ g (r + Z.of_nat n) c) = true ->
  first_row p g c r (n + k) = Ok (Some (r + Z.of_nat n)).
Proof.
  intros. rewrite first_row_skip by (assumption || lia). destruct k; [lia|]. cbn [first_row]. rewrite get_ok by lia. cbn [obind].
  match goal with X : p _ = true |- _ => now rewrite X end.
Qed.

Lemma heights_app a b : heights (a ++ b) = heights a + heights b.
Proof. induction a as [|[n k] a IH]; [reflexivity|]. cbn [app]. rewrite !heights_cons. lia. Qed.
Lemma contents_app a b i j : wf_list a -> 0 <= i -> contents (a ++ b) (heights a + i) j = contents b i j.
Proof.
  intros Ha Hi. induction Ha as [|[n k] a [_ Hk] Ha IH]; [reflexivity|]. cbn [app]. rewrite contents_cons, heights_cons.
  pose proof (heights_pos a Ha). replace (height k + heights a + i <? height k) with false by lia. rewrite <- IH. f_equal. lia.
Qed.
(** the name column of the children before a given one *)
Lemma contents_name a b i : wf_list a -> 0 <= i < heights a ->
  contents (a ++ b) i 1 = CEmpty \/ exists n k, In (n, k) a /\ contents (a ++ b) i 1 = CStr n.
Proof.
  intros Ha. revert i. induction Ha as [|[n k] a [_ Hk] Ha IH]; intros i Hi; [change (heights []) with 0 in Hi; lia|].
  cbn [app]. rewrite heights_cons in Hi. rewrite contents_cons. change (1 =? 1) with true. cbv iota.
  destruct (i <? height k) eqn:E.
  - destruct (i =? 0); [right; exists n, k; split; [now left|reflexivity]|now left].
  - destruct (IH (i - height k) ltac:(lia)) as [G|(n' & k' & G1 & G2)]; [now left|right]. exists n', k'. split; [now right|exact G2].
Qed.
Lemma sorted_before (a b : list (str * node)) p : StronglySorted (fun p q => ci_compare (fst p) (fst q) = Lt) (a ++ p :: b) ->
  forall q, In q a -> ci_compare (fst q) (fst p) = Lt.
Proof.
  induction a as [|x a IH]; intros H q Hq; [contradiction|]. cbn [app] in H. apply StronglySorted_inv in H as [H1 H2].
  destruct Hq as [->|Hq]; [|now apply IH]. rewrite Forall_forall in H2. apply H2. apply in_or_app. right. now left.
Qed.

Lemma header_cut tag type : tag_ok tag -> cut "~" (header tag type) = (tag, Some type).
Proof.
  intros H. unfold header. change (["~"%char] ++ type) with ("~"%char :: type). apply cut_app.
  destruct H as [->|(r & -> & Hr)]; [intros []|]. intros [G|G]; [discriminate|tauto].
Qed.

Section Table.
Variables (g : grid) (r c w : Z) (m : list (list cell)).
Hypothesis Hwf : wf (Leaf w m : node).
Hypothesis Hre : realises g r c (Leaf w m).
Hypothesis Hedge : edge g.
Let v := View r (r + zlen m) c.
Lemma table_facts : 1 <= w /\ m <> [] /\ Forall (fun l => zlen l = w) m /\ 0 <= r /\ r + zlen m <= g_rows g /\ 0 <= c /\ c + w <= g_cols g /\
  1 <= zlen m /\ forall i j, 0 <= i < zlen m -> 0 <= j -> c + j < g_cols g -> at_ g (r + i) (c + j) = cell_at m i j.
Proof using Hwf Hre.
  pose proof (height_pos _ Hwf) as Hh. destruct (wf_leaf_inv _ _ Hwf) as (H1 & H2 & H3). destruct Hre as (R1 & R2 & R3 & R5 & R6).
  cbn [height content span] in *. repeat split; auto.
Qed.
Lemma get_cell i j : 0 <= i < zlen m -> 0 <= j -> c + j < g_cols g -> get g (r + i) (c + j) = Ok (cell_at m i j).
Proof using Hwf Hre.
  intros X1 X2 X3. destruct table_facts as (H1 & H2 & H3 & H4 & H5 & H6 & H7 & H8 & H9). rewrite get_ok by lia. now rewrite H9.
Qed.
Lemma show_scalar x : m = [[x]] -> get_scalar g v = Ok x.
Proof using Hwf Hre.
  intros Hm. destruct table_facts as (H1 & H2 & H3 & H4 & H5 & H6 & H7 & H8 & H9). unfold get_scalar, v. cbn [hi lo col].
  assert (w = 1) by (rewrite Hm in H3; inversion H3; subst; reflexivity).
  assert (zlen m = 1) as Hz by (rewrite Hm; reflexivity).
  replace (r + zlen m =? r + 1) with true by lia.
  assert (get g r c = Ok x) as G.
  { pose proof (get_cell 0 0 ltac:(lia) ltac:(lia) ltac:(lia)) as G. rewrite !Z.add_0_r in G. rewrite G, Hm. reflexivity. }
  destruct (c =? g_cols g - 1) eqn:E; [exact G|].
  pose proof (get_cell 0 1 ltac:(lia) ltac:(lia) ltac:(lia)) as G1. rewrite Z.add_0_r in G1. rewrite G1, Hm. exact G.
Qed.
Lemma not_blank (x : cell) : ~ blank x -> is_empty x = false.
Proof. unfold blank. destruct x as [| | | | |[|]]; cbn; tauto. Qed.
Lemma blank_empty (x : cell) : is_empty x = false -> ~ blank x.
Proof. intros H [->| ->]; discriminate. Qed.
Lemma vector_stop_ok l : forall k n, (forall x, In x l -> ~ blank x) -> 0 <= k -> zlen m = 1 ->
  (forall i, (i < length l)%nat -> cell_at m 0 (k + Z.of_nat i) = nth i l CEmpty) ->
  k + Z.of_nat (length l) = w -> Z.of_nat n = g_cols g - (c + k) -> vector_stop g r (c + k) n = Ok (c + w).
Proof using Hwf Hre.
  destruct table_facts as (H1 & H2 & H3 & H4 & H5 & H6 & H7 & H8 & H9).
  induction l as [|x l IH]; intros k n Hb Hk Hz Hc Hw Hn.
  - cbn [length] in Hw. destruct n as [|n]; cbn [vector_stop]; [f_equal; lia|].
    pose proof (get_cell 0 k ltac:(lia) ltac:(lia) ltac:(lia)) as G. rewrite Z.add_0_r in G. rewrite G. cbn [obind].
    rewrite (cell_at_wide w) by (assumption || lia). cbn [is_empty]. f_equal. lia.
  - cbn [length] in *. destruct n as [|n]; [lia|]. cbn [vector_stop].
    pose proof (get_cell 0 k ltac:(lia) ltac:(lia) ltac:(lia)) as G. rewrite Z.add_0_r in G. rewrite G. cbn [obind].
    pose proof (Hc O ltac:(lia)) as G0. rewrite Z.add_0_r in G0. cbn [nth] in G0. rewrite G0.
    rewrite (not_blank x) by (apply Hb; now left). replace (c + k + 1) with (c + (k + 1)) by lia. apply IH; auto; try lia.
    + intros y Hy. apply Hb. now right.
    + intros i Hi. specialize (Hc (S i) ltac:(lia)). cbn [nth] in Hc. rewrite <- Hc. f_equal. lia.
Qed.
Lemma row_cells_ok i (l : list cell) : 0 <= i < zlen m -> forall k, 0 <= k -> c + k + zlen l <= g_cols g ->
  (forall j, (j < length l)%nat -> cell_at m i (k + Z.of_nat j) = nth j l CEmpty) ->
  row_cells g (r + i) (c + k) (length l) = Ok l.
Proof using Hwf Hre.
  intros Hi. induction l as [|x l IH]; intros k Hk Hl Hc; [reflexivity|]. unfold zlen in *. cbn [length row_cells] in *.
  rewrite get_cell by (unfold zlen; lia). cbn [obind]. pose proof (Hc O ltac:(lia)) as G0. rewrite Z.add_0_r in G0. cbn [nth] in G0. rewrite G0.
  replace (c + k + 1) with (c + (k + 1)) by lia. rewrite IH; [reflexivity|lia|lia|].
  intros j Hj. specialize (Hc (S j) ltac:(lia)). cbn [nth] in Hc. rewrite <- Hc. f_equal. lia.
Qed.
Lemma show_vector x l : m = [x :: l] -> (forall y, In y l -> ~ blank y) -> vector_range g v = Ok (x :: l).
Proof using Hwf Hre.
  intros Hm Hb. destruct table_facts as (H1 & H2 & H3 & H4 & H5 & H6 & H7 & H8 & H9). unfold vector_range, v. cbn [hi lo col].
  assert (w = 1 + Z.of_nat (length l)) as Hw by (rewrite Hm in H3; inversion H3; subst; unfold zlen; cbn [length]; lia).
  assert (zlen m = 1) as Hz by (rewrite Hm; reflexivity).
  assert (forall i, (i < length (x :: l))%nat -> cell_at m 0 (0 + Z.of_nat i) = nth i (x :: l) CEmpty) as Hn.
  { intros i Hi. rewrite Hm. unfold cell_at. change (nth (Z.to_nat 0) [x :: l] []) with (x :: l). f_equal. lia. }
  replace (r + zlen m =? r + 1) with true by lia.
  rewrite (vector_stop_ok l 1); [|exact Hb|lia|exact Hz| |lia|lia].
  - cbn [obind]. pose proof (row_cells_ok 0 (x :: l) ltac:(lia) 0 ltac:(lia) ltac:(unfold zlen; cbn [length]; lia) Hn) as G.
    rewrite !Z.add_0_r in G. rewrite <- G. f_equal. cbn [length]. lia.
  - intros i Hi. specialize (Hn (S i) ltac:(cbn [length]; lia)). cbn [nth] in Hn. rewrite <- Hn. f_equal. lia.
Qed.

(** some cell of column [j] is not blank *)
Definition live (j : Z) : Prop := exists i, 0 <= i < zlen m /\ is_empty (cell_at m i j) = false.
Lemma first_row_live j : 0 <= j -> c + j < g_cols g -> live j ->
  exists i, first_row (fun x => negb (is_empty x)) g (c + j) r (Z.to_nat (zlen m)) = Ok (Some i).
Proof using Hwf Hre.
  destruct table_facts as (H1 & H2 & H3 & H4 & H5 & H6 & H7 & H8 & H9). intros Hj Hc (i & Hi & He).
  assert (forall n k, 0 <= k -> k + Z.of_nat n <= zlen m -> k <= i < k + Z.of_nat n ->
    exists i', first_row (fun x => negb (is_empty x)) g (c + j) (r + k) n = Ok (Some i')) as G.
  { induction n as [|n IH]; intros k Hk Hn Hin; [lia|]. cbn [first_row]. rewrite get_cell by lia. cbn [obind].
    destruct (is_empty (cell_at m k j)) eqn:E; cbn [negb]; [|eauto].
    assert (k <> i) by (intros ->; congruence). replace (r + k + 1) with (r + (k + 1)) by lia. apply IH; lia. }
  specialize (G (Z.to_nat (zlen m)) 0). rewrite Z.add_0_r in G. apply G; lia.
Qed.
Lemma matrix_stop_ok : (forall j, 1 <= j < w -> live j) -> matrix_stop g v = Ok (c + w).
Proof using Hwf Hre Hedge.
  destruct table_facts as (H1 & H2 & H3 & H4 & H5 & H6 & H7 & H8 & H9). intros Hl. unfold matrix_stop, v. cbn [col].
  assert (forall n j, 1 <= j <= w -> w - j < Z.of_nat n -> (c + j < g_cols g \/ j = 1) ->
    matrix_stop_from g (View r (r + zlen m) c) (c + j) n = Ok (c + w)) as G.
  { induction n as [|n IH]; intros j Hj Hn Hc; [lia|]. cbn [matrix_stop_from hi lo]. replace (r + zlen m - r) with (zlen m) by lia.
    destruct (Z.eq_dec j w) as [->|Hne].
    - assert (first_row (fun x => negb (is_empty x)) g (c + w) r (Z.to_nat (zlen m)) = Ok None) as ->; [|reflexivity].
      destruct (Z.eq_dec (c + w) (g_cols g)) as [Hcw|Hcw].
      + (* one past the last column: the first cells of the following rows *)
        rewrite Hcw. clear - Hedge H4 H5 H6 H8 H1 Hcw. unfold zlen in *. remember (Z.to_nat (Z.of_nat (length m))) as k eqn:Ek.
        assert (r + Z.of_nat k <= g_rows g) as Hk by lia. clear Ek H5 H8. revert r H4 Hk. induction k as [|k IH]; intros q Hq Hk; [reflexivity|].
        cbn [first_row]. unfold get. replace (in_storage g q (g_cols g)) with true
          by (unfold in_storage; symmetry; rewrite !andb_true_iff; repeat split; nia).
        cbn [obind]. replace (q * g_cols g + g_cols g) with ((q + 1) * g_cols g) by lia. rewrite Hedge by lia. cbn [is_empty negb].
        apply IH; lia.
      + apply first_row_none; try lia. intros i Hi. replace i with (r + (i - r)) by lia. rewrite H9 by lia.
        rewrite (cell_at_wide w) by (assumption || lia). reflexivity.
    - destruct (first_row_live j ltac:(lia) ltac:(lia) (Hl j ltac:(lia))) as (i & ->). cbn [obind].
      destruct (c + j + 1 =? g_cols g) eqn:E; [f_equal; lia|]. replace (c + j + 1) with (c + (j + 1)) by lia. apply IH; lia. }
  apply G; try lia. nia.
Qed.
Lemma cell_at_row k l j : nth_error m k = Some l -> cell_at m (Z.of_nat k) j = nth (Z.to_nat j) l CEmpty.
Proof. intros H. unfold cell_at. rewrite Nat2Z.id. now rewrite (nth_error_nth _ _ [] H). Qed.
Lemma block_ok : block g r c (Z.to_nat w) (Z.to_nat (zlen m)) = Ok m.
Proof using Hwf Hre.
  destruct table_facts as (H1 & H2 & H3 & H4 & H5 & H6 & H7 & H8 & H9).
  assert (forall l k, (forall i, nth_error l i = nth_error m (k + i)) -> Z.of_nat k + zlen l = zlen m ->
    block g (r + Z.of_nat k) c (Z.to_nat w) (length l) = Ok l) as G.
  { induction l as [|x l IH]; intros k Hk Hz; [reflexivity|]. unfold zlen in *. cbn [length block] in *.
    pose proof (Hk O) as Hx. cbn [nth_error] in Hx. rewrite Nat.add_0_r in Hx. symmetry in Hx.
    pose proof (nth_error_In _ _ Hx) as Hin. rewrite Forall_forall in H3. pose proof (H3 _ Hin) as Hlx. unfold zlen in Hlx.
    replace (Z.to_nat w) with (length x) by lia.
    pose proof (row_cells_ok (Z.of_nat k) x ltac:(unfold zlen; lia) 0 ltac:(lia) ltac:(unfold zlen; lia)) as G. rewrite Z.add_0_r in G.
    rewrite G by (intros j Hj; rewrite (cell_at_row k x) by assumption; f_equal; lia). cbn [obind].
    replace (length x) with (Z.to_nat w) by lia. replace (r + Z.of_nat k + 1) with (r + Z.of_nat (S k)) by lia.
    rewrite IH; [reflexivity| |lia]. intros i. specialize (Hk (S i)). cbn [nth_error] in Hk. rewrite Hk. f_equal. lia. }
  specialize (G m O (fun i => eq_refl) ltac:(lia)). change (Z.of_nat 0) with 0 in G. rewrite Z.add_0_r in G.
  replace (Z.to_nat (zlen m)) with (length m) by (unfold zlen; lia). exact G.
Qed.
Lemma show_matrix : (forall j, (1 <= j < Z.to_nat w)%nat -> exists l x, In l m /\ nth_error l j = Some x /\ ~ blank x) ->
  matrix_range g v = Ok m.
Proof using Hwf Hre Hedge.
  intros Hl. unfold matrix_range. rewrite matrix_stop_ok.
  - cbn [obind]. unfold v. cbn [lo hi col]. replace (c + w - c) with w by lia. replace (r + zlen m - r) with (zlen m) by lia. exact block_ok.
  - intros j Hj. destruct (Hl (Z.to_nat j) ltac:(lia)) as (l & x & Hin & Hx & Hb). apply In_nth_error in Hin as (k & Hk).
    exists (Z.of_nat k). split.
    + assert (k < length m)%nat by (apply nth_error_Some; congruence). unfold zlen. lia.
    + rewrite (cell_at_row k l) by assumption. rewrite (nth_error_nth _ _ CEmpty Hx). now apply not_blank.
Qed.
Lemma insert_rows_ok : forall (b a : dict N T) k, Z.of_nat k + zlen b = zlen m -> w = 2 ->
  (forall i p, nth_error b i = Some p -> nth_error m (k + i) = Some [CStr (fst p); snd p]) ->
  msorted ci_compare (a ++ b) -> Forall (fun p => condensed (fst p) = Ok (fst p)) b ->
  insert_rows a g (r + Z.of_nat k) c (length b) = Ok (a ++ b).
Proof using Hwf Hre.
  destruct table_facts as (H1 & H2 & H3 & H4 & H5 & H6 & H7 & H8 & H9).
  induction b as [|[n x] b IH]; intros a k Hz Hw2 Hb Hs Hc; [cbn [insert_rows length]; now rewrite app_nil_r|].
  unfold zlen in *. cbn [length insert_rows] in *. pose proof (Hb O (n, x) eq_refl) as H0. rewrite Nat.add_0_r in H0. cbn [fst snd] in H0.
  pose proof (get_cell (Z.of_nat k) 0 ltac:(unfold zlen; lia) ltac:(lia) ltac:(lia)) as G. rewrite Z.add_0_r in G. rewrite G. cbn [obind].
  rewrite (cell_at_row k _ _ H0). change (Z.to_nat 0) with O. cbn [nth extract_string obind].
  rewrite (get_cell (Z.of_nat k) 1) by (unfold zlen; lia). cbn [obind]. rewrite (cell_at_row k _ _ H0). change (Z.to_nat 1) with 1%nat. cbn [nth].
  inversion Hc as [|? ? Hcn Hcb]; subst. cbn [fst] in Hcn. unfold insert at 1. rewrite Hcn. cbn [obind].
  destruct (minsert_last N T a n x) as [E1 E2].
  { clear - Hs. induction a as [|q a IH]; constructor; cbn [app] in Hs; apply (sorted_inv ci_compare) in Hs as [G1 G2]; auto.
    rewrite Forall_forall in G2. apply (G2 (n, x)). apply in_or_app. right. now left. }
  rewrite E1, E2. cbn [obind]. replace (r + Z.of_nat k + 1) with (r + Z.of_nat (S k)) by lia.
  rewrite (IH (a ++ [(n, x)]) (S k)); auto; try lia.
  - now rewrite <- app_assoc.
  - intros i p Hp. specialize (Hb (S i) p Hp). rewrite <- Hb. f_equal. lia.
  - rewrite <- app_assoc. exact Hs.
Qed.
Lemma show_dictionary l d : stored l d -> m = entries d -> (exists k x, In (k, x) d /\ ~ blank x) -> as_dictionary g v = Ok d.
Proof using Hwf Hre Hedge.
  intros Hst Hm (k & x & Hin & Hb). destruct table_facts as (H1 & H2 & H3 & H4 & H5 & H6 & H7 & H8 & H9).
  assert (w = 2) as Hw.
  { rewrite Hm in H3. destruct d as [|p d]; [contradiction|]. cbn [entries map] in H3. inversion H3; subst. reflexivity. }
  unfold as_dictionary. rewrite matrix_stop_ok.
  - cbn [obind]. unfold v. cbn [lo hi col]. replace (c + w =? c + 2) with true by lia. replace (r + zlen m - r) with (zlen m) by lia.
    destruct (stored_holds N T l d Hst) as [Hs Hi].
    pose proof (insert_rows_ok d [] O) as G. change (Z.of_nat 0) with 0 in G. rewrite Z.add_0_r in G. cbn [app Nat.add] in G.
    assert (length d = length m) as Hlen by (rewrite Hm; unfold entries; now rewrite map_length).
    replace (Z.to_nat (zlen m)) with (length d) by (unfold zlen; lia). apply G; auto.
    + unfold zlen. lia.
    + intros i p Hp. rewrite Hm. unfold entries. rewrite nth_error_map, Hp. reflexivity.
    + apply Forall_forall. intros [y z] Hy. apply Hi in Hy as (k' & _ & Hk'). cbn [fst]. exact (condensed_idempotent _ _ Hk').
  - intros j Hj. assert (j = 1) as -> by lia. apply In_nth_error in Hin as (i & Hi). exists (Z.of_nat i). split.
    + assert (i < length d)%nat by (apply nth_error_Some; congruence). rewrite Hm. unfold zlen, entries. rewrite map_length. lia.
    + rewrite (cell_at_row i [CStr k; x]).
      * cbn [nth Z.to_nat Pos.to_nat Pos.iter_op]. change (Z.to_nat 1) with 1%nat. now apply not_blank.
      * rewrite Hm. unfold entries. rewrite nth_error_map, Hi. reflexivity.
Qed.
Lemma show_reference t : m = [[CStr t]] -> tag_ok t -> tag_of g v = Ok t.
Proof using Hwf Hre.
  intros Hm Ht. destruct table_facts as (H1 & H2 & H3 & H4 & H5 & H6 & H7 & H8 & H9). unfold tag_of, v. cbn [lo col].
  pose proof (get_cell 0 0 ltac:(lia) ltac:(lia) ltac:(lia)) as G. rewrite !Z.add_0_r in G. rewrite G. cbn [obind]. rewrite Hm.
  cbn [cell_at nth Z.to_nat]. unfold cell_at. cbn [nth Z.to_nat].
  destruct Ht as [->|(q & -> & Hq)]; [reflexivity|]. change (Ascii.eqb "$" "$") with true. cbv iota.
  rewrite cut_none; [reflexivity|]. intros [E|E]; [discriminate|tauto].
Qed.
Lemma show_table : shows_table g v w m.
Proof using Hwf Hre Hedge.
  split; [exact show_scalar|]. split; [exact show_vector|]. split; [exact show_matrix|].
  split; [exact show_dictionary|exact show_reference].
Qed.
End Table.

Lemma cell_is_name (n name : str) : cell_is (CStr n : cell) name = true <-> same_up_to_case n name.
Proof. cbn [cell_is]. apply ci_eqb_iff. Qed.

Lemma show_obj g tag type ch : edge g -> Forall (fun p => wf (snd p) -> forall r c, realises g r c (snd p) ->
    shows g (View r (r + height (snd p)) c) (snd p)) ch ->
  wf (Obj tag type ch) -> forall r c, realises g r c (Obj tag type ch) ->
  shows g (View r (r + height (Obj tag type ch)) c) (Obj tag type ch).
Proof.
  intros Hedge IH Hwf r c (R1 & R2 & R3 & R5 & R6). pose proof (height_pos _ Hwf) as Hpos.
  apply wf_obj_inv in Hwf as (Htag & Htype & Hne & Hw & Hsort). change (height (Obj tag type ch)) with (heights ch) in *.
  rewrite span_obj in R5. pose proof (spans_pos ch) as Hs0. pose proof (spans_in ch) as Hcov.
  assert (get g r c = Ok (CStr (header tag type))) as G0.
  { rewrite get_ok by lia. pose proof (R6 0 0 ltac:(lia) ltac:(lia) ltac:(lia)) as G. rewrite !Z.add_0_r in G. rewrite G. now rewrite content_obj. }
  assert (type_of g (View r (r + heights ch) c) = Ok type) as Gty.
  { unfold type_of. cbn [lo col]. rewrite G0. cbn [obind]. now rewrite (header_cut _ _ Htag). }
  assert (forall i, 0 <= i < heights ch -> at_ g (r + i) (c + 1) = contents ch i 1) as Hname.
  { intros i Hi. rewrite R6 by lia. now rewrite content_obj. }
  assert (forall name, child_start g (View r (r + heights ch) c) name =
    first_row (fun x => cell_is x name) g (c + 1) r (Z.to_nat (heights ch))) as Hcs.
  { intros name. unfold child_start. rewrite Gty. cbn [obind]. destruct type; [congruence|]. cbn [is_nil col lo hi].
    replace (c + 1 <? g_cols g) with true by lia. f_equal. f_equal. lia. }
  constructor.
  - exact Gty.
  - unfold tag_of. cbn [lo col]. rewrite G0. cbn [obind]. f_equal. pose proof (header_cut _ type Htag) as Hcut.
    destruct Htag as [->|(q & -> & Hq)]; [reflexivity|]. unfold header in *. cbn [app] in *. rewrite Hcut. reflexivity.
  - intros n k name Hin Hsame. apply in_split in Hin as (a & b & ->).
    assert (wf_list a /\ wf k /\ n <> [] /\ wf_list b) as (Wa & Wk & Hn & Wb).
    { unfold wf_list in Hw. apply Forall_app in Hw as [X1 X2]. inversion X2 as [|? ? [X3 X4] X5]; subst. auto. }
    rewrite heights_app, heights_cons in *. pose proof (heights_pos a Wa) as Pa. pose proof (heights_pos b Wb) as Pb. pose proof (height_pos k Wk) as Pk.
    assert (at_ g (r + heights a) (c + 1) = CStr n) as Hat.
    { rewrite Hname by lia. rewrite <- (Z.add_0_r (heights a)). rewrite contents_app by (assumption || lia). rewrite contents_cons.
      replace (0 <? height k) with true by lia. reflexivity. }
    assert (child_start g (View r (r + (heights a + (height k + heights b))) c) name = Ok (Some (r + heights a))) as Hst.
    { rewrite Hcs. replace (Z.to_nat (heights a + (height k + heights b))) with (Z.to_nat (heights a) + Z.to_nat (height k + heights b))%nat by lia.
      replace (r + heights a) with (r + Z.of_nat (Z.to_nat (heights a))) in * by lia.
      apply first_row_hit; try lia.
      - intros i Hi. replace i with (r + (i - r)) by lia. rewrite Hname by lia.
        destruct (contents_name a ((n, k) :: b) (i - r) Wa ltac:(lia)) as [->|(n' & k' & Hin' & ->)]; [reflexivity|].
        destruct (cell_is (CStr n') name) eqn:E; [|reflexivity]. apply cell_is_name in E. exfalso.
        pose proof (sorted_before a b (n, k) Hsort (n', k') Hin') as Hlt. cbn [fst] in Hlt.
        assert (ci_compare n' n = Eq) by (apply ci_compare_eq; eapply same_trans; [exact E|now apply same_sym]). congruence.
      - rewrite Hat. now apply cell_is_name. }
    split; [unfold has_child; now rewrite Hst|].
    exists (View (r + heights a) (r + heights a + height k) (c + 2)). split.
    + unfold child. rewrite Hst. cbn [obind col hi].
      set (p := fun x => negb (is_empty x)).
      assert (forall i, r + heights a + 1 <= i < r + heights a + height k -> p (at_ g i (c + 1)) = false) as Hblank.
      { intros i Hi. replace i with (r + (heights a + (i - r - heights a))) by lia. rewrite Hname by lia.
        rewrite contents_app by (assumption || lia). rewrite contents_cons. replace (i - r - heights a <? height k) with true by lia.
        change (1 =? 1) with true. cbv iota. replace (i - r - heights a =? 0) with false by lia. reflexivity. }
      destruct b as [|[n2 k2] b].
      * change (heights []) with 0 in *. rewrite first_row_none; try lia; [cbn [obind]; do 2 f_equal; lia|].
        intros i Hi. apply Hblank. lia.
      * inversion Wb as [|? ? [Hn2 Wk2] Wb']; subst. cbn [fst snd] in *. rewrite heights_cons in *. pose proof (height_pos k2 Wk2) as Pk2. pose proof (heights_pos b Wb') as Pb'.
        replace (Z.to_nat (r + (heights a + (height k + (height k2 + heights b))) - (r + heights a + 1)))
          with (Z.to_nat (height k - 1) + Z.to_nat (height k2 + heights b))%nat by lia.
        rewrite first_row_hit; try lia.
        -- cbn [obind]. do 2 f_equal. lia.
        -- intros i Hi. apply Hblank. lia.
        -- replace (r + heights a + 1 + Z.of_nat (Z.to_nat (height k - 1))) with (r + (heights a + height k)) by lia. rewrite Hname by lia.
           rewrite contents_app by (assumption || lia). rewrite contents_cons. replace (height k <? height k) with false by lia.
           rewrite contents_cons. replace (height k - height k <? height k2) with true by lia. change (1 =? 1) with true. cbv iota.
           replace (height k - height k =? 0) with true by lia. unfold p. destruct n2; [congruence|reflexivity].
    + rewrite Forall_forall in IH. apply (IH (n, k)); [apply in_or_app; right; now left|exact Wk|].
      pose proof (Hcov n k ltac:(apply in_or_app; right; now left)) as Lwk. cbn [snd] in *.
      repeat split; try lia.
      intros i j Hi Hj Hc. replace (r + heights a + i) with (r + (heights a + i)) by lia. replace (c + 2 + j) with (c + (2 + j)) by lia.
        rewrite R6 by lia. rewrite content_obj. replace (2 + j =? 0) with false by lia. rewrite contents_app by (assumption || lia).
        rewrite contents_cons. replace (i <? height k) with true by lia. replace (2 + j =? 1) with false by lia. f_equal. lia.
  - intros name Hno. assert (child_start g (View r (r + heights ch) c) name = Ok None) as Hst.
    { rewrite Hcs. apply first_row_none; try lia. intros i Hi. replace i with (r + (i - r)) by lia. rewrite Hname by lia.
      destruct (contents_name ch [] (i - r) Hw ltac:(lia)) as [G|(n' & k' & Hin' & G)]; rewrite app_nil_r in G; rewrite G; [reflexivity|].
      destruct (cell_is (CStr n') name) eqn:E; [|reflexivity]. apply cell_is_name in E. exfalso. exact (Hno _ _ Hin' E). }
    split; [unfold has_child; now rewrite Hst|unfold child; now rewrite Hst].
Qed.
Lemma show_tree (g : grid) (t : node) : edge g -> wf t -> forall r c, realises g r c t -> shows g (View r (r + height t) c) t.
Proof.
  intros Hedge. induction t as [w m|tag type ch IH] using node_ind2; intros Hwf r c Hre.
  - apply shows_leaf. apply show_table; assumption.
  - now apply show_obj.
Qed.

Lemma splat_facts (t : node) g : wf t -> is_object t -> splat t = Ok g ->
  g_rows g = height t /\ cols t = Ok (g_cols g) /\ 2 <= g_cols g /\ (height t + 1) * g_cols g <= 2147483647 /\ edge g /\
  forall i j, 0 <= i < height t -> 0 <= j < g_cols g -> at_ g i j = content t i j.
Proof.
  intros Hwf Hob Hs. pose proof (rows_ok t Hwf) as Hr. pose proof (height_pos t Hwf) as Hpos. unfold splat in Hs. rewrite Hr in Hs. cbn [obind] in Hs.
  destruct (cols t) as [w| | |] eqn:Hw; cbn [obind] in Hs; try discriminate. unfold new_grid in Hs.
  destruct (int32 ((height t + 1) * w)) as [q| | |] eqn:Ei; cbn [obind] in Hs; try discriminate.
  assert ((height t + 1) * w <= 2147483647) as Hfit.
  { unfold int32 in Ei. destruct ((-2147483648 <=? (height t + 1) * w) && ((height t + 1) * w <=? 2147483647)) eqn:E; [lia|discriminate]. }
  assert (2 <= w) as Hw1.
  { destruct t as [|tag type ch]; [contradiction|]. rewrite cols_obj in Hw. destruct (cols_sum 0 ch) eqn:Es; cbn [obind] in Hw; try discriminate.
    apply int32_ok in Hw. apply cols_sum_covers in Es as [G _]; lia. }
  set (g0 := Grid (height t) w (fun _ => CEmpty)) in *.
  destruct (write_ok t Hwf w Hw g0 0 0 ltac:(lia) ltac:(cbn [g0 g_rows]; lia) ltac:(lia) ltac:(cbn [g0 g_cols]; lia) ltac:(reflexivity))
    as (g' & Hg & [S1 S2] & A). rewrite Hs in Hg. injection Hg as <-. cbn [g0 g_rows g_cols] in *. rewrite S2.
  split; [exact S1|]. split; [reflexivity|]. split; [exact Hw1|]. split; [exact Hfit|]. split.
  - intros i Hi. rewrite S2. specialize (A i 0). unfold at_ in A. rewrite S2, Z.add_0_r in A.
    rewrite A by lia. destruct ((0 <=? i) && (i <? 0 + height t) && (0 <=? 0)); [|reflexivity].
    destruct t as [|tag type ch]; [contradiction|]. rewrite content_obj. replace (0 - 0 =? 0) with true by lia. replace (i - 0 =? 0) with false by lia. reflexivity.
  - intros i j Hi Hj. rewrite A by lia. rewrite !Z.sub_0_r. replace ((0 <=? i) && (i <? 0 + height t) && (0 <=? j)) with true by lia. reflexivity.
Qed.
Lemma splat_shows (t : node) h w : wf t -> is_object t -> rows t = Ok h -> cols t = Ok w -> (h + 1) * w <= 2147483647 ->
  exists g : grid, splat t = Ok g /\ g_rows g = h /\ shows g (View 0 (g_rows g) 0) t.
Proof.
  intros Hwf Hob Hh Hw Hfit. pose proof (rows_ok t Hwf) as Hr. rewrite Hh in Hr. injection Hr as ->.
  pose proof (height_pos t Hwf) as Hpos.
  assert (0 <= w) as Hw0.
  { destruct t as [|tag type ch]; [contradiction|]. rewrite cols_obj in Hw. destruct (cols_sum 0 ch) eqn:Es; cbn [obind] in Hw; try discriminate.
    apply int32_ok in Hw. apply cols_sum_covers in Es as [G _]; lia. }
  assert (exists g, splat t = Ok g) as (g & Hg).
  { unfold splat. rewrite Hh, Hw. cbn [obind]. unfold new_grid.
    unfold int32 at 1. replace ((-2147483648 <=? (height t + 1) * w) && ((height t + 1) * w <=? 2147483647)) with true by nia. cbn [obind].
    set (g0 := Grid (height t) w (fun _ => CEmpty)).
    destruct (write_ok t Hwf w Hw g0 0 0 ltac:(lia) ltac:(cbn [g0 g_rows]; lia) ltac:(lia) ltac:(cbn [g0 g_cols]; lia) ltac:(reflexivity))
      as (g & Hg & _). eauto. }
  destruct (splat_facts t g Hwf Hob Hg) as (F1 & F2 & F3 & F4 & F5 & F6). exists g. split; [exact Hg|]. split; [exact F1|]. rewrite F1.
  apply (show_tree g t) with (r := 0) (c := 0); [exact F5|exact Hwf|].
  pose proof (span_cols t Hwf _ F2). repeat split; try lia.
  intros i j Hi Hj Hc. rewrite !Z.add_0_l in *. apply F6; lia.
Qed.
End Proofs.
