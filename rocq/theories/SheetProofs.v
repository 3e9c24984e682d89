From Coq Require Import Ascii ZArith List Bool Reals Lia Arith.
From Verif Require Import Base Vec StringModel StringSpec StringProofs OMap DictModel ExcelModel ExcelSpec ExcelProofs ExcelProps RepoModel RepoSpec RepoProofs InterpModel CubicModel SmoothModel SheetModel SheetSpec.
Import ListNotations.
Open Scope nat_scope.

(** * reading *)
Lemma text_read o s b : is_text o s -> to_string o b = Ok s.
Proof.
  intros (k & -> & L & Z). destruct (C76_values (T:=R) IZR (fun _ => Throw) (fun _ _ => true) (fun _ _ => true) (fun t => t) k b) as (_ & _ & _ & _ & H).
  exact (H s L Z).
Qed.
Lemma items_read (l : list R) : forall pre, read_items to_double (pre ++ map ONum l) (length l) (length pre) = Ok l.
Proof.
  induction l as [|x l IH]; intros pre; cbn [length read_items]; [reflexivity|]. unfold cell_at.
  rewrite nth_error_app2, Nat.sub_diag by lia. cbn [map nth_error obind is_blank to_double].
  specialize (IH (pre ++ [ONum x])). rewrite <- app_assoc, app_length in IH. cbn [app length] in IH. rewrite Nat.add_1_r in IH. rewrite IH. reflexivity.
Qed.
Lemma numbers_read o l b : is_numbers o l -> l <> [] -> doubles o b = Ok l.
Proof.
  intros (k & [->| ->]) N; unfold doubles, read_vector; cbn [is_blank]; pose proof (items_read l []) as H; cbn [app length] in H.
  - rewrite Nat.eqb_refl, orb_true_r, Nat.mul_1_r, H. cbn [obind]. destruct l; [congruence|reflexivity].
  - cbn [Nat.eqb orb]. rewrite Nat.mul_1_l, H. cbn [obind]. destruct l; [congruence|reflexivity].
Qed.
Lemma ints_items as_int near_int (l : list Z) : Forall (fun k => as_int (IZR k) = Ok k /\ near_int (IZR k) k = true) l -> forall pre,
  read_items (to_int as_int near_int) (pre ++ map ONum (map IZR l)) (length l) (length pre) = Ok l.
Proof.
  intros F. induction F as [|x l [H1 H2] F IH]; intros pre; cbn [length read_items]; [reflexivity|]. unfold cell_at.
  rewrite nth_error_app2, Nat.sub_diag by lia. cbn [map nth_error obind is_blank to_int]. rewrite H1. cbn [obind]. rewrite H2. cbn [obind].
  specialize (IH (pre ++ [ONum (IZR x)])). rewrite <- app_assoc, app_length in IH. cbn [app length] in IH. rewrite Nat.add_1_r in IH. rewrite IH. reflexivity.
Qed.
Lemma ints_read as_int near_int o l b : Forall (fun k => as_int (IZR k) = Ok k /\ near_int (IZR k) k = true) l -> is_numbers o (map IZR l) -> l <> [] ->
  ints as_int near_int o b = Ok l.
Proof.
  intros F (k & Hk) N. pose proof (ints_items as_int near_int l F []) as H. cbn [app length] in H. rewrite map_length in Hk.
  destruct Hk as [->| ->]; unfold ints, read_vector; cbn [is_blank].
  - rewrite Nat.eqb_refl, orb_true_r, Nat.mul_1_r, H. cbn [obind]. destruct l; [congruence|reflexivity].
  - cbn [Nat.eqb orb]. rewrite Nat.mul_1_l, H. cbn [obind]. destruct l; [congruence|reflexivity].
Qed.
Lemma concat_nth (c : nat) (m : list (list R)) : Forall (fun row => length row = c) m -> forall i j, i < length m -> j < c ->
  nth (i * c + j) (concat (map (map ONum) m)) OMissing = ONum (nth j (nth i m []) 0%R).
Proof.
  intros F. induction F as [|row m Hr F IH]; intros i j Hi Hj; [cbn in Hi; lia|]. cbn [map concat]. destruct i as [|i].
  - cbn [Nat.mul Nat.add nth]. rewrite app_nth1 by (rewrite map_length; lia). rewrite (nth_indep _ OMissing (ONum 0%R)) by (rewrite map_length; lia). apply (map_nth ONum).
  - rewrite app_nth2 by (rewrite map_length; nia). rewrite map_length, Hr. cbn [length] in Hi. replace (S i * c + j - c) with (i * c + j) by nia. rewrite IH by lia. reflexivity.
Qed.
Lemma concat_length (c : nat) (m : list (list R)) : Forall (fun row => length row = c) m -> length (concat (map (map (@ONum R)) m)) = length m * c.
Proof. intros F. induction F as [|row m Hr F IH]; [reflexivity|]. cbn [map concat length]. rewrite app_length, map_length, IH. lia. Qed.
Lemma concat_num (m : list (list R)) : Forall (fun o => is_blank (N:=R) o = false) (concat (map (map ONum) m)).
Proof. induction m as [|row m IH]; cbn [map concat]; [constructor|]. apply Forall_app. split; [|exact IH]. clear. induction row; constructor; auto. Qed.
Lemma table_block (nr nc : nat) (cells : list value) : length cells = nr * nc -> Forall (fun o => is_blank o = false) cells -> 1 <= nr -> 1 <= nc -> nonblank_size nr nc cells = Ok (nr, nc).
Proof.
  intros L F Hr Hc. assert (A : forall i j, i < nr -> j < nc -> ~ blank nc cells i j).
  { intros i j Hi Hj H. unfold blank, at_place in H. rewrite Forall_forall in F. rewrite (F (nth (i * nc + j) cells OMissing)) in H; [discriminate|]. apply nth_In. nia. }
  destruct (Nat.eq_dec nr 1) as [E|E]; [|destruct (Nat.eq_dec nc 1) as [E'|E']].
  - destruct (C76_line nr nc cells L) as (n & -> & Ln & H1 & H2); [left; lia|]. subst nr. cbn [Nat.eqb]. destruct (Nat.lt_ge_cases n (length cells)) as [G|G].
    + specialize (H2 G). rewrite Forall_forall in F. rewrite (F (nth n cells OMissing)) in H2 by (now apply nth_In). discriminate.
    + repeat f_equal. lia.
  - destruct (C76_line nr nc cells L) as (n & -> & Ln & H1 & H2); [right; lia|]. rewrite (proj2 (Nat.eqb_neq nr 1) E). destruct (Nat.lt_ge_cases n (length cells)) as [G|G].
    + specialize (H2 G). rewrite Forall_forall in F. rewrite (F (nth n cells OMissing)) in H2 by (now apply nth_In). discriminate.
    + subst nc. repeat f_equal. lia.
  - destruct (C76_block nr nc cells L ltac:(lia) ltac:(lia)) as [_ H]. destruct H as (r & c & -> & [(R1 & C1 & B1 & B2) _]).
    { intros (B & _). exact (A 0 0 ltac:(lia) ltac:(lia) B). }
    assert (r = nr). { destruct B1 as [->|B1]; [reflexivity|]. destruct (Nat.eq_dec r nr) as [->|Q]; [reflexivity|]. exfalso. exact (A r 0 ltac:(lia) ltac:(lia) (B1 0 ltac:(lia))). }
    assert (c = nc). { destruct B2 as [->|B2]; [reflexivity|]. destruct (Nat.eq_dec c nc) as [->|Q]; [reflexivity|]. exfalso. exact (A 0 c ltac:(lia) ltac:(lia) (B2 0 ltac:(lia))). }
    subst. reflexivity.
Qed.
Lemma table_read o c m b : is_table o c m -> m <> [] -> 1 <= c -> to_double_matrix o b = Ok m.
Proof.
  intros (F & k & ->) N Hc. assert (1 <= length m) as Hm by (destruct m; [congruence|cbn; lia]).
  pose proof (concat_length c m F) as L. pose proof (table_block _ _ _ L (concat_num m) Hm Hc) as S1.
  destruct (C76_matrix to_double k (length m) c _ b false (length m) c L S1 ltac:(lia) ltac:(lia)) as [P Q].
  assert (RA : read_as to_double c (concat (map (map ONum) m)) (length m) c m).
  { split; [reflexivity|]. intros i Hi. assert (length (nth i m []) = c) as Li by (rewrite Forall_forall in F; apply F, nth_In, Hi). split; [exact Li|].
    intros j Hj. exists (nth j (nth i m []) 0%R). split; [apply nth_error_nth'; lia|]. unfold at_place. rewrite (concat_nth c m F i j Hi Hj). reflexivity. }
  destruct Q as [m' E]. { intros i j Hi Hj. destruct RA as [_ RA]. destruct (RA i Hi) as [_ G]. destruct (G j Hj) as (x & _ & X). eauto. }
  unfold to_double_matrix. rewrite E. f_equal. exact (read_as_unique to_double c _ _ _ _ _ (P m' E) RA).
Qed.

(** * replies *)
Lemma reply_text s : reply [RScalar (CStr s)] = Ok (one_text s).
Proof. reflexivity. Qed.
Lemma reply_number x : reply [RScalar (CNum x)] = Ok (one_number x).
Proof. reflexivity. Qed.
Lemma write_num (x : R) n : fst (write_cell IZR (fun t : R => t) (CNum x) n) = ONum x. Proof. reflexivity. Qed.
Lemma reply_column l : l <> [] -> reply [RVector (map CNum l)] = Ok (column l).
Proof.
  intros N. assert (F : Forall rectangular [RVector (N:=R) (T:=R) (map CNum l)]) by (constructor; [exact Logic.I|constructor]).
  assert (Er : n_rows [RVector (N:=R) (T:=R) (map CNum l)] = length l) by (cbn; rewrite map_length; reflexivity).
  assert (1 <= length l) as Hl by (destruct l; [congruence|cbn; lia]).
  destruct (C76_layout IZR (fun t : R => t) _ F) as (cells & bl & E & Rg & _ & L); [rewrite Er; exact Hl|].
  unfold reply. rewrite E. cbn [obind fst]. rewrite Er in *. change (columns [RVector (map CNum l)]) with [map (CNum (N:=R) (T:=R)) l] in *. cbn [length] in *. unfold column. do 2 f_equal.
  unfold range in Rg. apply (nth_ext _ _ OMissing OMissing); [rewrite map_length; lia|]. intros i Hi. assert (i < length l) as Hi' by lia.
  specialize (L i 0 Hi' ltac:(lia)). cbn [nth] in L. rewrite nth_error_map, (nth_error_nth' l 0%R Hi') in L. cbn [option_map] in L. destruct L as [n L].
  unfold at_place in L. rewrite Nat.mul_1_r, Nat.add_0_r in L. rewrite L, write_num.
  rewrite (nth_indep _ OMissing (ONum 0%R)) by (rewrite map_length; lia). symmetry. apply (map_nth ONum).
Qed.
Lemma reply_texts l : l <> [] -> exists o, reply [RVector (map CStr l)] = Ok o /\ shows_texts o l.
Proof.
  intros N. assert (F : Forall rectangular [RVector (N:=R) (T:=R) (map CStr l)]) by (constructor; [exact Logic.I|constructor]).
  assert (Er : n_rows [RVector (N:=R) (T:=R) (map CStr l)] = length l) by (cbn; rewrite map_length; reflexivity).
  assert (1 <= length l) as Hl by (destruct l; [congruence|cbn; lia]).
  destruct (C76_layout IZR (fun t : R => t) _ F) as (cells & bl & E & Rg & _ & L); [rewrite Er; exact Hl|].
  unfold reply. rewrite E. cbn [obind fst]. rewrite Er in *. change (columns [RVector (map CStr l)]) with [map (CStr (N:=R) (T:=R)) l] in *. cbn [length] in *.
  eexists. split; [reflexivity|]. exists cells. split; [reflexivity|]. unfold range in Rg.
  assert (H : forall i, i < length l -> exists b, nth i cells OMissing = OStr b (to_pascal (nth i l []))).
  { intros i Hi. specialize (L i 0 Hi ltac:(lia)). cbn [nth] in L. rewrite nth_error_map, (nth_error_nth' l [] Hi) in L. cbn [option_map] in L. destruct L as [n L].
    unfold at_place in L. rewrite Nat.mul_1_r, Nat.add_0_r in L. exists n. exact L. }
  assert (Lc : length cells = length l) by lia. clear -H Lc. revert l H Lc. induction cells as [|c cells IH]; intros [|s l] H Lc; try discriminate; constructor.
  - exact (H 0 ltac:(cbn; lia)).
  - apply IH; [|cbn in Lc; lia]. intros i Hi. exact (H (S i) ltac:(cbn; lia)).
Qed.
Lemma reply_table m : m <> [] -> Forall (fun row => length row = length (hd [] m)) m ->
  exists o, reply [RMatrix (length (hd [] m)) (map (map CNum) m)] = Ok o /\ shows_table o m.
Proof.
  intros N Fm. set (c := length (hd [] m)) in *. assert (F : Forall rectangular [RMatrix (N:=R) (T:=R) c (map (map CNum) m)]).
  { constructor; [|constructor]. cbn. rewrite Forall_map. eapply Forall_impl; [|exact Fm]. intros row Hr. cbn. now rewrite map_length. }
  assert (Er : n_rows [RMatrix (N:=R) (T:=R) c (map (map CNum) m)] = length m) by (cbn; rewrite map_length; reflexivity).
  assert (1 <= length m) as Hl by (destruct m; [congruence|cbn; lia]).
  destruct (C76_layout IZR (fun t : R => t) _ F) as (cells & bl & E & Rg & _ & L); [rewrite Er; exact Hl|].
  unfold reply. rewrite E. cbn [obind fst]. rewrite Er in *.
  assert (Ec : columns [RMatrix (N:=R) (T:=R) c (map (map CNum) m)] = columns_of c (map (map CNum) m)) by (unfold columns; cbn [scalars vectors matrices flat_map app fst snd]; now rewrite app_nil_r).
  rewrite Ec in *. rewrite columns_length in *. eexists. split; [reflexivity|]. exists cells. split; [reflexivity|]. split; [exact Rg|]. intros i j Hi Hj. fold c in Hj |- *.
  specialize (L i j Hi Hj). rewrite (columns_nth c (map (map CNum) m) i j) in L.
  2:{ rewrite Forall_map. eapply Forall_impl; [|exact Fm]. intros row Hr. cbn. now rewrite map_length. }
  rewrite (proj2 (Nat.ltb_lt j c) Hj) in L.
  assert (Lr : length (nth i m []) = c) by (rewrite Forall_forall in Fm; apply Fm, nth_In, Hi).
  pose proof (map_nth (map (CNum (N:=R) (T:=R))) m [] i) as MN. cbn [map] in MN. rewrite MN in L.
  rewrite nth_error_map, (nth_error_nth' (nth i m []) 0%R) in L by lia. cbn [option_map] in L. destruct L as [n L]. rewrite L. reflexivity.
Qed.

(** * sessions *)
Section Session.
Variable uniq : Z -> str.
Hypothesis Huniq : address_text uniq.
Variable regex : str -> option (str -> bool).
Variable as_int : R -> outcome Z.
Variable near_int : R -> Z -> bool.
Notation holds := (holds (P:=shape) uniq).
Notation good := (good (P:=shape) uniq).
Notation step := (step uniq regex as_int near_int).
Notation run := (run uniq regex as_int near_int).
Definition inv (m : objects) : Prop :=
  good m /\ (forall x y, holds m x -> holds m y -> oaddr x = oaddr y -> x = y) /\
  (forall x y, holds m x -> holds m y -> oname x <> [] -> same_up_to_case (otype x) (otype y) -> same_up_to_case (oname x) (oname y) -> x = y).
Lemma has_holds (m : objects) s : good m -> (has m s <-> holds m s).
Proof.
  intros G. unfold has. rewrite in_map_iff. split.
  - intros ([k o] & E & H). cbn in E. subst o. eapply in_holds; eauto.
  - intros H. exists (tag uniq s, s). auto.
Qed.
Lemma inv_nil : inv [].
Proof. split; [split; [constructor|intros k o []]|]. split; intros x y []. Qed.
Lemma presentable_held m s : inv m -> holds m s -> presentable (holds m) s.
Proof. intros (G & A & _) H. destruct (holds_wf uniq m s G H) as [W1 W2]. split; [exact W1|]. split; [exact W2|]. intros x Hx Ea. exact (A x s Hx H Ea). Qed.
Lemma load_spec m s : inv m -> presentable (holds m) s -> snd (load uniq m s) = tag uniq s /\ inv (fst (load uniq m s)) /\
  forall x, holds (fst (load uniq m s)) x <-> x = s \/ (holds m x /\ ~ replaced ENameNonempty s x).
Proof.
  intros (G & A & U) P. unfold load, add. destruct (add_erase_spec uniq m s ENameNonempty G P) as [G1 H1].
  assert (P1 : presentable (holds (add_erase m s ENameNonempty)) s) by (eapply presentable_sub; [|exact P]; intros x Hx; now apply H1).
  destruct (add_insert_spec uniq Huniq _ s G1 P1) as [G2 H2]. cbn [fst snd add_insert].
  assert (H : forall x, holds (minsert ci_compare (add_erase m s ENameNonempty) (tag uniq s) s) x <-> x = s \/ (holds m x /\ ~ replaced ENameNonempty s x)).
  { intros x. rewrite H2, H1. tauto. }
  split; [reflexivity|]. split; [|exact H]. split; [exact G2|]. split.
  - intros x y Hx Hy Ea. apply H in Hx as [->|[Hx _]]; apply H in Hy as [->|[Hy _]]; auto.
    + symmetry. apply (proj2 (proj2 P)); auto.
    + apply (proj2 (proj2 P)); auto.
  - intros x y Hx Hy Nx T1 T2. apply H in Hx as [->|[Hx Rx]]; apply H in Hy as [->|[Hy Ry]]; auto.
    + exfalso. apply Ry. cbn [replaced]. split; [exact Nx|]. split; now apply same_sym.
    + exfalso. apply Rx. cbn [replaced]. split; [|split; assumption]. intros E. rewrite E in T2. inversion T2. congruence.
Qed.
Lemma load_held m s : inv m -> holds m s -> snd (load uniq m s) = tag uniq s /\ inv (fst (load uniq m s)) /\ forall x, holds (fst (load uniq m s)) x <-> holds m x.
Proof.
  intros I0 Hs. destruct (load_spec m s I0 (presentable_held m s I0 Hs)) as (E & I1 & H). split; [exact E|]. split; [exact I1|]. intros x. rewrite H. split.
  - intros [->|[Hx _]]; assumption.
  - intros Hx. destruct (list_eq_dec ascii_dec (oname s) []) as [En|En].
    + right. split; [exact Hx|]. intros (Q & _). congruence.
    + destruct (ci_eqb (otype x) (otype s)) eqn:E1; [destruct (ci_eqb (oname x) (oname s)) eqn:E2|].
      * apply ci_eqb_iff in E1, E2. left. symmetry. apply (proj2 (proj2 I0)); auto using same_sym.
      * right. split; [exact Hx|]. intros (_ & _ & Q). apply ci_eqb_iff in Q. congruence.
      * right. split; [exact Hx|]. intros (_ & Q & _). apply ci_eqb_iff in Q. congruence.
Qed.
Lemma load_all_spec l : forall m, inv m -> (forall s, In s l -> holds m s) ->
  snd (load_all uniq m l) = map (tag uniq) l /\ inv (fst (load_all uniq m l)) /\ forall x, holds (fst (load_all uniq m l)) x <-> holds m x.
Proof.
  induction l as [|s l IH]; intros m I0 H; cbn [load_all]; [split; [reflexivity|]; split; [exact I0|]; reflexivity|].
  destruct (load_held m s I0 (H s (or_introl eq_refl))) as (E & I1 & H1). destruct (load uniq m s) as [m1 t]. cbn [fst snd] in *.
  destruct (IH m1 I1) as (E2 & I2 & H2); [intros x Hx; apply H1, H; now right|]. destruct (load_all uniq m1 l) as [m2 ts]. cbn [fst snd] in *.
  split; [cbn [map]; congruence|]. split; [exact I2|]. intros x. now rewrite H2.
Qed.
Lemma inv_sub m m' : inv m -> good m' -> (forall x, holds m' x -> holds m x) -> inv m'.
Proof. intros (_ & A & U) G S0. split; [exact G|]. split; intros x y Hx Hy; [apply A|apply U]; auto. Qed.
Lemma erase_object_eq m s : inv m -> presentable (holds m) s -> inv (fst (erase_object uniq m s)) /\
  (forall x, holds (fst (erase_object uniq m s)) x <-> holds m x /\ x <> s) /\ (snd (erase_object uniq m s) = true <-> holds m s).
Proof.
  intros I0 P. pose proof (proj1 I0) as G. unfold erase_object. pose proof (mfind_object uniq Huniq m s G P) as F. destruct (mfind ci_compare m (tag uniq s)) as [o|].
  - destruct F as [-> Hs]. destruct (erase_object_spec uniq Huniq m s G P) as [G1 H1]. cbn [fst snd]. split; [eapply inv_sub; [exact I0|exact G1|]; intros x Hx; now apply H1|].
    split; [exact H1|]. tauto.
  - cbn [fst snd]. split; [exact I0|]. split; [|split; [discriminate|tauto]]. intros x. split; [|tauto]. intros Hx. split; [exact Hx|]. congruence.
Qed.
Lemma erase_each_spec l : forall m, inv m -> (forall s, In s l -> presentable (holds m) s) ->
  inv (fst (erase_each uniq m l)) /\ (forall x, holds (fst (erase_each uniq m l)) x <-> holds m x /\ ~ In x l) /\
  counts (snd (erase_each uniq m l)) (fun x => holds m x /\ In x l).
Proof.
  induction l as [|s l IH]; intros m I0 P; cbn [erase_each].
  - split; [exact I0|]. split; [cbn; tauto|]. exists []. split; [split; [constructor|]; cbn; tauto|reflexivity].
  - destruct (erase_object_eq m s I0 (P s (or_introl eq_refl))) as (I1 & H1 & B1). destruct (erase_object uniq m s) as [m1 b]. cbn [fst snd] in *.
    destruct (IH m1 I1) as (I2 & H2 & C2). { intros x Hx. eapply presentable_sub; [|apply P; now right]. intros y Hy. now apply H1. }
    destruct (erase_each uniq m1 l) as [m2 n]. cbn [fst snd] in *. split; [exact I2|]. split.
    + intros x. rewrite H2, H1. cbn [In]. split; [intros [[Q1 Q2] Q3]; split; [exact Q1|]; intros [->|Q]; auto|intros [Q1 Q2]; split; [split; [exact Q1|]; intros ->; apply Q2; auto|intros Q; apply Q2; auto]].
    + destruct C2 as (k & [N1 L1] & ->). destruct b.
      * assert (Hs : holds m s) by (now apply B1). exists (s :: k). split; [|cbn [length]; lia]. split.
        -- constructor; [|exact N1]. intros Q. apply L1 in Q as [Q _]. apply H1 in Q. tauto.
        -- intros x. cbn [In]. rewrite L1, H1. split; [intros [<-|[[Q1 Q2] Q3]]; auto|]. intros [Q1 [Q2|Q2]]; [auto|].
           assert (x = s \/ x <> s) as [->|Q]; [|auto|right; auto]. destruct (in_dec (fun a b => list_eq_dec ascii_dec a b) (tag uniq x) [tag uniq s]) as [[Q|[]]|Q].
           ++ left. symmetry. apply (proj1 (proj2 I0)); auto. apply (proj1 (tag_same uniq Huniq s x (holds_wf uniq m s (proj1 I0) Hs) (holds_wf uniq m x (proj1 I0) Q1))). rewrite Q. apply same_refl.
           ++ right. intros ->. apply Q. now left.
      * assert (Hs : ~ holds m s) by (intros Q; apply B1 in Q; discriminate). exists k. split; [|reflexivity]. split; [exact N1|].
        intros x. rewrite L1, H1. cbn [In]. split; [tauto|]. intros [Q1 [->|Q2]]; [tauto|]. split; [|exact Q2]. split; [exact Q1|congruence].
Qed.
(** fetching *)
Lemma fetch_held m s t : inv m -> holds m s -> same_up_to_case t (tag uniq s) -> fetch m t false = Ok (Some s).
Proof.
  intros I0 Hs Et. unfold fetch. pose proof (mfind_holds uniq m t (proj1 I0)) as F. destruct (mfind ci_compare m t) as [o|].
  - destruct F as [Ho Eo]. do 2 f_equal. apply (proj1 (proj2 I0)); auto. apply (proj1 (tag_same uniq Huniq o s (holds_wf uniq m o (proj1 I0) Ho) (holds_wf uniq m s (proj1 I0) Hs))). eapply same_trans; eauto.
  - exfalso. apply (F s Hs). now apply same_sym.
Qed.
Lemma fetch_inv m t r : inv m -> fetch m t false = Ok r -> exists s, r = Some s /\ holds m s /\ same_up_to_case (tag uniq s) t.
Proof.
  intros I0 E. unfold fetch in E. pose proof (mfind_holds uniq m t (proj1 I0)) as F. destruct (mfind ci_compare m t) as [o|]; [|discriminate].
  assert (r = Some o) by congruence. subst r. exists o. split; [reflexivity|exact F].
Qed.
Lemma to_handle_held m o s : inv m -> holds m s -> is_text o (tag uniq s) -> to_handle m o = Ok s.
Proof.
  intros I0 Hs T0. unfold to_handle. rewrite (text_read o _ false T0). cbn [obind]. rewrite (fetch_held m s _ I0 Hs (same_refl _)). cbn [obind].
  destruct (tag uniq s) eqn:E; [|reflexivity]. exfalso. unfold tag, base_tag, type_tag in E. discriminate.
Qed.
Lemma to_handle_inv m o s : inv m -> to_handle m o = Ok s -> holds m s /\ exists t, to_string o false = Ok t /\ same_up_to_case (tag uniq s) t.
Proof.
  intros I0 E. unfold to_handle in E. destruct (to_string o false) as [t| | |]; try discriminate. cbn [obind] in E. destruct t as [|c t]; [discriminate|].
  destruct (fetch m (c :: t) false) as [r| | |] eqn:F; try discriminate. destruct (fetch_inv m _ r I0 F) as (s' & -> & H & T0). cbn [obind] in E. assert (s' = s) by congruence. subst. eauto.
Qed.
(** steps *)
Lemma vector_map {A B} (f : value -> outcome A) (g : value -> outcome B) (Q : A -> B -> Prop) o b l : read_vector f o b = Ok l ->
  (forall o x, f o = Ok x -> In x l -> exists y, g o = Ok y /\ Q x y) -> exists k, read_vector g o b = Ok k /\ Forall2 Q l k.
Proof.
  assert (I0 : forall cells n k l, read_items f cells n k = Ok l -> (forall o x, f o = Ok x -> In x l -> exists y, g o = Ok y /\ Q x y) -> exists r, read_items g cells n k = Ok r /\ Forall2 Q l r).
  { clear l. intros cells n. induction n as [|n IH]; intros k l E H; cbn [read_items] in *.
    - assert (l = []) by congruence. subst. exists []. split; [reflexivity|constructor].
    - destruct (cell_at cells k) as [o'| | |]; try discriminate. cbn [obind] in *. destruct (is_blank o').
      + assert (l = []) by congruence. subst. exists []. split; [reflexivity|constructor].
      + destruct (f o') as [x| | |] eqn:Ef; try discriminate. cbn [obind] in E. destruct (read_items f cells n (Datatypes.S k)) as [r| | |] eqn:Er; try discriminate. cbn [obind] in E.
        assert (l = x :: r) by congruence. subst. destruct (H o' x Ef (or_introl eq_refl)) as (y & Ey & Qy). destruct (IH _ _ Er) as (r' & Er' & Qr); [intros o2 x2 E2 I2; apply (H o2 x2 E2); now right|]. rewrite Ey. cbn [obind]. rewrite Er'. cbn [obind]. eexists. split; [reflexivity|]. now constructor. }
  intros E H. unfold read_vector in *. destruct (is_blank o).
  - destruct b; [|discriminate]. assert (l = []) by congruence. subst. exists []. split; [reflexivity|constructor].
  - destruct o as [x|v s|v|v| | | |v r c cells]; try (match type of E with context [f ?o] => destruct (f o) as [x'| | |] eqn:Ef end; try discriminate; cbn [obind] in E; assert (l = [x']) by congruence; subst; destruct (H _ _ Ef (or_introl eq_refl)) as (y & Ey & Qy); rewrite Ey; cbn [obind]; eexists; split; [reflexivity|]; repeat constructor; assumption).
    destruct ((r =? 1) || (c =? 1)); [|discriminate]. destruct (read_items f cells (r * c) 0) as [k| | |] eqn:Ei; try discriminate. cbn [obind] in E.
    assert (l = k) by (destruct (negb (match k with [] => true | _ => false end) || b); congruence). subst k. destruct (I0 _ _ _ _ Ei H) as (k' & -> & F). cbn [obind].
    destruct F as [|u v' lu lv Qu F].
    + destruct b; [|discriminate]. exists []. split; [reflexivity|constructor].
    + cbn [negb orb] in *. eexists. split; [reflexivity|]. now constructor.
Qed.
Notation making := (making as_int near_int).
Notation sensible := (sensible as_int near_int).
Notation sensible_run := (sensible_run uniq regex as_int near_int).
Notation leaves := (leaves uniq as_int near_int).
Ltac open_outcome E := repeat match type of E with
  | obind ?r _ = _ => let Q := fresh "Q" in destruct r eqn:Q; cbn [obind] in E; try discriminate E
  | require ?b _ = _ => let Q := fresh "Q" in destruct b eqn:Q; cbn [require] in E; try discriminate E end.
Lemma making_type c a ty n s : making c = Some (a, Ok (ty, n, s)) -> ~ In "~"%char ty.
Proof.
  assert (T1 : ~ In "~"%char interp1_type) by (cbn; intuition discriminate). assert (T2 : ~ In "~"%char interp2_type) by (cbn; intuition discriminate).
  destruct c; cbn [SheetModel.making]; intros E; try discriminate;
    match type of E with Some (_, ?r) = _ => assert (X : r = Ok (ty, n, s)) by congruence end; clear E;
    unfold new_linear, new_smoothed, new_cubic, new_linear2, linear in X; open_outcome X; assert (ty = interp1_type \/ ty = interp2_type) as [->| ->] by (left; congruence) || (right; congruence); auto.
Qed.
Lemma made_presentable m c a ty n s : inv m -> sensible m c -> making c = Some (a, Ok (ty, n, s)) -> presentable (holds m) (Obj ty n a s).
Proof.
  intros I0 S0 E. destruct (S0 a ty n s E) as [N A]. split; [exact (making_type _ _ _ _ _ E)|]. split; [exact N|]. cbn [oaddr]. intros x Hx Ex. exfalso. apply (A x); [|exact Ex]. apply has_holds; [apply I0|exact Hx].
Qed.
Lemma step_make m c a ty n s : making c = Some (a, Ok (ty, n, s)) -> step m c = (fst (load uniq m (Obj ty n a s)), Ok (one_text (tag uniq (Obj ty n a s)))).
Proof. intros E. unfold SheetModel.step. rewrite E. cbn [then_reply]. destruct (load uniq m (Obj ty n a s)) as [m' t] eqn:L. unfold load, add in L. cbn [fst]. injection L as _ <-. f_equal. Qed.
Lemma handles_held m o b l : inv m -> read_vector (to_handle m) o b = Ok l -> (forall s, In s l -> holds m s) /\
  exists ts, read_vector (fun o => to_string o false) o b = Ok ts /\ Forall2 (fun s t => same_up_to_case (tag uniq s) t) l ts.
Proof.
  intros I0 E. destruct (vector_map (to_handle m) (fun o => to_string o false) (fun s t => holds m s /\ same_up_to_case (tag uniq s) t)) with (o := o) (b := b) (l := l) as (ts & E2 & F); [exact E| |].
  - intros o' x E' _. destruct (to_handle_inv m o' x I0 E') as (H & t & Et & St). eauto.
  - split; [|exists ts; split; [exact E2|]; clear - F; induction F as [|x y l0 ts0 [Q1 Q2] F IH]; constructor; auto]. intros s Hs. clear E E2. induction F as [|x y l ts [Q1 Q2] F IH]; destruct Hs; [subst; exact Q1|auto].
Qed.
Lemma found_held m f : inv m -> lists (find_where f m) (fun x => holds m x /\ f (tag uniq x) = true).
Proof. intros I0. rewrite find_where_filter. apply lists_filter. apply I0. Qed.
(** A call that makes an object *)
Lemma step_made m c a ty n s : inv m -> sensible m c -> making c = Some (a, Ok (ty, n, s)) -> let o := Obj ty n a s in
  inv (fst (step m c)) /\ snd (step m c) = Ok (one_text (tag uniq o)) /\ forall x, holds (fst (step m c)) x <-> x = o \/ (holds m x /\ ~ replaced ENameNonempty o x).
Proof.
  intros I0 S0 E o. rewrite (step_make m c a ty n s E). cbn [fst snd]. destruct (load_spec m o I0 (made_presentable _ _ _ _ _ _ I0 S0 E)) as (_ & I1 & H). split; [exact I1|]. split; [reflexivity|exact H].
Qed.
Lemma then_fst {A} m (r : outcome A) f : (forall x, fst (f x) = m) -> fst (then_reply m r f) = m.
Proof. intros H. destruct r; cbn [then_reply fst]; auto. Qed.
(** The other calls *)
Lemma step_other m c : inv m -> (forall a ty n s, making c <> Some (a, Ok (ty, n, s))) -> (forall h, c <> Erase h) ->
  inv (fst (step m c)) /\ forall x, holds (fst (step m c)) x <-> holds m x.
Proof.
  intros I0 NM NE. assert (K : forall m', m' = m -> inv m' /\ forall x, holds m' x <-> holds m x) by (intros m' ->; split; [exact I0|reflexivity]).
  unfold SheetModel.step. destruct (making c) as [[a r]|] eqn:E.
  - destruct r as [[[ty n] s]| | |]; [exfalso; eapply NM; eauto|apply K; reflexivity..].
  - destruct c; try discriminate; try (apply K; apply then_fst; reflexivity); try (apply K; reflexivity).
    + match goal with |- context [then_reply m ?r _] => destruct r as [f| | |] end; cbn [then_reply]; try (apply K; reflexivity).
      destruct (load_all_spec (find_where f m) m I0) as (_ & I1 & H1); [intros s Hs; apply (proj2 (found_held m f I0)) in Hs; apply Hs|].
      destruct (load_all uniq m (find_where f m)) as [m' ts]. exact (conj I1 H1).
    + exfalso. eapply NE. reflexivity.
Qed.
Lemma step_erase m h : inv m ->
  match read_vector (to_handle m) h false with
  | Ok l => inv (fst (step m (Erase h))) /\ (forall x, holds (fst (step m (Erase h))) x <-> holds m x /\ ~ In x l) /\
      exists n, snd (step m (Erase h)) = Ok (one_number (IZR n)) /\ counts n (fun x => holds m x /\ In x l)
  | r => fst (step m (Erase h)) = m /\ snd (step m (Erase h)) = obind r (fun _ => UB)
  end.
Proof.
  intros I0. unfold SheetModel.step. cbn [SheetModel.making]. destruct (read_vector (to_handle m) h false) as [l| | |] eqn:E; cbn [then_reply fst snd obind]; auto.
  destruct (handles_held m h false l I0 E) as [H _]. destruct (erase_each_spec l m I0) as (I1 & H1 & C1); [intros s Hs; apply presentable_held; auto|].
  destruct (erase_each uniq m l) as [m' n]. cbn [fst snd] in *. split; [exact I1|]. split; [exact H1|]. exists n. split; [apply reply_number|exact C1].
Qed.
Lemma classify c : (exists a ty n s, making c = Some (a, Ok (ty, n, s))) \/ (exists h, c = Erase h) \/ ((forall a ty n s, making c <> Some (a, Ok (ty, n, s))) /\ forall h, c <> Erase h).
Proof.
  assert (D : (exists h, c = Erase h) \/ forall h, c <> Erase h) by (destruct c; eauto; right; intros; discriminate).
  destruct D as [D|D]; [right; left; exact D|]. destruct (making c) as [[a r]|]; [destruct r as [[[ty n] s]| | |]; [left; eauto 10|..]|]; right; right; (split; [intros; congruence|exact D]).
Qed.
Lemma step_inv m c : inv m -> sensible m c -> inv (fst (step m c)).
Proof.
  intros I0 S0. destruct (classify c) as [(a & ty & n & s & E)|[[h ->]|[N1 N2]]].
  - now apply (step_made m c a ty n s I0 S0 E).
  - pose proof (step_erase m h I0) as Q. destruct (read_vector (to_handle m) h false); [apply Q|destruct Q as [-> _]; exact I0..].
  - now apply step_other.
Qed.
Lemma step_keeps m c s : inv m -> sensible m c -> leaves s c -> holds m s -> holds (fst (step m c)) s.
Proof.
  intros I0 S0 [L1 L2] Hs. destruct (classify c) as [(a & ty & n & x & E)|[[h ->]|[N1 N2]]].
  - apply (step_made m c a ty n x I0 S0 E). right. split; [exact Hs|]. intros (Q1 & Q2 & Q3). cbn [oname otype] in *. eapply L1; eauto using same_sym.
  - pose proof (step_erase m h I0) as Q. destruct (read_vector (to_handle m) h false) as [l| | |] eqn:E; [|destruct Q as [-> _]; exact Hs..].
    apply Q. split; [exact Hs|]. intros Hl. destruct (handles_held m h false l I0 E) as (_ & ts & E2 & F). specialize (L2 h ts eq_refl E2).
    clear - F L2 Hl. revert L2. induction F as [|u v l ts Q F IH]; intros L2; [destruct Hl|]. inversion L2; subst. destruct Hl as [->|Hl]; [|auto].
    apply H1. unfold handle. rewrite <- tag_is_text. now apply same_sym.
  - now apply step_other.
Qed.
Lemma run_fst l1 : forall l2 m, fst (run m (l1 ++ l2)) = fst (run (fst (run m l1)) l2).
Proof.
  induction l1 as [|c l IH]; intros l2 m; cbn [app SheetModel.run]; [reflexivity|]. destruct (step m c) as [m1 v]. specialize (IH l2 m1).
  destruct (run m1 (l ++ l2)) as [a b]. destruct (run m1 l) as [a' b']. exact IH.
Qed.
Lemma run_cons m c l : fst (run m (c :: l)) = fst (run (fst (step m c)) l).
Proof. cbn [SheetModel.run]. destruct (step m c) as [m1 v]. cbn [fst]. now destruct (run m1 l). Qed.
Lemma sensible_app l1 : forall l2 m, sensible_run m (l1 ++ l2) <-> sensible_run m l1 /\ sensible_run (fst (run m l1)) l2.
Proof.
  induction l1 as [|c l IH]; intros l2 m; cbn [app SheetSpec.sensible_run]; [cbn; tauto|]. rewrite run_cons, IH. tauto.
Qed.
Lemma run_inv l : forall m, inv m -> sensible_run m l -> inv (fst (run m l)).
Proof. induction l as [|c l IH]; intros m I0 S0; [exact I0|]. rewrite run_cons. apply IH; [apply step_inv; [exact I0|apply S0]|apply S0]. Qed.
Lemma run_keeps l : forall m s, inv m -> sensible_run m l -> Forall (leaves s) l -> holds m s -> holds (fst (run m l)) s.
Proof.
  induction l as [|c l IH]; intros m s I0 S0 L0 Hs; [exact Hs|]. inversion L0; subst. rewrite run_cons. apply IH; [apply step_inv; [exact I0|apply S0]|apply S0|assumption|apply step_keeps; auto; apply S0].
Qed.
(** The whole story of an object that is made and then left alone *)
Lemma story before c after a ty n s : sensible_run [] (before ++ c :: after) -> making c = Some (a, Ok (ty, n, s)) -> Forall (leaves (Obj ty n a s)) after ->
  snd (step (fst (run [] before)) c) = Ok (one_text (tag uniq (Obj ty n a s))) /\ inv (fst (run [] (before ++ c :: after))) /\ holds (fst (run [] (before ++ c :: after))) (Obj ty n a s).
Proof.
  intros S0 E L0. pose proof (run_inv _ [] inv_nil S0) as I2. apply sensible_app in S0 as [S1 S2]. pose proof (run_inv _ [] inv_nil S1) as I1. destruct S2 as [S2 S3].
  destruct (step_made _ c a ty n s I1 S2 E) as (I3 & R & H). split; [exact R|]. split; [exact I2|]. rewrite run_fst, run_cons. apply run_keeps; auto. apply H. now left.
Qed.
End Session.
