From Coq Require Import String Ascii ZArith List Bool Lia Sorted ZifyBool DecimalString.
From Verif Require Import Base DateModel StringModel StringSpec StringProofs OMap DictModel DictSpec DictProofs SplatModel SplatSpec SplatProofs ShareModel ShareSpec ShareProofs SplatFileModel SplatFileSpec SplatFileProofs SplatFileTree.
Import ListNotations.
Open Scope Z_scope.
Ltac Zify.zify_post_hook ::= Z.div_mod_to_equations.

(** The digits of a number are plain text. *)
Definition dull (c : ascii) : Prop := c <> comma /\ c <> quote /\ c <> newline /\ c <> nul.
Lemma dull_plain s : Forall dull s <-> plain s.
Proof.
  rewrite Forall_forall. unfold plain, dull. split.
  - intros H. repeat split; intros G; apply H in G; tauto.
  - intros (H1 & H2 & H3 & H4) c Hc. repeat split; intros ->; tauto.
Qed.
Lemma uint_dull u : Forall dull (list_ascii_of_string (NilEmpty.string_of_uint u)).
Proof. induction u; cbn; constructor; auto; repeat split; discriminate. Qed.
Lemma uint0_dull u : Forall dull (list_ascii_of_string (NilZero.string_of_uint u)).
Proof. destruct u; try (cbn; constructor; [repeat split; discriminate|apply uint_dull]). cbn. constructor; [repeat split; discriminate|constructor]. Qed.
Lemma show_int_dull z : Forall dull (show_int z).
Proof.
  unfold show_int. destruct (Z.to_int z) as [u|u]; cbn [NilZero.string_of_int]; [apply uint0_dull|].
  cbn [list_ascii_of_string]. constructor; [repeat split; discriminate|apply uint0_dull].
Qed.

Section Heap.
Context {N T : Type}.
Variable value_of : str -> N.
Variable as_int : N -> outcome (option Z).
Variable show_double : N -> str.
Variable show_time : T -> str.
Notation cell := (DictModel.cell N T).
Notation node := (SplatModel.node N T).
Notation load := (as_loaded (N := N) show_time).
Notation good := (survives value_of as_int show_double show_time).
Notation tload := (tree_loaded (N := N) show_time).
Notation mload := (member_loaded (N := N) show_time).
Notation stores := (storable value_of as_int show_double show_time).
Notation mstores := (member_storable value_of as_int show_double show_time).
Notation ostores := (object_storable value_of as_int show_double show_time).
Notation tloads := (loads (N := N) show_time).
Definition mloads := map (fun p : str * member N T => (fst p, mload (snd p))).

Lemma table_load (m : member N T) : (forall a, m <> MRef a) -> table (mload m) = tload (table m).
Proof.
  intros H. destruct m as [c|c l|m|a]; cbn [table member_loaded tree_loaded map].
  - reflexivity.
  - f_equal. unfold zlen. cbn [length]. now rewrite map_length.
  - f_equal. destruct m as [|l m]; [reflexivity|]. cbn [map hd]. apply zlen_map.
  - exfalso. now apply (H a).
Qed.
Lemma massign_load (m : list (str * node)) k v : massign ci_compare (tloads m) k (tload v) = tloads (massign ci_compare m k v).
Proof.
  induction m as [|[x w] m IH]; [reflexivity|]. cbn [loads map fst snd massign]. fold (tloads m). destruct (ci_compare k x); cbn [loads map fst snd]; try reflexivity.
  now rewrite IH.
Qed.
Lemma child_map_load (l : list (str * node)) : child_map (tloads l) = tloads (child_map l).
Proof.
  unfold child_map. enough (forall m, fold_left (fun m p => massign ci_compare m (fst p) (snd p)) (tloads l) (tloads m) = tloads (fold_left (fun m p => massign ci_compare m (fst p) (snd p)) l m)) as G by exact (G []).
  induction l as [|[n k] l IH]; intros m; [reflexivity|]. cbn [loads map fold_left fst snd]. fold (tloads l). now rewrite massign_load, IH.
Qed.

Variable heap : nat -> object N T.
Definition made (t : str) : Prop := exists z, t = "$"%char :: show_int z.
Definition tags_made (s : tags) : Prop := forall a t, In (a, t) s -> made t.
Lemma tag_for_in (s : tags) a t : tag_for s a = Some t -> In (a, t) s.
Proof.
  induction s as [|[b u] s IH]; [discriminate|]. cbn [tag_for]. destruct (Nat.eqb_spec a b) as [->|]; [intros E; injection E as ->; now left|].
  intros E. right. now apply IH.
Qed.
Lemma write_loaded fuel : forall r s x s', write_members heap fuel r s = Ok (x, s') -> tags_made s ->
  write_members (loaded show_time heap) fuel (mloads r) s = Ok (tloads x, s') /\ tags_made s'.
Proof.
  induction fuel as [fuel IHf] using (well_founded_induction Wf_nat.lt_wf).
  induction r as [|[n m] r IHr]; intros s x s' H Hs.
  - destruct fuel; cbn in *; injection H as <- <-; split; auto.
  - assert ((exists a, m = MRef a) \/ forall a, m <> MRef a) as [[a ->]|Hn] by (destruct m as [| | |a]; [right|right|right|left; now exists a]; intros; discriminate).
    + cbn [mloads map fst snd member_loaded]. fold (mloads r). rewrite write_ref_step in *. destruct (tag_for s a) as [t|] eqn:Et.
      * destruct (write_members heap fuel r s) as [[y q]| | |] eqn:E; cbn [obind] in H; try discriminate. injection H as <- <-.
        destruct (IHr _ _ _ E Hs) as [-> I2]. split; [|exact I2]. cbn [obind loads map fst snd tree_loaded]. apply tag_for_in, Hs in Et. destruct Et as (z & ->). reflexivity.
      * destruct fuel as [|f]; [discriminate|]. cbv zeta in *.
        destruct (write_members heap f (members (heap a)) ((a, new_tag s) :: s)) as [[y q]| | |] eqn:E1; cbn [obind] in H; try discriminate.
        destruct (write_members heap (S f) r q) as [[z q']| | |] eqn:E2; cbn [obind] in H; try discriminate. injection H as <- <-.
        destruct (IHf f ltac:(lia) _ _ _ _ E1) as [I1 I2].
        { intros b t [Hb|Hb]; [injection Hb as <- <-; eexists; reflexivity|now apply (Hs b)]. }
        destruct (IHr _ _ _ E2 I2) as [J1 J2]. split; [|exact J2].
        change (members (loaded show_time heap a)) with (mloads (members (heap a))). rewrite I1. cbn [obind].
        rewrite J1. cbn [obind loads map fst snd]. rewrite child_map_load. reflexivity.
    + cbn [mloads map fst snd]. fold (mloads r). rewrite write_value_step in H by assumption. rewrite write_value_step by (destruct m; [discriminate|discriminate|discriminate|exfalso; now apply (Hn a)]).
      destruct (write_members heap fuel r s) as [[y q]| | |] eqn:E; cbn [obind] in H; try discriminate. injection H as <- <-.
      destruct (IHr _ _ _ E Hs) as [-> I2]. split; [|exact I2]. cbn [obind loads map fst snd]. now rewrite table_load.
Qed.

(** ** What is written can be stored *)
Lemma made_plain t : made t -> plain t.
Proof. intros (z & ->). apply dull_plain. constructor; [repeat split; discriminate|apply show_int_dull]. Qed.
Lemma made_good t : made t -> good (CStr t).
Proof.
  intros H. exists t. split; [reflexivity|]. split; [now apply made_plain|]. destruct H as (z & ->). cbn [as_cell as_loaded].
  change (Ascii.eqb "$" "=") with false. cbn [andb].
  replace (ci_eqb ("$"%char :: show_int z) (lit "TRUE")) with false by reflexivity.
  replace (ci_eqb ("$"%char :: show_int z) (lit "FALSE")) with false by reflexivity. reflexivity.
Qed.
Lemma last_default {A} (l : list A) : forall x d e, last (x :: l) d = last (x :: l) e.
Proof. induction l as [|y l IH]; intros x d e; [reflexivity|]. change (last (y :: l) d = last (y :: l) e). apply IH. Qed.
Lemma last_nth {A} (l : list A) : forall c d, nth_error (c :: l) (length l) = Some (last (c :: l) d).
Proof. induction l as [|x l IH]; intros c d; [reflexivity|]. cbn [length nth_error]. rewrite (IH x d). reflexivity. Qed.
Lemma table_stores (m : member N T) : readable m -> mstores m -> (forall a, m <> MRef a) -> stores (table m).
Proof.
  intros Hr Hs Hn. destruct m as [c|c l|m|a]; cbn [table member_storable readable] in *.
  - destruct Hs as [H1 H2]. constructor; [repeat constructor; exact H1|]. exists [c], c. repeat split; auto. now left.
  - destruct Hs as [H1 H2]. constructor; [repeat constructor; [now inversion H1|now inversion H1]|]. exists (c :: l), (last l c). split; [now left|]. split; [|exact H2].
    replace (Z.to_nat (zlen (c :: l) - 1)) with (length l) by (unfold zlen; cbn [length]; lia). rewrite (last_nth l c c). destruct l; [reflexivity|]. reflexivity.
  - destruct Hs as [H1 (l & L1 & L2)]. destruct Hr as (w & R1 & R2 & R3 & _). constructor; [exact H1|]. exists l, (last l CEmpty). split; [exact L1|]. split; [|exact L2].
    destruct m as [|h m]; [congruence|]. cbn [hd]. rewrite Forall_forall in R3. rewrite (R3 h (or_introl eq_refl)). specialize (R3 l L1). destruct l as [|c l]; [cbn in R3; lia|].
    replace (Z.to_nat (w - 1)) with (length l) by (unfold zlen in R3; cbn [length] in R3; lia). apply last_nth.
  - exfalso. now apply (Hn a).
Qed.
Definition entry_stores (p : str * node) : Prop := good (CStr (fst p)) /\ stores (snd p).
Lemma massign_stores (m : list (str * node)) k v : Forall entry_stores m -> entry_stores (k, v) -> Forall entry_stores (massign ci_compare m k v).
Proof.
  intros Hm Hk. induction Hm as [|[x w] m [H1 H2] Hm IH]; [repeat constructor; apply Hk|]. cbn [massign]. destruct (ci_compare k x).
  - constructor; [|exact Hm]. split; [exact H1|apply Hk].
  - constructor; [exact Hk|]. constructor; [split; assumption|exact Hm].
  - constructor; [split; assumption|exact IH].
Qed.
Lemma child_map_stores (l : list (str * node)) : Forall entry_stores l -> Forall entry_stores (child_map l).
Proof.
  unfold child_map. enough (forall m, Forall entry_stores m -> Forall entry_stores l -> Forall entry_stores (fold_left (fun m p => massign ci_compare m (fst p) (snd p)) l m)) as G by (intros; apply G; [constructor|assumption]).
  induction l as [|[n k] l IH]; intros m Hm Hl; [exact Hm|]. inversion Hl; subst. cbn [fold_left fst snd]. apply IH; [|assumption]. now apply massign_stores.
Qed.
Variable live : nat -> Prop.
Hypothesis Hlive : forall a n b, live a -> In (n, MRef b) (members (heap a)) -> live b.
Hypothesis Hgood : forall a, live a -> ostores (heap a) /\ Forall (fun p => readable (snd p)) (members (heap a)).
Lemma write_stores fuel : forall r s x s', write_members heap fuel r s = Ok (x, s') -> (forall n b, In (n, MRef b) r -> live b) ->
  Forall (fun p => good (CStr (fst p)) /\ mstores (snd p)) r -> Forall (fun p => readable (snd p)) r -> tags_made s ->
  tags_made s' /\ Forall entry_stores x.
Proof.
  induction fuel as [fuel IHf] using (well_founded_induction Wf_nat.lt_wf).
  induction r as [|[n m] r IHr]; intros s x s' H Hl Hr Hrd Hs.
  - destruct fuel; cbn in H; injection H as <- <-; split; auto.
  - inversion Hr as [|? ? [G1 G2] G3]; inversion Hrd as [|? ? D1 D2]; subst. cbn [fst snd] in *.
    assert (forall n b, In (n, MRef b) r -> live b) as Hl' by (intros; eapply Hl; right; eassumption).
    assert ((exists a, m = MRef a) \/ forall a, m <> MRef a) as [[a ->]|Hn] by (destruct m as [| | |a]; [right|right|right|left; now exists a]; intros; discriminate).
    + rewrite write_ref_step in *. destruct (tag_for s a) as [t|] eqn:Et.
      * destruct (write_members heap fuel r s) as [[y q]| | |] eqn:E; cbn [obind] in H; try discriminate. injection H as <- <-.
        destruct (IHr _ _ _ E Hl' G3 D2 Hs) as [I1 I2]. split; [exact I1|]. constructor; [|exact I2]. split; [exact G1|]. cbn [snd].
        apply tag_for_in, Hs in Et. constructor; [repeat constructor; now apply made_good|]. exists [CStr t], (CStr t). split; [now left|]. split; [reflexivity|].
        destruct Et as (z & ->). intros [E2|E2]; discriminate.
      * destruct fuel as [|f]; [discriminate|]. cbv zeta in *.
        destruct (write_members heap f (members (heap a)) ((a, new_tag s) :: s)) as [[y q]| | |] eqn:E1; cbn [obind] in H; try discriminate.
        destruct (write_members heap (S f) r q) as [[z q']| | |] eqn:E2; cbn [obind] in H; try discriminate. injection H as <- <-.
        assert (live a) as La by (apply (Hl n); now left). destruct (Hgood a La) as [[O1 O2] O3].
        assert (made (new_tag s)) as Mt by (eexists; reflexivity).
        destruct (IHf f ltac:(lia) _ _ _ _ E1) as [I1 I2]; [intros n' b' Hb; eapply Hlive; eassumption|exact O2|exact O3| |].
        { intros b t [Hb|Hb]; [injection Hb as <- <-; exact Mt|now apply (Hs b)]. }
        destruct (IHr _ _ _ E2 Hl' G3 D2 I1) as [J1 J2]. split; [exact J1|]. constructor; [|exact J2]. split; [exact G1|]. cbn [snd].
        constructor; [now apply made_plain|exact O1|]. now apply child_map_stores.
    + rewrite write_value_step in H by assumption. destruct (write_members heap fuel r s) as [[y q]| | |] eqn:E; cbn [obind] in H; try discriminate. injection H as <- <-.
      destruct (IHr _ _ _ E Hl' G3 D2 Hs) as [I1 I2]. split; [exact I1|]. constructor; [|exact I2]. split; [exact G1|]. now apply table_stores.
Qed.
End Heap.

Section Copy.
Context {N T : Type}.
Variable value_of : str -> N.
Variable as_int : N -> outcome (option Z).
Variable show_double : N -> str.
Variable show_time : T -> str.
Notation ostores := (object_storable value_of as_int show_double show_time).
Notation load := (as_loaded (N := N) show_time).
Lemma readable_load (m : member N T) : readable m -> member_storable value_of as_int show_double show_time m -> readable (member_loaded show_time m).
Proof.
  destruct m as [c|c l|m|a]; cbn [readable member_loaded member_storable]; intros H Hs; auto.
  - destruct Hs as [Hs _]. inversion Hs as [|? ? _ H2]; subst. intros x Hx. apply in_map_iff in Hx as (y & <- & Hy). rewrite Forall_forall in H2. apply (load_live value_of as_int show_double); auto.
  - destruct Hs as [Hs _]. destruct H as (w & H1 & H2 & H3 & H4). exists w. split; [exact H1|]. split; [destruct m; [congruence|discriminate]|]. split.
    + apply Forall_map. eapply Forall_impl; [|exact H3]. intros l Hl. cbv beta. now rewrite zlen_map.
    + intros j Hj. destruct (H4 j Hj) as (l & x & L1 & L2 & L3). exists (map load l), (load x). split; [now apply in_map|]. split; [now apply map_nth_error|].
      apply (load_live value_of as_int show_double); [|exact L3]. rewrite Forall_forall in Hs. specialize (Hs l L1). rewrite Forall_forall in Hs. apply Hs. eapply nth_error_In, L2.
Qed.
Lemma reach_loaded (heap : nat -> object N T) root a : reachable (loaded show_time heap) root a -> reachable heap root a.
Proof.
  induction 1 as [|a n b H IH Hin]; [constructor|]. cbn [loaded members] in Hin. apply in_map_iff in Hin as ([n' m] & E & Hin). cbn [fst snd] in E. injection E as -> E.
  destruct m; try discriminate. cbn in E. injection E as ->. eapply reachable_ref; eassumption.
Qed.
Lemma file_copy (heap : nat -> object N T) schema rank root fuel g :
  (forall a, reachable heap root a -> archivable schema (heap a) /\ ostores (heap a)) -> acyclic heap root rank ->
  archive heap fuel root = Ok g -> lines_fit N T as_int show_double show_time g ->
  exists text g' h b, save as_int show_double show_time g = Ok text /\ file_table value_of (Some text) = Ok g' /\
    unarchive schema fuel g' = Ok (h, b) /\ is_copy (loaded show_time heap) root h b.
Proof.
  intros Hgood Hac Har Hfit. unfold archive in Har.
  destruct (write_members heap fuel (members (heap root)) []) as [[x s]| | |] eqn:Ew; cbn [obind] in Har; try discriminate.
  assert (forall a, reachable heap root a -> archivable schema (heap a)) as Hga by (intros a Ha; apply (Hgood a Ha)).
  destruct (shown_copy heap schema rank root fuel x s g Hga Hac Ew) as [Hwf _].
  destruct (Hgood root (reachable_root _ _ heap root)) as [(A1 & A2 & A3 & A4 & A5) [O1 O2]].
  assert (forall a, reachable heap root a -> Forall (fun p => readable (snd p)) (members (heap a))) as Hrd.
  { intros a Ha. destruct (Hga a Ha) as (_ & _ & _ & G & _). eapply Forall_impl; [|exact G]. intros p Hp. apply Hp. }
  destruct (write_stores value_of as_int show_double show_time heap (reachable heap root)
              (fun a n b La Hb => reachable_ref _ _ heap root a n b La Hb) (fun a Ha => conj (proj2 (Hgood a Ha)) (Hrd a Ha)) fuel _ _ _ _ Ew) as [_ Hst].
  { intros n b Hb. eapply reachable_ref; [constructor|exact Hb]. } { exact O2. } { apply Hrd. constructor. } { intros a t []. }
  destruct (tree_back value_of as_int show_double show_time (Obj [] (otype (heap root)) (child_map x)) g Hwf Logic.I) as (text & g' & S1 & S2 & S3); [|exact Har|exact Hfit|].
  { constructor; [repeat split; intros []|exact O1|]. now apply child_map_stores. }
  rewrite tload_obj, <- child_map_load in S3.
  destruct (shown_copy (loaded show_time heap) schema rank root fuel (loads show_time x) s g') as [_ Hcopy].
  - intros a Ha. apply reach_loaded in Ha. destruct (Hgood a Ha) as [(B1 & B2 & B3 & B4 & B5) [P1 P2]]. split; [exact B1|]. unfold loaded. cbn [otype members].
    split; [destruct (members (heap a)); [now contradict B2|discriminate]|]. split; [|split].
    + rewrite B3. f_equal. rewrite map_map. apply map_ext. intros [n m]. cbn [fst snd]. f_equal. now destruct m.
    + apply Forall_map. rewrite Forall_forall in *. intros [n m] Hin. cbn [fst snd]. destruct (B4 _ Hin) as [C1 C2]. destruct (P2 _ Hin) as [D1 D2]. cbn [fst snd] in *.
      split; [exact C1|now apply readable_load].
    + clear - B5. induction B5 as [|p l Hp Hl IH]; [constructor|]. cbn [map]. constructor; [|exact IH]. apply Forall_map. exact Hp.
  - intros a n b Ha Hin. apply reach_loaded in Ha. cbn [loaded members] in Hin. apply in_map_iff in Hin as ([n' m] & E & Hin). cbn [fst snd] in E. injection E as -> E.
    destruct m; try discriminate. cbn in E. injection E as ->. eapply Hac; eassumption.
  - change (members (loaded show_time heap root)) with (mloads show_time (members (heap root))). eapply proj1; eapply (write_loaded value_of as_int show_double); [exact Ew|]. intros a t [].
  - destruct (Hcopy S3) as (h & b & C1 & C2). exists text, g', h, b. auto.
Qed.
End Copy.
