From Coq Require Import String Ascii ZArith List Bool Lia Sorted ZifyBool.
From Verif Require Import Base DateModel StringModel StringSpec StringProofs OMap DictModel DictSpec DictProofs SplatModel SplatSpec SplatProofs ShareModel ShareSpec ShareProofs SplatFileModel SplatFileSpec SplatFileProofs.
Import ListNotations.
Open Scope Z_scope.
Ltac Zify.zify_post_hook ::= Z.div_mod_to_equations.

Section Tree.
Context {N T : Type}.
Variable value_of : str -> N.
Variable as_int : N -> outcome (option Z).
Variable show_double : N -> str.
Variable show_time : T -> str.
Notation cell := (DictModel.cell N T).
Notation grid := (SplatModel.grid N T).
Notation node := (SplatModel.node N T).
Notation print := (coerce_to_string as_int show_double show_time).
Notation load := (as_loaded (N := N) show_time).
Notation good := (survives value_of as_int show_double show_time).
Notation tload := (tree_loaded (N := N) show_time).
Notation stores := (storable value_of as_int show_double show_time).

(** ** Blank cells stay blank, others do not become blank *)
Lemma load_blank (c : cell) : blank c -> load c = CEmpty.
Proof. intros [->| ->]; reflexivity. Qed.
Lemma load_live (c : cell) : good c -> ~ blank c -> ~ blank (load c).
Proof.
  intros (s & H1 & _ & H3) Hb. destruct c as [|b|x|d|t|u]; cbn [as_loaded] in *.
  - exact Hb.
  - intros [E|E]; discriminate.
  - intros [E|E]; discriminate.
  - cbn [coerce_to_string] in H1. injection H1 as <-. intros [E|E]; [discriminate|]. injection E as E. rewrite E in H3. discriminate.
  - cbn [coerce_to_string] in H1. injection H1 as <-. intros [E|E]; [discriminate|]. injection E as E. rewrite E in H3. discriminate.
  - destruct u as [|c u]; [exfalso; apply Hb; now right|]. intros [E|E]; discriminate.
Qed.
Lemma load_text (s : str) : s <> [] -> load (CStr s) = CStr s.
Proof. destruct s; [congruence|reflexivity]. Qed.

(** ** The header of an object survives *)
Lemma number_char_tilde : number_char "~" = false. Proof. reflexivity. Qed.
Lemma header_good tag type : tag_ok tag -> plain tag -> plain type -> good (CStr (header tag type)).
Proof.
  intros Ht P1 P2. exists (header tag type). split; [reflexivity|]. unfold header. split.
  - unfold plain in *. repeat split; intros H; apply in_app_or in H as [H|H]; try tauto; cbn [app] in H; destruct H as [H|H]; try discriminate; tauto.
  - assert (exists c r, tag ++ ["~"%char] ++ type = c :: r /\ (c = "$"%char \/ c = "~"%char)) as (c & r & E & Hc).
    { destruct Ht as [->|(q & -> & _)]; eexists _, _; split; try reflexivity; auto. }
    assert (In "~"%char (c :: r)) as Hin by (rewrite <- E; apply in_or_app; right; now left).
    rewrite E. cbn [as_cell as_loaded]. replace (Ascii.eqb c "=") with false by (destruct Hc as [->| ->]; reflexivity). cbn [andb].
    replace (ci_eqb (c :: r) (lit "TRUE")) with false by (destruct Hc as [->| ->]; reflexivity).
    replace (ci_eqb (c :: r) (lit "FALSE")) with false by (destruct Hc as [->| ->]; reflexivity).
    replace (forallb number_char (c :: r)) with false; [reflexivity|]. symmetry. apply not_true_is_false. intros G. rewrite forallb_forall in G.
    apply G in Hin. discriminate.
Qed.

(** ** Trees *)
Definition loads := map (fun p : str * node => (fst p, tload (snd p))).
Lemma tload_obj tag type ch : tload (Obj tag type ch) = Obj tag type (loads ch). Proof. reflexivity. Qed.
Lemma zlen_map {A B} (f : A -> B) l : zlen (map f l) = zlen l. Proof. unfold zlen. now rewrite map_length. Qed.
Lemma height_load t : height (tload t) = height t.
Proof.
  induction t as [w m|tag type ch IH] using node_ind2; [apply zlen_map|]. rewrite tload_obj. change (heights (loads ch) = heights ch).
  induction IH as [|[n k] ch H _ IHch]; [reflexivity|]. cbn [loads map fst snd] in *. rewrite !heights_cons. fold (loads ch). rewrite H, IHch. reflexivity.
Qed.
Lemma heights_load ch : heights (loads ch) = heights ch.
Proof. induction ch as [|[n k] ch IH]; [reflexivity|]. cbn [loads map fst snd]. rewrite !heights_cons, height_load. fold (loads ch). now rewrite IH. Qed.
Lemma span_load t : span (tload t) = span t.
Proof.
  induction t as [w m|tag type ch IH] using node_ind2; [reflexivity|]. rewrite tload_obj, !span_obj. f_equal.
  induction IH as [|[n k] ch H _ IHch]; [reflexivity|]. cbn [loads map fst snd] in *. rewrite !spans_cons. fold (loads ch). now rewrite H, IHch.
Qed.
Lemma content_load t : wf t -> forall i j, content (tload t) i j = load (content t i j).
Proof.
  induction t as [w m|tag type ch IH] using node_ind2; intros Hwf i j.
  - cbn [tree_loaded content]. unfold cell_at. change (@CEmpty N T) with (load CEmpty) at 1. change (@nil cell) with (map load []) at 1. now rewrite !map_nth.
  - apply wf_obj_inv in Hwf as (_ & _ & _ & Hw & _). rewrite tload_obj, !content_obj. destruct (j =? 0).
    + destruct (i =? 0); [|reflexivity]. symmetry. apply load_text. unfold header. destruct tag; discriminate.
    + revert i. induction IH as [|[n k] ch H _ IHch]; intros i; [reflexivity|]. inversion Hw as [|? ? [W1 W2] W3]; subst. cbn [loads map fst snd] in *. fold (loads ch).
      rewrite !contents_cons, height_load. destruct (i <? height k); [|now apply IHch]. destruct (j =? 1); [|now apply H].
      destruct (i =? 0); [|reflexivity]. symmetry. now apply load_text.
Qed.
Lemma wf_load t : wf t -> wf (tload t).
Proof.
  induction t as [w m|tag type ch IH] using node_ind2; intros H.
  - apply wf_leaf_inv in H as (H1 & H2 & H3). cbn [tree_loaded]. constructor; [exact H1|destruct m; [congruence|discriminate]|].
    apply Forall_map. eapply Forall_impl; [|exact H3]. intros l Hl. cbv beta. now rewrite zlen_map.
  - apply wf_obj_inv in H as (H1 & H2 & H3 & H4 & H5). rewrite tload_obj. constructor; [exact H1|exact H2|destruct ch; [congruence|discriminate]| |].
    + unfold loads. apply Forall_map. clear - IH H4. induction IH as [|[n k] ch H _ IHch]; [constructor|]. inversion H4 as [|? ? [W1 W2] W3]; subst.
      constructor; [split; [exact W1|exact (H W2)]|now apply IHch].
    + clear - H5. induction H5 as [|p ch _ IHs Hf]; [constructor|]. cbn [loads map]. constructor; [exact IHs|]. apply Forall_map. exact Hf.
Qed.
Lemma tree_good t : wf t -> stores t -> forall i j, good (content t i j).
Proof.
  induction t as [w m|tag type ch IH] using node_ind2; intros Hwf Hs i j.
  - inversion Hs as [? ? H1 H2|]; subst. cbn [content]. unfold cell_at. destruct (nth_in_or_default (Z.to_nat i) m []) as [G|G].
    + rewrite Forall_forall in H1. specialize (H1 _ G). destruct (nth_in_or_default (Z.to_nat j) (nth (Z.to_nat i) m []) CEmpty) as [G2|G2].
      * rewrite Forall_forall in H1. now apply H1.
      * rewrite G2. apply empty_good.
    + rewrite G. replace (nth (Z.to_nat j) [] CEmpty) with (@CEmpty N T) by (now destruct (Z.to_nat j)). apply empty_good.
  - inversion Hs as [|? ? ? P1 P2 P3]; subst. apply wf_obj_inv in Hwf as (W0 & _ & _ & Hw & _). rewrite content_obj. destruct (j =? 0).
    + destruct (i =? 0); [|apply empty_good]. now apply header_good.
    + clear P1 P2 W0 Hs. revert i. induction IH as [|[n k] ch H _ IHch]; intros i; [apply empty_good|]. inversion Hw as [|? ? [W1 W2] W3]; subst.
      inversion P3 as [|? ? [Q1 Q2] Q3]; subst. cbn [fst snd] in *. rewrite contents_cons. destruct (i <? height k); [|now apply IHch].
      destruct (j =? 1); [destruct (i =? 0); [exact Q1|apply empty_good]|now apply H].
Qed.
(** the last column a tree takes is used *)
Lemma tree_last t : wf t -> stores t -> exists i, 0 <= i < height t /\ ~ blank (content t i (span t - 1)).
Proof.
  induction t as [w m|tag type ch IH] using node_ind2; intros Hwf Hs.
  - inversion Hs as [? ? H1 (l & x & L1 & L2 & L3)|]; subst. cbn [content span height]. destruct (In_nth _ _ [] L1) as (k & K1 & K2).
    exists (Z.of_nat k). split; [unfold zlen; lia|]. unfold cell_at. rewrite Nat2Z.id, K2. now rewrite (nth_error_nth _ _ CEmpty L2).
  - inversion Hs as [|? ? ? P1 P2 P3]; subst. apply wf_obj_inv in Hwf as (_ & _ & Hne & Hw & _). rewrite span_obj.
    assert (exists a n k b, ch = a ++ (n, k) :: b /\ span k = spans ch) as (a & n & k & b & E & Es).
    { clear - Hne Hw. induction ch as [|[n k] ch IHch]; [congruence|]. inversion Hw as [|? ? [W1 W2] W3]; subst. rewrite spans_cons.
      destruct (Z.max_spec (span k) (spans ch)) as [[G ->]|[G ->]].
      - destruct ch as [|p ch].
        + exfalso. change (spans []) with 0 in G. cbn [snd] in W2. destruct k as [w m|]; [apply wf_leaf_inv in W2; cbn [span] in G; lia|]. rewrite span_obj in G. pose proof (spans_pos children). lia.
        + destruct (IHch ltac:(discriminate) W3) as (a & n' & k' & b & E & Es). exists ((n, k) :: a), n', k', b. split; [now rewrite E|exact Es].
      - exists [], n, k, ch. split; reflexivity. }
    assert (wf_list a /\ wf k /\ n <> [] /\ wf_list b) as (Wa & Wk & Hn & Wb).
    { rewrite E in Hw. apply Forall_app in Hw as [X1 X2]. inversion X2 as [|? ? [X3 X4] X5]; subst. auto. }
    rewrite Forall_forall in IH, P3. assert (In (n, k) ch) as Hin by (rewrite E; apply in_or_app; right; now left).
    destruct (P3 _ Hin) as [_ Sk]. destruct (IH _ Hin Wk Sk) as (i & I1 & I2). cbn [snd] in *.
    pose proof (heights_pos a Wa). pose proof (heights_pos b Wb). exists (heights a + i). change (height (Obj tag type ch)) with (heights ch).
    split; [rewrite E, heights_app, heights_cons; lia|]. rewrite content_obj.
    assert (1 <= span k) as Hk.
    { destruct k as [w m|]; [apply wf_leaf_inv in Wk; cbn [span]; lia|]. rewrite span_obj. pose proof (spans_pos children). lia. }
    replace (2 + spans ch - 1 =? 0) with false by lia. rewrite E at 1. rewrite contents_app by (assumption || lia). rewrite contents_cons.
    replace (i <? height k) with true by lia. replace (2 + spans ch - 1 =? 1) with false by lia. replace (2 + spans ch - 1 - 2) with (span k - 1) by lia. exact I2.
Qed.

Lemma tree_back (t : node) g : wf t -> is_object t -> stores t -> splat t = Ok g -> lines_fit N T as_int show_double show_time g ->
  exists text g', save as_int show_double show_time g = Ok text /\ file_table value_of (Some text) = Ok g' /\
    shows g' (View 0 (g_rows g') 0) (tload t).
Proof.
  intros Hwf Hob Hst Hs Hfit. destruct (splat_facts t g Hwf Hob Hs) as (F1 & F2 & F3 & F4 & F5 & F6). pose proof (height_pos t Hwf) as Hpos.
  destruct (sheet_back N T value_of as_int show_double show_time g) as (text & g' & S1 & S2 & S3 & S4 & S5 & S6); try lia; auto.
  { intros r c Hr Hc. rewrite F6 by lia. now apply tree_good. }
  exists text, g'. split; [exact S1|]. split; [exact S2|]. assert (g_rows g' = height (tload t)) as Hh by (rewrite height_load; lia). rewrite Hh.
  assert (span t <= g_cols g') as Hspan.
  { pose proof (span_cols t Hwf _ F2) as Hle. destruct S4 as [->|[-> Hb]]; [exact Hle|]. destruct (Z.eq_dec (span t) (g_cols g)) as [E|]; [|lia].
    exfalso. destruct (tree_last t Hwf Hst) as (i & I1 & I2). apply (load_live _ (tree_good t Hwf Hst i (span t - 1)) I2). left.
    rewrite E. rewrite <- F6 by lia. apply Hb. lia. }
  apply (show_tree g' (tload t)) with (r := 0) (c := 0).
  - intros i Hi. destruct (Z.eq_dec i (g_rows g')) as [->|Hne]; [apply S6; lia|].
    specialize (S5 i 0 ltac:(lia) ltac:(lia)). unfold at_ in S5. rewrite !Z.add_0_r in S5. rewrite S5. rewrite F5 by lia. reflexivity.
  - now apply wf_load.
  - unfold realises. rewrite span_load, height_load in *. repeat split; try lia. intros i j Hi Hj Hc. rewrite !Z.add_0_l in *. rewrite S5 by lia.
    rewrite F6 by lia. symmetry. now apply content_load.
Qed.
End Tree.
