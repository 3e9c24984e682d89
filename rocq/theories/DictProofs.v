From Coq Require Import String Ascii ZArith List Bool Lia Sorted DecimalString.
From Verif Require Import Base DateModel StringModel StringSpec StringProofs OMap DictModel DictSpec.
Import ListNotations.
Open Scope Z_scope.

Lemma condensed_key_ok k : ascii_only k -> exists t, condensed k = Ok t.
Proof. intros H. destruct (condensed_spec k H) as (t & H1 & _). eauto. Qed.

Lemma condensed_same s : forall t, condensed s = Ok t -> ascii_only s ->
  ascii_only t /\ (forall k u, condensed k = Ok u -> ascii_only k -> (ci_compare t u = Eq <-> same_key s k)).
Proof.
  intros t Ht Ha. destruct (condensed_spec s Ha) as (x & Hx & Hsx). rewrite Hx in Ht. injection Ht as <-.
  split.
  - clear Hx. pose proof (strip_ascii _ _ Hsx Ha) as Hax. clear Hsx Ha. induction Hax as [|c l Hc Hl IH]; [constructor|].
    cbn [map]. constructor; [|exact IH]. destruct (toupper_facts c Hc) as (H1 & _). lia.
  - intros k u Hu Hk. destruct (condensed_spec k Hk) as (y & Hy & Hsy). rewrite Hy in Hu. injection Hu as <-.
    rewrite ci_compare_eq. pose proof (strip_ascii _ _ Hsx Ha) as Hax. pose proof (strip_ascii _ _ Hsy Hk) as Hay.
    pose proof (same_map_toupper x Hax) as S1. pose proof (same_map_toupper y Hay) as S2. split.
    + intros H. exists x, y. split; [exact Hsx|]. split; [exact Hsy|].
      eapply same_trans; [exact S1|]. eapply same_trans; [exact H|]. now apply same_sym.
    + intros (ta & tb & H1 & H2 & H). rewrite (strip_fun _ _ _ H1 Hsx), (strip_fun _ _ _ H2 Hsy) in H.
      eapply same_trans; [apply same_sym; exact S1|]. eapply same_trans; [exact H|exact S2].
Qed.

Section Map.
Variables N T : Type.
Notation cell := (cell N T).
Notation sorted := (@msorted str cell ci_compare).
Lemma minsert_last (m : list (str * cell)) k v : Forall (fun p => ci_compare (fst p) k = Lt) m ->
  mfind ci_compare m k = None /\ minsert ci_compare m k v = m ++ [(k, v)].
Proof.
  induction 1 as [|[x w] m H Hm IH]; [split; reflexivity|]. cbn [fst] in H. destruct IH as [I1 I2]. cbn [mfind minsert app].
  rewrite H. split; [exact I1|]. rewrite (ci_compare_antisym x k), H. cbn [CompOpp]. now rewrite I2.
Qed.

(** The stored entries are those inserted, under their condensed keys. *)
Definition holds (l : list (str * cell)) (d : dict N T) : Prop :=
  sorted d /\ forall x v, In (x, v) d <-> exists k, In (k, v) l /\ condensed k = Ok x.
Lemma insert_in (d : dict N T) x v : sorted d -> mfind ci_compare d x = None ->
  forall y w, In (y, w) (minsert ci_compare d x v) <-> (y, w) = (x, v) \/ In (y, w) d.
Proof.
  intros Hs Hf y w. destruct (minsert_new ci_compare ci_compare_antisym d x v Hf Hs)
    as (a & b & -> & -> & _).
  rewrite !in_app_iff. cbn [In]. split; intros [H|[H|H]]; auto.
Qed.
Lemma stored_holds l d : stored l d -> holds l d.
Proof.
  induction 1 as [|l d d' k v H [Hs Hi] E].
  - split; [constructor|]. intros x v. split; [contradiction|]. intros (k & [] & _).
  - unfold insert in E. destruct (condensed k) as [x| | |] eqn:Ek; cbn [obind] in E; try discriminate.
    destruct (mfind ci_compare d x) eqn:Ef; [discriminate|]. injection E as <-. split.
    + apply minsert_sorted; [exact ci_compare_antisym|exact ci_compare_lt_trans|assumption].
    + intros y w. rewrite insert_in by assumption. rewrite Hi. split.
      * intros [G|(k' & G1 & G2)]; [injection G as -> ->; exists k; split; [now left|assumption]|].
        exists k'. split; [now right|assumption].
      * intros (k' & [G1|G1] & G2); [injection G1 as -> ->; left; congruence|]. right. eauto.
Qed.

Definition keys_ascii (l : list (str * cell)) : Prop := forall k v, In (k, v) l -> ascii_only k.

Lemma lookup l d : stored l d -> keys_ascii l -> forall k, ascii_only k ->
  exists x, condensed k = Ok x /\
    (forall v, mfind ci_compare d x = Some v <-> exists k', In (k', v) l /\ same_key k' k).
Proof.
  intros H Ha k Hk. destruct (stored_holds _ _ H) as [Hs Hi]. destruct (condensed_key_ok k Hk) as (x & Hx).
  exists x. split; [exact Hx|]. intros v. split.
  - intros Hf. apply (mfind_in ci_compare) in Hf as (y & Hy & Hc). apply Hi in Hy as (k' & Hk' & Hy'). exists k'.
    split; [exact Hk'|]. apply (proj2 (condensed_same k' y Hy' (Ha _ _ Hk')) k x Hx Hk). exact Hc.
  - intros (k' & Hk' & Hsame). destruct (condensed_key_ok k' (Ha _ _ Hk')) as (y & Hy).
    apply (in_mfind ci_compare ci_compare_antisym ci_compare_eq_l) with (x := y); [exact Hs| |].
    + apply Hi. eauto.
    + apply (proj2 (condensed_same k' y Hy (Ha _ _ Hk')) k x Hx Hk). exact Hsame.
Qed.

Variable to_double : str -> option N.
Variable as_int : N -> outcome (option Z).
Variable show_double : N -> str.
Variable show_time : T -> str.
Variable read_time : str -> outcome T.
Notation coerce := (coerce_to_string as_int show_double show_time).
Notation rd := (read_value to_double read_time).
Notation wr_from := (write_from as_int show_double show_time).

Definition entry_ok (p : str * cell) (e : str) : Prop :=
  exists t, fst p <> [] /\ ~ In ";"%char (fst p) /\ ~ In "="%char (fst p) /\ condensed (fst p) = Ok (fst p) /\
    coerce (snd p) = Ok t /\ t <> [] /\ ~ In ";"%char t /\ ~ In "="%char t /\ rd t = Ok (snd p) /\
    e = fst p ++ ["="%char] ++ t.

Lemma join_snoc sep l e : l <> [] -> join sep (l ++ [e]) = join sep l ++ sep :: e.
Proof.
  induction l as [|a l IH]; [congruence|]. intros _. destruct l as [|b l]; [reflexivity|].
  cbn [app] in *. change (join sep (a :: b :: l ++ [e])) with (a ++ sep :: join sep (b :: l ++ [e])).
  rewrite IH by discriminate. change (join sep (a :: b :: l)) with (a ++ sep :: join sep (b :: l)).
  rewrite <- app_assoc. reflexivity.
Qed.
Lemma join_nonempty sep l : Forall (fun e : str => e <> []) l -> l <> [] -> join sep l <> [].
Proof. intros H Hl. destruct H as [|a l Ha H]; [congruence|]. destruct l; [assumption|]. cbn [join]. destruct a; [congruence|discriminate]. Qed.

Lemma entry_nonempty p e : entry_ok p e -> e <> [].
Proof. intros (t & H & _ & _ & _ & _ & _ & _ & _ & _ & ->). destruct (fst p); [congruence|discriminate]. Qed.

Lemma write_join d es : Forall2 entry_ok d es -> forall done, Forall (fun e : str => e <> []) done ->
  wr_from (join ";" done) d = Ok (join ";" (done ++ es)).
Proof.
  induction 1 as [|[k v] e d es He Hd IH]; intros done Hdone; cbn [write_from].
  - now rewrite app_nil_r.
  - pose proof (entry_nonempty _ _ He) as Hne.
    destruct He as (t & K1 & K2 & K3 & K4 & V1 & V2 & V3 & V4 & V5 & ->). cbn [fst snd] in *. rewrite V1. cbn [obind].
    specialize (IH (done ++ [k ++ ["="%char] ++ t])). rewrite <- app_assoc in IH. cbn [app] in IH. cbn [app].
    rewrite <- IH by (apply Forall_app; split; [assumption|repeat constructor; assumption]). f_equal.
    destruct done as [|a done]; [reflexivity|].
    rewrite join_snoc by discriminate.
    pose proof (join_nonempty ";" (a :: done) Hdone ltac:(discriminate)) as Hj.
    destruct (join ";" (a :: done)) as [|c j]; [congruence|]. rewrite <- app_assoc. reflexivity.
Qed.

Lemma read_entry_ok p e d : entry_ok p e -> Forall (fun q => ci_compare (fst q) (fst p) = Lt) d ->
  read_entry to_double read_time d e = Ok (d ++ [p]).
Proof.
  intros (t & K1 & K2 & K3 & K4 & V1 & V2 & V3 & V4 & V5 & ->) Hd. destruct p as [k v]. cbn [fst snd] in *.
  unfold read_entry. change (k ++ ["="%char] ++ t) with (join "=" [k; t]).
  rewrite split_join by (solve [discriminate | repeat constructor; assumption]).
  destruct k as [|c k]; [congruence|]. rewrite V5. cbn [obind]. unfold insert. rewrite K4. cbn [obind].
  destruct (minsert_last d (c :: k) v Hd) as [-> ->]. reflexivity.
Qed.
Lemma read_entries_ok d es : Forall2 entry_ok d es -> forall a, msorted ci_compare (a ++ d) ->
  read_entries to_double read_time a es = Ok (a ++ d).
Proof.
  induction 1 as [|p e d es He Hd IH]; intros a Hs; cbn [read_entries]; [now rewrite app_nil_r|].
  rewrite (read_entry_ok p e a He).
  - cbn [obind]. replace (a ++ p :: d) with ((a ++ [p]) ++ d) in * by (rewrite <- app_assoc; reflexivity). now apply IH.
  - clear - Hs. induction a as [|q a IH]; constructor; cbn [app] in Hs; apply (sorted_inv ci_compare) in Hs as [H1 H2]; auto.
    rewrite Forall_forall in H2. apply H2. apply in_or_app. right. now left.
Qed.

Lemma same_letter_sep c d : code c < 128 -> code d < 128 -> d = ";"%char \/ d = "="%char -> same_letter c d -> c = d.
Proof.
  intros Hc Hd H Hs. assert (code d = 59 \/ code d = 61) by (destruct H as [-> | ->]; [left|right]; reflexivity).
  destruct Hs as [Hs|[Hs|Hs]]; [now apply code_inj| |]; rewrite ?(Z.mod_small (code c)), ?(Z.mod_small (code d)) in Hs
    by (pose proof (code_range c); pose proof (code_range d); lia); lia.
Qed.
Lemma toupper_sep t d : ascii_only t -> d = ";"%char \/ d = "="%char -> In d (map toupper t) -> In d t.
Proof.
  intros Ha Hd Hi. apply in_map_iff in Hi as (c & Hc & Hin). unfold ascii_only in Ha. rewrite Forall_forall in Ha.
  specialize (Ha c Hin). destruct (toupper_facts c Ha) as (H1 & _ & H3 & _). rewrite Hc in *.
  rewrite <- (same_letter_sep c d Ha H1 Hd H3). assumption.
Qed.

Lemma round_trip l d : stored l d -> keys_ascii l ->
  (forall k v, In (k, v) l -> portable_key k /\ portable coerce rd v) ->
  exists text, write as_int show_double show_time d = Ok text /\ read to_double read_time text = Ok d.
Proof.
  intros H Ha Hp. destruct (stored_holds _ _ H) as [Hs Hi].
  assert (exists es, Forall2 entry_ok d es) as [es Hes].
  { assert (forall p, In p d -> exists e, entry_ok p e) as He.
    { intros [x v] Hin. apply Hi in Hin as (k & Hk & Hx). destruct (Hp k v Hk) as [(t & K1 & K2 & K3 & K4) (u & V1 & V2 & V3 & V4 & V5)].
      pose proof (Ha _ _ Hk) as Hak. destruct (condensed_spec k Hak) as (t' & Ht' & Hst'). rewrite (strip_fun _ _ _ K1 Hst') in *.
      rewrite Hx in Ht'. injection Ht' as ->. pose proof (strip_ascii _ _ Hst' Hak) as Hat.
      exists (map toupper t' ++ ["="%char] ++ u), u. cbn [fst snd]. repeat split; auto.
      - destruct t'; [congruence|discriminate].
      - intros G. apply K3. apply toupper_sep; auto.
      - intros G. apply K4. apply toupper_sep; auto.
      - exact (condensed_idempotent _ _ Hx). }
    clear - He. induction d as [|p d IH]; [exists []; constructor|].
    destruct (He p (or_introl eq_refl)) as (e & Ee). destruct IH as (es & Hes); [intros q Hq; apply He; now right|].
    exists (e :: es). now constructor. }
  exists (join ";" es). split.
  - exact (write_join d es Hes [] (Forall_nil _)).
  - unfold read. destruct Hes as [|p e d' es' He Hd].
    + reflexivity.
    + rewrite split_join.
      * apply (read_entries_ok (p :: d') (e :: es') (Forall2_cons _ _ He Hd) []). exact Hs.
      * discriminate.
      * pose proof (Forall2_cons _ _ He Hd) as Hall. clear - Hall. induction Hall as [|q f d es Hf Hr IH]; constructor; auto.
        split; [exact (entry_nonempty _ _ Hf)|]. destruct Hf as (t & K1 & K2 & K3 & K4 & V1 & V2 & V3 & V4 & V5 & ->).
        rewrite !in_app_iff. cbn [In]. intros [G|[[G|[]]|G]]; [tauto|discriminate|tauto].
Qed.
End Map.

(** Decimal and date texts contain only digits, signs and date separators. *)
Definition plain (c : ascii) : Prop := c <> ";"%char /\ c <> "="%char.
Lemma uint_plain u : Forall plain (list_ascii_of_string (NilEmpty.string_of_uint u)).
Proof. induction u; cbn; constructor; auto; split; discriminate. Qed.
Lemma uint0_plain u : Forall plain (list_ascii_of_string (NilZero.string_of_uint u)) /\ NilZero.string_of_uint u <> EmptyString.
Proof.
  destruct u; (split; [|discriminate]); try (cbn; repeat constructor; try discriminate; apply uint_plain).
Qed.
Lemma show_int_plain z : Forall plain (show_int z) /\ show_int z <> [].
Proof.
  unfold show_int. destruct (Z.to_int z) as [u|u]; cbn [NilZero.string_of_int].
  - destruct (uint0_plain u) as [H1 H2]. split; [exact H1|]. destruct (NilZero.string_of_uint u); [congruence|discriminate].
  - cbn [list_ascii_of_string]. split; [|discriminate]. constructor; [split; discriminate|]. apply uint0_plain.
Qed.
Lemma span_plain s : forall a b, span_digits s = (a, b) -> Forall plain (list_ascii_of_string b) -> Forall plain (list_ascii_of_string s).
Proof.
  induction s as [|c s IH]; intros a b H Hb; cbn [span_digits] in H.
  - constructor.
  - destruct (is_digit c) eqn:E.
    + destruct (span_digits s) as [a' b'] eqn:Es. injection H as <- <-. cbn [list_ascii_of_string]. constructor; [|eapply IH; eauto].
      unfold is_digit in E. split; intros ->; discriminate.
    + injection H as <- <-. exact Hb.
Qed.
Lemma match3_plain sep s r : plain sep -> match3 sep s = Some r -> Forall plain (list_ascii_of_string s) /\ s <> EmptyString.
Proof.
  intros Hsep. unfold match3. destruct (span_digits s) as [a s1] eqn:E1. intros H. split.
  - apply (span_plain s a s1 E1). destruct a; [discriminate|]. destruct s1 as [|x s1]; [constructor|].
    destruct (span_digits s1) as [b s2] eqn:E2. destruct (Ascii.eqb x sep) eqn:Ex; [|destruct b; discriminate].
    apply Ascii.eqb_eq in Ex as ->. cbn [list_ascii_of_string]. constructor; [exact Hsep|].
    apply (span_plain s1 b s2 E2). destruct b; [discriminate|]. destruct s2 as [|y s2]; [constructor|].
    destruct (span_digits s2) as [c s3] eqn:E3. destruct (Ascii.eqb y sep) eqn:Ey; [|destruct c; discriminate].
    apply Ascii.eqb_eq in Ey as ->. cbn [list_ascii_of_string]. constructor; [exact Hsep|].
    apply (span_plain s2 c s3 E3). destruct s3; [constructor|]. destruct c; discriminate.
  - intros ->. cbn in E1. injection E1 as <- <-. discriminate.
Qed.
Lemma date_plain s : is_date_string s = true -> Forall plain (list_ascii_of_string s) /\ s <> EmptyString.
Proof.
  unfold is_date_string. destruct (match3 "/" s) eqn:E1; [intros _; eapply match3_plain; [|exact E1]; split; discriminate|].
  destruct (match3 "-" s) eqn:E2; [intros _; eapply match3_plain; [|exact E2]; split; discriminate|discriminate].
Qed.
Lemma plain_no l : Forall plain l -> ~ In ";"%char l /\ ~ In "="%char l.
Proof. intros H. rewrite Forall_forall in H. split; intros G; apply H in G; destruct G; congruence. Qed.
