(** Lemmas about the event timeline. *)
From Coq Require Import String Ascii ZArith List Bool Sorted Permutation Lia.
From Verif Require Import Base DateModel StringModel StringSpec StringProofs HolidayModel ScheduleModel OMap EventModel EventSpec.
Import ListNotations.
Open Scope Z_scope.

(** * Substitution *)
Lemma starts_iff name : forall text, starts name text = true <-> exists o u, text = o ++ u /\ same_up_to_case name o.
Proof.
  induction name as [|c n IH]; intros text; cbn.
  - split; [|reflexivity]. intros _. exists [], text. split; [reflexivity|constructor].
  - destruct text as [|d t]; cbn.
    + split; [discriminate|]. intros (o & u & E & H). inversion H; subst. discriminate.
    + rewrite andb_true_iff, ceq_same, IH. split.
      * intros (H & o & u & -> & H'). exists (d :: o), u. split; [reflexivity|constructor; auto].
      * intros (o & u & E & H). inversion H; subst. injection E as -> ->. split; [assumption|]. exists l', u. auto.
Qed.
Lemma replace_go_skip name value t : forall o, replace_go name value (length o) (o ++ t) = replace_go name value 0 t.
Proof. induction o as [|c o IH]; cbn; [destruct t; reflexivity|exact IH]. Qed.
Lemma same_length a b : same_up_to_case a b -> length a = length b.
Proof. induction 1; cbn; congruence. Qed.
Lemma replace_all_spec name value : name <> [] -> forall text, replaced name value text (replace_all name value text).
Proof.
  intros Hn text. unfold replace_all. remember (length text) as n eqn:E.
  assert (L : (length text <= n)%nat) by lia. clear E. revert text L.
  induction n as [|n IH]; intros [|c r] L; cbn in L; try lia; try constructor.
  cbn [replace_go]. destruct (starts name (c :: r)) eqn:S.
  - apply starts_iff in S as (o & u & E & H). pose proof (same_length _ _ H) as HL.
    destruct o as [|c' o]; [destruct name; [congruence|cbn in HL; discriminate]|]. injection E as -> ->.
    rewrite app_comm_cons. apply rep_hit; [exact H|].
    replace (length name - 1)%nat with (length o) by (cbn in HL; lia). rewrite replace_go_skip. apply IH. rewrite app_length in L. lia.
  - apply rep_keep.
    + intros o u E H. assert (T : starts name (c :: r) = true) by (apply starts_iff; exists o, u; auto). congruence.
    + apply IH. lia.
Qed.
Lemma same_prefix_fun name : forall o o' u u', same_up_to_case name o -> same_up_to_case name o' -> o ++ u = o' ++ u' -> o = o' /\ u = u'.
Proof.
  intros o o' u u' H H' E. pose proof (same_length _ _ H). pose proof (same_length _ _ H'). clear H H'.
  assert (L : length o = length o') by congruence. clear H0 H1 name. revert o' L E. induction o as [|c o IH]; intros [|c' o'] L E; cbn in L; try discriminate; [auto|].
  injection E as -> E. destruct (IH o' ltac:(lia) E) as [-> ->]. auto.
Qed.
Lemma replaced_fun name value t : forall a b, replaced name value t a -> replaced name value t b -> name <> [] -> a = b.
Proof.
  intros a b H. revert b. induction H as [|o t t' Ho H IH|c t t' Hc H IH]; intros b Hb Hn.
  - inversion Hb as [|o t t' Ho H E|]; subst; [reflexivity|]. exfalso. destruct o; [|discriminate]. inversion Ho; subst; congruence.
  - inversion Hb as [E|o2 t2 t2' Ho2 H2 E|c t2 t2' Hc H2 E]; subst.
    + destruct o; [|discriminate]. inversion Ho; subst. congruence.
    + destruct (same_prefix_fun name o2 o t2 t Ho2 Ho E) as [-> ->]. f_equal. auto.
    + exfalso. exact (Hc o t E Ho).
  - inversion Hb as [|o2 t2 t2' Ho2 H2 E|c2 t2 t2' Hc2 H2]; subst.
    + exfalso. exact (Hc o2 t2 (eq_sym E) Ho2).
    + f_equal. auto.
Qed.

Lemma plain_nonempty n : plain_name n = true -> n <> [].
Proof. destruct n; cbn; congruence. Qed.
Definition plain_macros (ms : list (str * str)) : Prop := Forall (fun p => plain_name (fst p) = true /\ plain_value (snd p) = true) ms.
Lemma expand_spec rx ms : forall t, plain_macros ms -> exists t', expand rx ms t = Ok t' /\ expanded ms t t'.
Proof.
  induction ms as [|[n v] ms IH]; intros t H; cbn.
  - exists t. split; [reflexivity|constructor].
  - inversion H as [|? ? [Hn Hv] Hr]; subst. cbn [fst snd] in Hn, Hv. unfold subst. rewrite Hn, Hv. cbn [andb obind].
    destruct (IH (replace_all n v t) Hr) as (t' & E & X). exists t'. split; [exact E|].
    econstructor; [apply replace_all_spec, plain_nonempty, Hn|exact X].
Qed.
Lemma expand_ok rx ms t t' : plain_macros ms -> expand rx ms t = Ok t' -> expanded ms t t'.
Proof. intros H E. destruct (expand_spec rx ms t H) as (u & E2 & X). rewrite E in E2. injection E2 as <-. exact X. Qed.
Lemma expanded_fun ms : Forall (fun p => fst p <> []) ms -> forall t a b, expanded ms t a -> expanded ms t b -> a = b.
Proof.
  induction ms as [|[n v] ms IH]; intros Hn t a b Ha Hb.
  - inversion Ha; inversion Hb; subst. congruence.
  - inversion Hn; subst. inversion Ha as [|? ? ? ? u1 ? R1 X1]; subst. inversion Hb as [|? ? ? ? u2 ? R2 X2]; subst.
    cbn in *. assert (u1 = u2) by (eapply replaced_fun; eauto). subst. eapply IH; eauto.
Qed.

(** * Comparisons *)
Lemma zc_anti (a b : Z) : (b ?= a) = CompOpp (a ?= b). Proof. apply Z.compare_antisym. Qed.
Lemma zc_trans (a b c : Z) : (a ?= b) = Lt -> (b ?= c) = Lt -> (a ?= c) = Lt. Proof. rewrite !Z.compare_lt_iff. lia. Qed.
Lemma zc_eq_l (a b c : Z) : (a ?= b) = Eq -> (a ?= c) = (b ?= c). Proof. rewrite Z.compare_eq_iff. now intros ->. Qed.

(** * The timeline map *)
Definition tl := omap Z str.
Definition represents (m : tl) (es : list (Z * str)) : Prop :=
  msorted Z.compare m /\
  forall d, mfind Z.compare m d = match texts_on d es with [] => None | l => Some (join newline l) end.
Lemma texts_on_app d a b : texts_on d (a ++ b) = texts_on d a ++ texts_on d b.
Proof. unfold texts_on. now rewrite filter_app, map_app. Qed.
Lemma join_snoc sep l x : l <> [] -> join sep (l ++ [x]) = join sep l ++ sep :: x.
Proof.
  induction l as [|a l IH]; [congruence|]. intros _. destruct l as [|b l]; [reflexivity|].
  change ((a :: b :: l) ++ [x]) with (a :: (b :: l) ++ [x]). change (join sep (a :: b :: l)) with (a ++ sep :: join sep (b :: l)).
  rewrite <- app_assoc. cbn [app] in *. rewrite <- IH by congruence. reflexivity.
Qed.
Lemma add_event_represents m es d t : represents m es -> represents (add_event m d t) (es ++ [(d, t)]).
Proof.
  intros [Hs Hf]. unfold add_event. rewrite Hf.
  assert (X : forall v, (texts_on d es = [] -> v = t) -> (texts_on d es <> [] -> v = join newline (texts_on d es) ++ newline :: t) ->
              represents (massign Z.compare m d v) (es ++ [(d, t)])).
  { intros v H1 H2. split; [apply massign_sorted; try exact zc_anti; try exact zc_trans; try exact zc_eq_l; auto|].
    intros d'. rewrite mfind_massign; try exact zc_anti; try exact zc_trans; try exact zc_eq_l; auto. rewrite texts_on_app.
    unfold texts_on at 2. cbn [filter fst]. destruct (Z.compare_spec d d') as [E|E|E].
    - subst d'. rewrite Z.eqb_refl. cbn [map snd]. destruct (texts_on d es) as [|y l] eqn:Et.
      + cbn. now rewrite H1.
      + rewrite H2 by congruence. destruct ((y :: l) ++ [t]) eqn:E2; [destruct l; discriminate|]. rewrite <- E2. now rewrite <- join_snoc by congruence.
    - replace (d =? d') with false by (symmetry; apply Z.eqb_neq; lia). cbn [map]. rewrite app_nil_r. apply Hf.
    - replace (d =? d') with false by (symmetry; apply Z.eqb_neq; lia). cbn [map]. rewrite app_nil_r. apply Hf. }
  destruct (texts_on d es) as [|y l] eqn:Et; apply X; congruence.
Qed.
Definition period_entry (t : str) (p : Z * Z * Z) : Z * str :=
  let '(s, e, f) := p in (f, replace_all (lit "PeriodEnd") (lit (to_string e)) (replace_all (lit "PeriodBegin") (lit (to_string s)) t)).
Lemma add_periods_represents t : forall ps m es, represents m es -> represents (add_periods t ps m) (es ++ map (period_entry t) ps).
Proof.
  induction ps as [|[[s e] f] ps IH]; intros m es H; cbn [add_periods map]; [now rewrite app_nil_r|].
  cbv zeta. apply (add_event_represents _ _ f (snd (period_entry t (s, e, f)))) in H. apply IH in H. rewrite <- app_assoc in H. exact H.
Qed.
Lemma period_entries t ps : Forall2 (fun (p : Z * Z * Z) (e : Z * str) => let '(s, f, fix_) := p in fst e = fix_ /\
      expanded [(lit "PeriodBegin", lit (to_string s)); (lit "PeriodEnd", lit (to_string f))] t (snd e)) ps (map (period_entry t) ps).
Proof.
  induction ps as [|[[s e] f] ps IH]; constructor; [|exact IH]. cbn [period_entry fst snd]. split; [reflexivity|].
  econstructor; [apply replace_all_spec; discriminate|]. econstructor; [apply replace_all_spec; discriminate|constructor].
Qed.

(** * Rows *)
Section Rows.
Context {Number : Type}.
Variables (reg : hdata) (combos : list (str * center)) (tokenize : str -> list str) (number : str -> option Number)
  (regex_replace : str -> str -> str -> outcome str) (fuel : nat).
Let read (desc : str) (ps : list (Z * Z * Z)) : Prop := parse_schedule reg combos fuel (tokenize desc) = Ok ps.
Lemma schedule_iff desc : existsb (Ascii.eqb ":"%char) desc = true <-> is_schedule desc.
Proof.
  unfold is_schedule. rewrite existsb_exists. split.
  - intros (x & H & E). apply Ascii.eqb_eq in E. now subst.
  - intros H. exists ":"%char. split; [exact H|apply Ascii.eqb_refl].
Qed.
Lemma entries_app ms a b ea eb : entries read ms a ea -> entries read ms b eb -> entries read ms (a ++ b) (ea ++ eb).
Proof.
  intros Ha Hb. induction Ha; cbn; [exact Hb| | |].
  - constructor; auto.
  - rewrite <- app_assoc. econstructor; eauto.
  - constructor; auto.
Qed.
(** rows without statements stand for nothing whatever the macros *)
Lemma entries_nothing ms ms' rows : plain_macros ms' -> entries read ms rows [] -> entries read ms' rows [].
Proof.
  intros Hp. remember [] as es eqn:E. intros H. revert E. induction H as [|d t t' rs es X H IH|desc t t' ps es1 rs es Hd R X F H IH|desc t rs es Hd H IH]; intros E.
  - constructor.
  - discriminate.
  - apply app_eq_nil in E as [-> ->]. destruct (expand_spec (fun _ _ _ => Throw) ms' t Hp) as (u & _ & Xu).
    change (@nil (Z * str)) with (@nil (Z * str) ++ []). econstructor; eauto. inversion F; subst. constructor.
  - constructor; auto.
Qed.
Lemma represents_nil m es : represents m es -> m = [] -> es = [].
Proof.
  intros [_ H] ->. destruct es as [|[d t] es]; [reflexivity|]. specialize (H d). unfold texts_on in H. cbn in H. rewrite Z.eqb_refl in H. discriminate.
Qed.
Lemma arranged_add {A} ms (given : list (str * A)) n v : arranged ms given -> mfind ci_compare ms n = None -> arranged (massign ci_compare ms n v) (given ++ [(n, v)]).
Proof.
  intros [P S] N. split; [|apply massign_sorted; try exact ci_compare_antisym; try exact ci_compare_lt_trans; try exact ci_compare_eq_l; auto].
  destruct (minsert_new ci_compare ci_compare_antisym ms n v N S) as (a & b & -> & _ & ->).
  rewrite <- Permutation_middle, P. apply Permutation_cons_append.
Qed.
Record inv (done : list row) (a : acc) (es : list (Z * str)) : Prop := {
  inv_macros : arranged (macros a) (macro_rows number done);
  inv_consts : arranged (consts a) (const_rows number done);
  inv_timeline : represents (timeline a) es;
  inv_entries : plain_macros (macro_rows number done) -> entries read (macros a) done es;
  inv_front : forall pre r post, done = pre ++ r :: post -> is_definition r = true ->
    plain_macros (macro_rows number done) -> entries read (macros a) pre [] }.
Lemma macro_rows_app a b : macro_rows number (a ++ b) = macro_rows number a ++ macro_rows number b.
Proof. unfold macro_rows. now rewrite flat_map_app. Qed.
Lemma const_rows_app a b : const_rows number (a ++ b) = const_rows number a ++ const_rows number b.
Proof. unfold const_rows. now rewrite flat_map_app. Qed.
Lemma plain_perm a b : Permutation a b -> plain_macros b -> plain_macros a.
Proof. intros P H. unfold plain_macros in *. rewrite Forall_forall in *. intros x Hx. apply H. eapply Permutation_in; eauto. Qed.
Lemma snoc_inv (done pre post : list row) r r0 : done ++ [r] = pre ++ r0 :: post ->
  (post = [] /\ pre = done /\ r0 = r) \/ exists post', post = post' ++ [r] /\ done = pre ++ r0 :: post'.
Proof.
  intros E. destruct (exists_last (l := r0 :: post)) as (l & x & El); [discriminate|]. rewrite El, app_assoc in E.
  apply app_inj_tail in E as [-> ->]. destruct post as [|y post].
  - destruct l as [|? [|? ?]]; try discriminate. injection El as ->. left. rewrite app_nil_r. auto.
  - destruct l as [|z l]; [discriminate|]. injection El as -> El. right. exists l. split; [exact El|reflexivity].
Qed.
Lemma inv_event done a es r new tl2 : inv done a es -> is_definition r = false ->
  represents tl2 (es ++ new) -> (plain_macros (macro_rows number done) -> entries read (macros a) [r] new) ->
  inv (done ++ [r]) (Acc (macros a) (consts a) tl2) (es ++ new).
Proof.
  intros I D R X. destruct I as [Im Ic It Ie If].
  assert (M : macro_rows number (done ++ [r]) = macro_rows number done) by (rewrite macro_rows_app; unfold macro_rows at 2; cbn; rewrite D; cbn; now rewrite app_nil_r).
  assert (C : const_rows number (done ++ [r]) = const_rows number done) by (rewrite const_rows_app; unfold const_rows at 2; cbn; rewrite D; cbn; now rewrite app_nil_r).
  constructor; rewrite ?M, ?C; cbn [macros consts timeline]; auto.
  - intros Hp. apply entries_app; auto.
  - intros pre r0 post E D0 Hp. destruct (snoc_inv _ _ _ _ _ E) as [(-> & -> & ->)|(post' & -> & ->)]; [congruence|]. eapply If; eauto.
Qed.
Lemma add_row_inv done a es r a1 : inv done a es -> add_row reg combos tokenize number regex_replace fuel a r = Ok a1 ->
  plain_macros (macro_rows number (done ++ [r])) -> exists new, inv (done ++ [r]) a1 (es ++ new).
Proof.
  intros I E P. pose proof I as [Im Ic It Ie If].
  assert (Pd : plain_macros (macro_rows number done)) by (rewrite macro_rows_app in P; apply Forall_app in P; tauto).
  assert (Pa : plain_macros (macros a)) by (eapply plain_perm; [apply Im|exact Pd]).
  destruct r as [d text|desc text]; cbn [add_row] in E.
  - destruct (expand regex_replace (macros a) text) as [t| | |] eqn:X; cbn [obind] in E; try discriminate. injection E as <-.
    exists [(d, t)]. apply inv_event; auto; [apply add_event_represents, It|]. intros _. constructor; [eapply expand_ok; eauto|constructor].
  - destruct (existsb (Ascii.eqb ":"%char) desc) eqn:Ed.
    + destruct (parse_schedule reg combos fuel (tokenize desc)) as [ps| | |] eqn:S; cbn [obind] in E; try discriminate.
      destruct (expand regex_replace (macros a) text) as [t| | |] eqn:X; cbn [obind] in E; try discriminate. injection E as <-.
      exists (map (period_entry t) ps). apply inv_event; auto.
      * cbn. now rewrite Ed.
      * apply add_periods_represents, It.
      * intros _. rewrite <- (app_nil_r (map _ ps)). econstructor; [apply schedule_iff, Ed|exact S|eapply expand_ok; eauto|apply period_entries|constructor].
    + destruct (mfind ci_compare (macros a) desc) eqn:Fm; [discriminate|].
      destruct (mfind ci_compare (consts a) desc) eqn:Fc; [discriminate|].
      destruct (timeline a) as [|x l] eqn:T; [|discriminate].
      assert (Es : es = []) by (eapply represents_nil; [exact It|reflexivity]). subst es.
      assert (Nd : ~ is_schedule desc) by (rewrite <- schedule_iff; congruence).
      assert (Df : is_definition (Named desc text) = true) by (cbn; now rewrite Ed).
      exists []. cbn [app].
      assert (G : forall a2, (arranged (macros a2) (macro_rows number (done ++ [Named desc text]))) ->
                  arranged (consts a2) (const_rows number (done ++ [Named desc text])) -> timeline a2 = [] ->
                  inv (done ++ [Named desc text]) a2 []).
      { intros a2 A1 A2 A3.
        assert (P2 : plain_macros (macros a2)) by (eapply plain_perm; [apply A1|exact P]).
        assert (X : entries read (macros a2) done []) by (eapply entries_nothing; [exact P2|apply Ie, Pd]).
        constructor; auto.
        - rewrite A3. split; [constructor|intros; reflexivity].
        - intros _. change (@nil (Z * str)) with (@nil (Z * str) ++ []). apply entries_app; [exact X|]. constructor; [exact Nd|constructor].
        - intros pre r0 post Eq D0 _. destruct (snoc_inv _ _ _ _ _ Eq) as [(-> & -> & ->)|(post' & -> & ->)]; [exact X|].
          eapply entries_nothing; [exact P2|]. eapply If; [reflexivity|exact D0|exact Pd]. }
      assert (Mr : macro_rows number [Named desc text] = match number text with None => [(desc, text)] | Some _ => [] end).
      { unfold macro_rows. cbn [flat_map]. rewrite Df. cbn [text_of name_of]. now rewrite app_nil_r. }
      assert (Cr : const_rows number [Named desc text] = match number text with None => [] | Some v => [(desc, v)] end).
      { unfold const_rows. cbn [flat_map]. rewrite Df. cbn [text_of name_of]. now rewrite app_nil_r. }
      destruct (number text) as [v|]; injection E as <-; apply G; cbn [macros consts timeline]; auto;
        rewrite ?macro_rows_app, ?const_rows_app, ?Mr, ?Cr, ?app_nil_r; auto using arranged_add.
Qed.
Lemma add_rows_inv : forall rows done a es a1, inv done a es -> add_rows reg combos tokenize number regex_replace fuel a rows = Ok a1 ->
  plain_macros (macro_rows number (done ++ rows)) -> exists es1, inv (done ++ rows) a1 es1.
Proof.
  induction rows as [|r rows IH]; intros done a es a1 I E P; cbn [add_rows] in E.
  - injection E as <-. rewrite app_nil_r. eauto.
  - destruct (add_row reg combos tokenize number regex_replace fuel a r) as [a2| | |] eqn:E1; cbn [obind] in E; try discriminate.
    replace (done ++ r :: rows) with ((done ++ [r]) ++ rows) in * by (rewrite <- app_assoc; reflexivity).
    assert (P1 : plain_macros (macro_rows number (done ++ [r]))) by (rewrite macro_rows_app in P; apply Forall_app in P; tauto).
    destruct (add_row_inv _ _ _ _ _ I E1 P1) as (new & I1). eapply IH; eauto.
Qed.
Lemma inv_start : inv [] (Acc [] [] []) [].
Proof.
  constructor; cbn.
  - split; constructor.
  - split; constructor.
  - split; [constructor|reflexivity].
  - intros _. constructor.
  - intros [|? ?] r0 post E; discriminate.
Qed.

End Rows.

(** * Parsing the texts *)
Section Parse.
Context {Number Prog : Type}.
Variable parse : omap str Number -> str -> outcome Prog.
Variable eval_date : Z.
Lemma parse_all_keys cs : forall m past future, parse_all parse eval_date cs m = Ok (past, future) -> msorted Z.compare m ->
  map fst (past ++ future) = map fst m /\ Forall (fun e => fst e < eval_date) past /\ Forall (fun e => eval_date <= fst e) future /\
  (forall d p, In (d, p) (past ++ future) -> exists t, In (d, t) m /\ parse cs t = Ok p).
Proof.
  induction m as [|[d t] m IH]; cbn [parse_all]; intros past future E Hs.
  - injection E as <- <-. repeat split; try constructor. intros d p [].
  - apply sorted_inv in Hs as [Hs Hf].
    destruct (parse cs t) as [p| | |] eqn:Ep; cbn [obind] in E; try discriminate.
    destruct (parse_all parse eval_date cs m) as [[pa fu]| | |] eqn:Em; cbn [obind] in E; try discriminate.
    destruct (IH pa fu eq_refl Hs) as (K & P & F & R).
    destruct (eval_date <=? d) eqn:Ed; injection E as <- <-.
    + assert (pa = []).
      { destruct pa as [|[x y] pa]; [reflexivity|]. exfalso. apply Forall_inv in P. cbn [fst] in P. apply Z.leb_le in Ed.
        rewrite Forall_forall in Hf. assert (In x (map fst m)) by (rewrite <- K; left; reflexivity).
        apply in_map_iff in H as ([x' t'] & E' & Hin). cbn in E'. subst x'. apply Hf in Hin. unfold below in Hin. cbn [fst] in Hin. change (d < x) in Hin. lia. }
      subst pa. cbn [app] in *. repeat split; cbn; try (constructor; cbn; auto; lia); auto.
      * now rewrite K.
      * intros d' p' [Hin|Hin]; [injection Hin as -> ->; eauto|]. destruct (R _ _ Hin) as (t' & ? & ?). eauto.
    + repeat split; cbn; auto; try (constructor; cbn; auto; lia).
      * now rewrite K.
      * intros d' p' [Hin|Hin]; [injection Hin as -> ->; eauto|]. destruct (R _ _ Hin) as (t' & ? & ?). eauto.
Qed.
Lemma sorted_keys m : msorted Z.compare m -> StronglySorted Z.lt (map (@fst Z str) m).
Proof.
  induction 1 as [|p m H IH F]; cbn; constructor; auto. rewrite Forall_forall in *. intros x Hx.
  apply in_map_iff in Hx as (q & <- & Hq). apply Z.compare_lt_iff. exact (F q Hq).
Qed.
Lemma represents_dates m es d : represents m es -> In d (map fst m) <-> In d (map fst es).
Proof.
  intros [Hs Hf]. split; intros H.
  - apply in_map_iff in H as ([d' t] & E & Hin). cbn in E. subst d'.
    pose proof (in_mfind _ zc_anti zc_eq_l m d t d Hs Hin (Z.compare_refl d)) as X. rewrite Hf in X.
    unfold texts_on in X. destruct (filter (fun e => fst e =? d) es) as [|q l] eqn:Eq; [discriminate|].
    assert (Hq : In q (filter (fun e => fst e =? d) es)) by (rewrite Eq; left; reflexivity).
    apply filter_In in Hq as [Hq1 Hq2]. apply Z.eqb_eq in Hq2. subst d. now apply in_map.
  - apply in_map_iff in H as ([d' t] & E & Hin). cbn in E. subst d'.
    specialize (Hf d). assert (Ht : In t (texts_on d es)) by (unfold texts_on; apply in_map_iff; exists (d, t); split; [reflexivity|]; apply filter_In; cbn; split; [exact Hin|apply Z.eqb_refl]).
    destruct (texts_on d es) as [|y l]; [destruct Ht|]. apply mfind_in in Hf as (x & Hx & Ex). apply Z.compare_eq_iff in Ex. subst x.
    apply in_map_iff. eexists. split; [|exact Hx]. reflexivity.
Qed.
Lemma timeline_ok cs m es past future : represents m es -> parse_all parse eval_date cs m = Ok (past, future) ->
  timeline_of (parse cs) eval_date es past future.
Proof.
  intros R E. destruct (parse_all_keys cs m past future E (proj1 R)) as (K & P & F & X). constructor; auto.
  - rewrite K. apply sorted_keys, R.
  - intros d. rewrite K. apply represents_dates, R.
  - intros d p Hin. destruct (X d p Hin) as (t & Ht & Ep). destruct R as [Hs Hf].
    pose proof (in_mfind _ zc_anti zc_eq_l m d t d Hs Ht (Z.compare_refl d)) as Y. rewrite Hf in Y.
    destruct (texts_on d es) as [|y l]; [discriminate|]. injection Y as <-. exact Ep.
Qed.
Lemma parse_all_total cs m : (forall d t, In (d, t) m -> exists p, parse cs t = Ok p) -> exists r, parse_all parse eval_date cs m = Ok r.
Proof.
  induction m as [|[d t] m IH]; intros H; cbn [parse_all]; [eauto|].
  destruct (H d t (or_introl eq_refl)) as (p & ->). cbn [obind]. destruct IH as ([pa fu] & ->); [intros; eapply H; right; eauto|].
  cbn [obind]. destruct (eval_date <=? d); eauto.
Qed.
End Parse.
