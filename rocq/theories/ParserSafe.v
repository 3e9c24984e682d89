(** No reading past the end on guarded token lists. *)
From Coq Require Import String Ascii ZArith List Bool Lia Arith.
From Verif Require Import Base StringModel StringSpec StringProofs ScriptModel ParserModel ParserSpec ParserWords ParserProofs.
Import ListNotations.
Local Open Scope nat_scope.

Definition safe {A} (post : A -> Prop) (o : outcome A) : Prop := match o with Ok a => post a | UB => False | _ => True end.
Lemma safe_bind {A B} (P : A -> Prop) (Q : B -> Prop) o f : safe P o -> (forall a, o = Ok a -> P a -> safe Q (f a)) -> safe Q (obind o f).
Proof. destruct o; cbn; intros H1 H2; try exact Logic.I; [|destruct H1]. apply H2; [reflexivity|exact H1]. Qed.
Lemma safe_weaken {A} (P Q : A -> Prop) o : safe P o -> (forall a, P a -> Q a) -> safe Q o.
Proof. destruct o; cbn; auto. Qed.
Lemma safe_any {A} (o : outcome A) : o <> UB -> safe (fun _ => True) o.
Proof. destruct o; cbn; auto. Qed.

(** what an expression eats: brackets match, the last token is not END *)
Definition eaten (cur r : cursor) : Prop := exists p, cur = p ++ r /\ balanced p /\ is (last p []) "END" = false.
Lemma eaten_refl r : eaten r r.
Proof. exists []. repeat split. Qed.
Lemma last_app {A} (p q : list A) d : q <> [] -> last (p ++ q) d = last q d.
Proof.
  intros H. induction p as [|x p IH]; [reflexivity|]. cbn [app]. destruct (p ++ q) eqn:E; [destruct p; [cbn in E; congruence|discriminate]|]. exact IH.
Qed.
Lemma eaten_trans a b c : eaten a b -> eaten b c -> eaten a c.
Proof.
  intros (p & -> & B1 & E1) (q & -> & B2 & E2). exists (p ++ q). split; [apply app_assoc|]. split; [apply balanced_app; assumption|].
  destruct q as [|x q]; [rewrite app_nil_r; exact E1|]. rewrite last_app by discriminate. exact E2.
Qed.
Lemma eaten_one t r : balanced [t] -> is t "END" = false -> eaten (t :: r) r.
Proof. intros H1 H2. exists [t]. auto. Qed.
Lemma eaten_brackets t q u R : starts t "(" = true -> balanced q -> starts u ")" = true -> eaten (t :: q ++ u :: R) R.
Proof.
  intros Ht Hq Hu. exists (t :: q ++ [u]). split; [cbn [app]; rewrite <- app_assoc; reflexivity|].
  assert (Hu' : starts u "(" = false) by (unfold starts in *; apply Ascii.eqb_eq in Hu; rewrite Hu; reflexivity). split.
  - unfold balanced. cbn [depth]. rewrite Ht, depth_app, (balanced_any q 1 Hq). cbn [depth]. rewrite Hu', Hu. reflexivity.
  - rewrite app_comm_cons, last_app by discriminate. cbn [last]. destruct (is u "END") eqn:E; [|reflexivity]. apply is_first in E. unfold starts in Hu.
    apply Ascii.eqb_eq in Hu. rewrite Hu in E. discriminate.
Qed.

(** the inner end is a closing bracket that a balanced text cannot pass *)
Definition weak (cur : cursor) (stop : nat) : Prop := stop = 0 \/
  exists q t R, cur = q ++ t :: R /\ length (t :: R) = stop /\ starts t ")" = true /\ depth 0 (q ++ [t]) = None.
Definition strong (cur : cursor) (stop : nat) : Prop := stop = 0 \/
  exists q t R, cur = q ++ t :: R /\ length (t :: R) = stop /\ starts t ")" = true /\ balanced q.
Lemma close_not_open t : starts t ")" = true -> starts t "(" = false.
Proof. unfold starts. intros H. apply Ascii.eqb_eq in H. rewrite H. reflexivity. Qed.
Lemma strong_weak cur stop : strong cur stop -> weak cur stop.
Proof.
  intros [H|(q & t & R & H1 & H2 & H3 & H4)]; [left; exact H|]. right. exists q, t, R. repeat split; try assumption.
  rewrite depth_app, H4. cbn [depth]. rewrite (close_not_open t H3), H3. reflexivity.
Qed.
Lemma weak_len cur stop : weak cur stop -> stop <= length cur.
Proof. intros [->|(q & t & R & -> & <- & _)]; [lia|]. rewrite app_length. lia. Qed.
Lemma weak_some cur stop : weak cur stop -> at_end cur stop = false -> cur <> [].
Proof. intros [->|(q & t & R & -> & _)] H; [destruct cur; discriminate|destruct q; discriminate]. Qed.
(** a balanced prefix stops before the unmatched bracket *)
Lemma prefix_split (p r q : list str) t R : p ++ r = q ++ t :: R -> balanced p -> depth 0 (q ++ [t]) = None -> exists q', q = p ++ q' /\ r = q' ++ t :: R.
Proof.
  intros E Hp Hd. destruct (app_eq_app _ _ _ _ E) as [l [[-> Hr]|[-> ->]]].
  - destruct l as [|x l]; cbn [app] in Hr.
    + exists []. rewrite app_nil_r in *. split; [rewrite app_nil_r; reflexivity|symmetry; exact Hr].
    + injection Hr as <- HR. exfalso. unfold balanced in Hp. replace (q ++ t :: l) with ((q ++ [t]) ++ l) in Hp by (rewrite <- app_assoc; reflexivity).
      rewrite depth_app, Hd in Hp. discriminate.
  - exists l. auto.
Qed.
Lemma weak_eaten cur r stop : weak cur stop -> eaten cur r -> weak r stop.
Proof.
  intros [->|(q & t & R & E & H2 & H3 & H4)] (p & -> & Hp & _); [left; reflexivity|].
  destruct (prefix_split p r q t R E Hp H4) as (q' & -> & ->). right. exists q', t, R. repeat split; try assumption.
  rewrite <- app_assoc, depth_app in H4. rewrite Hp in H4. exact H4.
Qed.
Lemma strong_eaten cur r stop : strong cur stop -> eaten cur r -> strong r stop.
Proof.
  intros [->|(q & t & R & E & H2 & H3 & H4)] (p & -> & Hp & _); [left; reflexivity|].
  assert (H5 : depth 0 (q ++ [t]) = None) by (rewrite depth_app, H4; cbn [depth]; rewrite (close_not_open t H3), H3; reflexivity).
  destruct (prefix_split p r q t R E Hp H5) as (q' & -> & ->). right. exists q', t, R. repeat split; try assumption.
  unfold balanced in H4. rewrite depth_app, Hp in H4. exact H4.
Qed.
Lemma weak_open t cur stop : starts t "(" = true -> weak (t :: cur) stop -> weak cur stop.
Proof.
  intros Ht [->|(q & u & R & E & H2 & H3 & H4)]; [left; reflexivity|]. destruct q as [|x q]; cbn [app] in E.
  - injection E as -> _. rewrite (close_not_open u H3) in Ht. discriminate.
  - injection E as <- ->. right. exists q, u, R. repeat split; try assumption. cbn [app depth] in H4. rewrite Ht in H4.
    destruct (depth 0 (q ++ [u])) as [d|] eqn:D; [|reflexivity]. apply (depth_shift _ 0 d 1) in D. cbn in D. congruence.
Qed.

Lemma find_match_spec stop : forall cur d close, find_match (S d) cur stop = Ok close ->
  exists q t R, cur = q ++ t :: R /\ close = t :: R /\ starts t ")" = true /\ depth d q = Some 0.
Proof.
  induction cur as [|u r IH]; intros d close; cbn [find_match]; [destruct (at_end [] stop); discriminate|].
  destruct (at_end (u :: r) stop); [discriminate|]. destruct (starts u "(") eqn:E.
  - assert (F : starts u ")" = false) by (unfold starts in *; apply Ascii.eqb_eq in E; rewrite E; reflexivity). rewrite F.
    replace (S d + 1 - 0) with (S (S d)) by lia. intros H. destruct (IH (S d) close H) as (q & t & R & -> & -> & H1 & H2).
    exists (u :: q), t, R. repeat split; try assumption. cbn [depth]. rewrite E. exact H2.
  - destruct (starts u ")") eqn:F.
    + replace (S d + 0 - 1) with d by lia. destruct d as [|d].
      * intros H. assert (close = u :: r) by congruence. subst. exists [], u, r. repeat split; assumption.
      * intros H. destruct (IH d close H) as (q & t & R & -> & -> & H1 & H2). exists (u :: q), t, R. repeat split; try assumption.
        cbn [depth]. rewrite E, F. exact H2.
    + replace (S d + 0 - 0) with (S d) by lia. intros H. destruct (IH d close H) as (q & t & R & -> & -> & H1 & H2).
      exists (u :: q), t, R. repeat split; try assumption. cbn [depth]. rewrite E, F. exact H2.
Qed.
Lemma find_match_safe stop : forall cur d, stop <= length cur -> find_match d cur stop <> UB.
Proof.
  induction cur as [|u r IH]; intros d H; cbn [find_match].
  - assert (stop = 0) by (cbn in H; lia). subst. discriminate.
  - destruct (at_end (u :: r) stop) eqn:E; [discriminate|]. apply Nat.eqb_neq in E. cbn [length] in *.
    destruct (d + _ - _); [discriminate|]. apply IH. lia.
Qed.

(** single tokens *)
Definition paren_check (c : ascii) : bool := negb (sort_val c =? sort_val "(")%Z || Ascii.eqb c "(".
Lemma paren_starts t : is t "(" = true -> starts t "(" = true.
Proof.
  intros H. apply is_first in H. assert (W : paren_check (first t) = true) by (apply all_ascii; vm_compute; reflexivity).
  unfold paren_check in W. change (first (lit "(")) with "("%char in H. rewrite H, Z.eqb_refl in W. exact W.
Qed.
Lemma balanced_char t : first t <> "("%char -> first t <> ")"%char -> balanced [t].
Proof.
  intros H1 H2. unfold balanced. cbn [depth]. unfold starts. destruct (Ascii.eqb_spec (first t) "("); [contradiction|].
  destruct (Ascii.eqb_spec (first t) ")"); [contradiction|]. reflexivity.
Qed.
Lemma not_end t : sort_val (first t) <> sort_val "E" -> is t "END" = false.
Proof. intros H. destruct (is t "END") eqn:E; [|reflexivity]. apply is_first in E. destruct (H E). Qed.
Lemma sign_token t op : sign_of (first t) = Some op -> balanced [t] /\ is t "END" = false.
Proof.
  unfold sign_of. intros H. destruct (Ascii.eqb_spec (first t) "+") as [E|_].
  - split; [apply balanced_char; rewrite E; discriminate|apply not_end; rewrite E; discriminate].
  - destruct (Ascii.eqb_spec (first t) "-") as [E|_]; [|discriminate].
    split; [apply balanced_char; rewrite E; discriminate|apply not_end; rewrite E; discriminate].
Qed.
Lemma op_token l t op : op_at l (first t) = Some op -> balanced [t] /\ is t "END" = false.
Proof.
  intros H. assert (G : In (first t) (lit "+-*/^")).
  { destruct l; cbn [op_at] in H;
      repeat match type of H with (if Ascii.eqb ?a ?b then _ else _) = _ => destruct (Ascii.eqb_spec a b) as [->|_]; [cbn; tauto|] end; discriminate. }
  cbn in G. split; [apply balanced_char|apply not_end]; repeat destruct G as [<-|G]; try discriminate; destruct G.
Qed.
Definition digit_check (c : ascii) : bool := negb (is_digit c) || (negb (Ascii.eqb c "(") && negb (Ascii.eqb c ")") && negb (sort_val c =? sort_val "E")%Z).
Lemma digit_token t : is_digit (first t) = true -> balanced [t] /\ is t "END" = false.
Proof.
  intros H. assert (W : digit_check (first t) = true) by (apply all_ascii; vm_compute; reflexivity). unfold digit_check in W. rewrite H in W. cbn [negb orb] in W.
  apply andb_prop in W as [W W3]. apply andb_prop in W as [W1 W2]. split.
  - apply balanced_char; [destruct (Ascii.eqb_spec (first t) "(")|destruct (Ascii.eqb_spec (first t) ")")]; try discriminate; assumption.
  - apply not_end. intros E. rewrite E, Z.eqb_refl in W3. discriminate.
Qed.
Lemma valid_token t : valid_name t = true -> balanced [t] /\ is t "END" = false.
Proof.
  unfold valid_name. intros H. apply andb_prop in H as [H H2]. apply andb_prop in H as [H H1]. apply Z.leb_le in H. split.
  - apply balanced_char; intros E; rewrite E in H; vm_compute in H; congruence.
  - apply negb_true_iff in H2. unfold is_reserved, reserved in H2. cbn [existsb] in H2. destruct (is t "IF"); [discriminate|]. cbn [orb] in H2.
    destruct (is t "END"); [discriminate|reflexivity].
Qed.
Lemma func_keyword t g : func_of t = Some g -> exists k, In k function_names /\ keyword t k.
Proof.
  unfold func_of. intros H.
  repeat match type of H with (if is t ?k then _ else _) = _ => destruct (is t k) eqn:?E; [exists k; split; [cbn; tauto|apply is_keyword; assumption]|clear E] end.
  discriminate.
Qed.
Lemma func_token t k : In k function_names -> keyword t k -> balanced [t] /\ is t "END" = false.
Proof.
  intros Hk H. split.
  - apply balanced_one, letter_wordy, (keyword_letter t k); [|exact H]. cbn in *. tauto.
  - rewrite (is_other t _ _ H). cbn in Hk. repeat destruct Hk as [<-|Hk]; try reflexivity. destruct Hk.
Qed.

Definition mark_check (c : ascii) : bool :=
  forallb (fun m => negb (sort_val c =? sort_val m)%Z || (negb (Ascii.eqb c "(") && negb (Ascii.eqb c ")") && negb (sort_val c =? sort_val "E")%Z)) (lit ";:=!<>").
Lemma mark_balanced t m : In m (lit ";:=!<>") -> sort_val (first t) = sort_val m -> balanced [t] /\ is t "END" = false.
Proof.
  intros Hm H. assert (W : mark_check (first t) = true) by (apply all_ascii; vm_compute; reflexivity). unfold mark_check in W.
  rewrite forallb_forall in W. specialize (W m Hm). rewrite H, Z.eqb_refl in W. cbn [negb orb] in W.
  apply andb_prop in W as [W W3]. apply andb_prop in W as [W1 W2]. split.
  - apply balanced_char; [destruct (Ascii.eqb_spec (first t) "(")|destruct (Ascii.eqb_spec (first t) ")")]; try discriminate; assumption.
  - apply not_end. intros E. rewrite <- H, E, Z.eqb_refl in W3. discriminate.
Qed.
Lemma semi_token t : is t ";" || is t ":" = true -> balanced [t] /\ is t "END" = false.
Proof.
  intros H. destruct (is t ";") eqn:E; [apply (mark_balanced t ";"); [cbn; tauto|exact (is_first _ _ E)]|]. cbn [orb] in H.
  apply (mark_balanced t ":"); [cbn; tauto|exact (is_first _ _ H)].
Qed.
Lemma compare_token t k : In k ["="; "!="; "<"; ">"; "<="; ">="]%string -> is t k = true -> balanced [t] /\ is t "END" = false.
Proof.
  intros Hk H. apply is_first in H. apply (mark_balanced t (first (lit k))); [|exact H]. cbn in Hk. repeat destruct Hk as [<-|Hk]; cbn; try tauto. 
Qed.

Section Safe.
Context {N : Num}.
Variable to_double : str -> outcome num.
Variable dcf : str -> str -> str -> outcome num.
Variable consts : list (str * num).
Variable minus_one : num.
Hypothesis to_double_safe : forall t, to_double t <> UB.
Hypothesis dcf_safe : forall b s e, dcf b s e <> UB.
Variable toks : list str.
Hypothesis Hdcf : dcf_complete toks.
Hypothesis Hlast : forall p t, toks = p ++ [t] -> forall k, In k function_names -> ~ keyword t k.
Notation parse_level := (parse_level to_double dcf consts).
Notation level_loop := (level_loop to_double dcf consts).
Notation parse_unary := (parse_unary to_double dcf consts).
Notation parse_paren := (parse_paren to_double dcf consts).
Notation parse_atom := (parse_atom to_double dcf consts).
Notation parse_args := (parse_args to_double dcf consts).
Notation args_loop := (args_loop to_double dcf consts).

Definition from (cur : cursor) : Prop := exists p, toks = p ++ cur.
Lemma from_eaten cur r : from cur -> eaten cur r -> from r.
Proof. intros (p & H) (q & -> & _). exists (p ++ q). rewrite H. apply app_assoc. Qed.
Lemma from_tail t r : from (t :: r) -> from r.
Proof. intros (p & H). exists (p ++ [t]). rewrite H, <- app_assoc. reflexivity. Qed.
Lemma from_app p r : from (p ++ r) -> from r.
Proof. intros (q & H). exists (q ++ p). rewrite H. apply app_assoc. Qed.

Lemma find_plain l : forall d X stop, Forall (fun t => starts t "(" = false /\ starts t ")" = false) l ->
  find_match (S d) (l ++ X) stop = find_match (S d) X stop \/ find_match (S d) (l ++ X) stop = Throw.
Proof.
  induction l as [|u l IH]; intros d X stop H; [left; reflexivity|]. inversion H as [|? ? [H1 H2] H3]; subst. cbn [app find_match].
  destruct (at_end (u :: l ++ X) stop); [right; reflexivity|]. rewrite H1, H2. replace (S d + 0 - 0) with (S d) by lia. apply IH, H3.
Qed.
Lemma plain_all l : Forall plain_token l -> Forall (fun t => starts t "(" = false /\ starts t ")" = false) l.
Proof. apply Forall_impl. intros t H. split; apply plain_starts; try exact H; cbn; tauto. Qed.
Lemma dcf_call_safe t cur stop : from (t :: cur) -> keyword t "DCF" -> safe (fun x => eaten cur (snd x)) (parse_dcf dcf cur stop).
Proof.
  intros (p & Hp) Ht. destruct (Hdcf p t cur Hp Ht) as [(u & r' & -> & Hu)|(b & s & e & R & Nb & Ns & Ne & Pb & Ps & Pe & ->)].
  - unfold parse_dcf. cbn [deref obind]. assert (E : starts u "(" = false).
    { unfold starts. destruct u as [|c u]; [reflexivity|]. cbn [hd] in Hu. cbn [first]. destruct (Ascii.eqb_spec c "("); [contradiction|reflexivity]. }
    rewrite E. exact Logic.I.
  - assert (Ea : eaten (lit "(" :: b ++ lit "," :: s ++ lit "," :: e ++ lit ")" :: R) R).
    { replace (b ++ lit "," :: s ++ lit "," :: e ++ lit ")" :: R) with ((b ++ lit "," :: s ++ lit "," :: e) ++ lit ")" :: R)
        by (rewrite <- !app_assoc; cbn [app]; rewrite <- app_assoc; reflexivity).
      apply eaten_brackets; [reflexivity| |reflexivity]. apply balanced_app; [apply plain_balanced, Pb|]. apply balanced_cons; [reflexivity|].
      apply balanced_app; [apply plain_balanced, Ps|]. apply balanced_cons; [reflexivity|apply plain_balanced, Pe]. }
    assert (Fm : find_match 1 (b ++ lit "," :: s ++ lit "," :: e ++ lit ")" :: R) stop = Ok (lit ")" :: R) \/
                 find_match 1 (b ++ lit "," :: s ++ lit "," :: e ++ lit ")" :: R) stop = Throw).
    { replace (b ++ lit "," :: s ++ lit "," :: e ++ lit ")" :: R) with ((b ++ lit "," :: s ++ lit "," :: e) ++ lit ")" :: R)
        by (rewrite <- !app_assoc; cbn [app]; rewrite <- app_assoc; reflexivity).
      destruct (find_plain (b ++ lit "," :: s ++ lit "," :: e) 0 (lit ")" :: R) stop) as [E|E].
      - apply Forall_app; split; [apply plain_all, Pb|]. constructor; [split; reflexivity|].
        apply Forall_app; split; [apply plain_all, Ps|]. constructor; [split; reflexivity|]. apply plain_all, Pe.
      - rewrite E. cbn [find_match]. destruct (at_end (lit ")" :: R) stop); [right; reflexivity|left; reflexivity].
      - right. exact E. }
    destruct Fm as [Fm|Fm].
    + rewrite parse_dcf_eq by assumption. apply (safe_bind (fun _ => True)); [apply safe_any, dcf_safe|]. intros v _ _. exact Ea.
    + unfold parse_dcf. cbn [deref advance obind]. change (starts (lit "(") "(") with true. cbn [negb]. rewrite Fm. exact Logic.I.
Qed.

(** * expressions *)
Definition esafe (cur : cursor) (o : outcome (expr * cursor)) : Prop := safe (fun x => eaten cur (snd x)) o.
Theorem exprs_safe fuel :
  (forall l cur stop, from cur -> cur <> [] -> weak cur stop -> esafe cur (parse_level fuel l cur stop)) /\
  (forall l a cur stop, from cur -> weak cur stop -> esafe cur (level_loop fuel l a cur stop)) /\
  (forall cur stop, from cur -> cur <> [] -> weak cur stop -> esafe cur (parse_unary fuel cur stop)) /\
  (forall cur stop, from cur -> cur <> [] -> weak cur stop -> esafe cur (parse_paren fuel cur stop)) /\
  (forall cur stop, from cur -> cur <> [] -> weak cur stop -> esafe cur (parse_atom fuel cur stop)) /\
  (forall cur stop, from cur -> cur <> [] -> weak cur stop -> safe (fun x => eaten cur (snd x)) (parse_args fuel cur stop)) /\
  (forall cur q t R stop, from cur -> weak cur stop -> cur = q ++ t :: R -> starts t ")" = true -> balanced q ->
     safe (fun _ => True) (args_loop fuel cur (length (t :: R)) stop)).
Proof.
  induction fuel as [|f (IHl & IHo & IHu & IHp & IHa & IHg & IHr)]; [repeat apply conj; intros; exact Logic.I|].
  repeat apply conj.
  - intros l cur stop Hf Hn Hw. rewrite parse_level_S.
    assert (G : esafe cur (do (a, r) <- parse_level f (below l) cur stop; level_loop f l a r stop)).
    { eapply safe_bind; [apply (IHl (below l) cur stop Hf Hn Hw)|]. intros [a r] _ He. cbn [snd] in He.
      eapply safe_weaken; [apply (IHo l a r stop); [exact (from_eaten _ _ Hf He)|exact (weak_eaten _ _ _ Hw He)]|].
      intros x Hx. exact (eaten_trans _ _ _ He Hx). }
    destruct l; try exact G. apply IHu; assumption.
  - intros l a cur stop Hf Hw. rewrite level_loop_S. destruct (at_end cur stop) eqn:E; [apply eaten_refl|].
    pose proof (weak_some _ _ Hw E) as Hn. destruct cur as [|t cur]; [congruence|]. cbn [deref obind].
    destruct (op_at l (first t)) as [op|] eqn:O; [|apply eaten_refl]. cbn [advance obind]. destruct (op_token _ _ _ O) as [B1 B2].
    pose proof (eaten_one t cur B1 B2) as He. pose proof (weak_eaten _ _ _ Hw He) as Hw'.
    destruct (at_end cur stop) eqn:E2; [exact Logic.I|].
    eapply safe_bind; [apply (IHl (below l) cur stop (from_tail _ _ Hf) (weak_some _ _ Hw' E2) Hw')|]. intros [b r] _ Hr. cbn [snd] in Hr.
    eapply safe_weaken; [apply (IHo l (EBin None op a b []) r stop); [exact (from_eaten _ _ (from_tail _ _ Hf) Hr)|exact (weak_eaten _ _ _ Hw' Hr)]|].
    intros x Hx. exact (eaten_trans _ _ _ He (eaten_trans _ _ _ Hr Hx)).
  - intros cur stop Hf Hn Hw. rewrite parse_unary_S. destruct cur as [|t cur]; [congruence|].
    assert (C : exists sign, (if at_end (t :: cur) stop then Ok None else do t0 <- deref (t :: cur); Ok (sign_of (first t0))) = Ok sign /\
                (sign = None \/ sign = sign_of (first t))) by (destruct (at_end (t :: cur) stop); eexists; split; [reflexivity| |reflexivity|]; auto).
    destruct C as (sign & -> & Hsign). cbn [obind]. destruct sign as [op|]; [|apply IHp; assumption].
    destruct Hsign as [Hsign|Hsign]; [discriminate|]. symmetry in Hsign. cbn [advance obind]. destruct (sign_token _ _ Hsign) as [B1 B2].
    pose proof (eaten_one t cur B1 B2) as He. pose proof (weak_eaten _ _ _ Hw He) as Hw'.
    destruct (at_end cur stop) eqn:E2; [exact Logic.I|].
    eapply safe_bind; [apply (IHu cur stop (from_tail _ _ Hf) (weak_some _ _ Hw' E2) Hw')|]. intros [b r] _ Hr. cbn [snd] in Hr.
    exact (eaten_trans _ _ _ He Hr).
  - intros cur stop Hf Hn Hw. rewrite parse_paren_S. destruct cur as [|t cur]; [congruence|]. cbn [deref obind].
    destruct (is t "(") eqn:Ht; [|apply IHa; assumption]. cbn [advance obind].
    assert (St : starts t "(" = true) by (apply paren_starts, Ht). pose proof (weak_open _ _ _ St Hw) as Hw'.
    eapply safe_bind; [apply (safe_any (find_match 1 cur stop)), find_match_safe, (weak_len _ _ Hw')|]. intros close Hc _.
    destruct (find_match_spec _ _ _ _ Hc) as (q & u & R & -> & -> & Hu & Hq).
    eapply safe_bind; [apply (IHl L1 (q ++ u :: R) (length (u :: R))); [exact (from_tail _ _ Hf)|destruct q; discriminate|]|].
    { apply strong_weak. right. exists q, u, R. auto. }
    intros [e r] _ _. cbn [advance obind]. apply eaten_brackets; assumption.
  - intros cur stop Hf Hn Hw. rewrite parse_atom_S. destruct cur as [|t cur]; [congruence|]. cbn [deref advance obind].
    destruct (is_digit (first t)) eqn:D.
    { apply (safe_bind (fun _ => True)); [apply safe_any, to_double_safe|]. intros v _ _. apply eaten_one; apply digit_token, D. }
    destruct (func_of t) as [g|] eqn:G.
    + destruct (func_keyword _ _ G) as (k & Hk & Kt). destruct (func_token _ _ Hk Kt) as [B1 B2].
      pose proof (eaten_one t cur B1 B2) as He. pose proof (weak_eaten _ _ _ Hw He) as Hw'.
      assert (Nc : cur <> []).
      { intros ->. destruct Hf as (p & Hp). exact (Hlast p t Hp k Hk Kt). }
      assert (A : esafe (t :: cur) (do (args, r) <- parse_args f cur stop; do e <- apply_func g args; Ok (e, r))).
      { eapply safe_bind; [apply (IHg cur stop (from_tail _ _ Hf) Nc Hw')|]. intros [args r] _ Hr. cbn [snd] in Hr.
        apply (safe_bind (fun _ => True)); [apply safe_any; unfold apply_func; destruct g as [| | |], args as [|? [|? ?]]; try discriminate; destruct (_ <=? _); discriminate|].
        intros e _ _. exact (eaten_trans _ _ _ He Hr). }
      destruct g; try exact A. assert (Kd : keyword t "DCF").
      { unfold func_of in G. apply is_keyword.
        repeat match type of G with (if is t ?k then _ else _) = _ => destruct (is t k) eqn:?Q; try discriminate end. reflexivity. }
      eapply safe_bind; [apply (dcf_call_safe t cur stop Hf Kd)|]. intros [v r] _ Hr. exact (eaten_trans _ _ _ He Hr).
    + unfold parse_var. destruct (valid_name t) eqn:V; [|exact Logic.I]. apply eaten_one; apply valid_token, V.
  - intros cur stop Hf Hn Hw. rewrite parse_args_S. destruct cur as [|t cur]; [congruence|]. cbn [deref obind].
    destruct (starts t "(") eqn:St; [|exact Logic.I]. cbn [negb advance obind]. pose proof (weak_open _ _ _ St Hw) as Hw'.
    eapply safe_bind; [apply (safe_any (find_match 1 cur stop)), find_match_safe, (weak_len _ _ Hw')|]. intros close Hc _.
    destruct (find_match_spec _ _ _ _ Hc) as (q & u & R & -> & -> & Hu & Hq).
    eapply safe_bind; [apply (IHr (q ++ u :: R) q u R stop (from_tail _ _ Hf) Hw' eq_refl Hu Hq)|].
    intros args _ _. cbn [advance obind]. apply eaten_brackets; assumption.
  - intros cur q t R stop Hf Hw Ec Ht Hq. rewrite args_loop_S. destruct (at_end cur _); [exact Logic.I|].
    assert (Sc : strong cur (length (t :: R))) by (right; exists q, t, R; auto).
    eapply safe_bind; [apply (IHl L1 cur stop Hf); [subst cur; destruct q; discriminate|exact Hw]|]. intros [e r] _ Hr. cbn [snd] in Hr.
    pose proof (strong_eaten _ _ _ Sc Hr) as [Sr|(q' & t' & R' & -> & Hl & Ht' & Hq')]; [discriminate|].
    pose proof (from_eaten _ _ Hf Hr) as Hf'. pose proof (weak_eaten _ _ _ Hw Hr) as Hw'. rewrite <- Hl.
    assert (Ex : exists u r', q' ++ t' :: R' = u :: r') by (destruct q'; eexists _, _; reflexivity). destruct Ex as (u & r' & Eu). rewrite Eu. cbn [deref obind].
    destruct (starts u ",") eqn:Su.
    + cbn [advance obind]. assert (Bu : balanced [u] /\ is u "END" = false).
      { unfold starts in Su. apply Ascii.eqb_eq in Su. split; [apply balanced_char; rewrite Su; discriminate|apply not_end; rewrite Su; discriminate]. }
      destruct q' as [|x q']; cbn [app] in Eu.
      { injection Eu as -> _. unfold starts in *. apply Ascii.eqb_eq in Su, Ht'. rewrite Su in Ht'. discriminate. }
      injection Eu as -> <-. pose proof (eaten_one u (q' ++ t' :: R') (proj1 Bu) (proj2 Bu)) as Hu.
      assert (Bq : balanced q').
      { unfold balanced in *. change (u :: q') with ([u] ++ q') in Hq'. rewrite depth_app in Hq'. destruct Bu as [Bu _]. unfold balanced in Bu. rewrite Bu in Hq'. exact Hq'. }
      eapply safe_bind; [apply (IHr (q' ++ t' :: R') q' t' R' stop); [exact (from_tail _ _ Hf')|exact (weak_eaten _ _ _ Hw' Hu)|reflexivity|exact Ht'|exact Bq]|].
      intros es _ _. exact Logic.I.
    + destruct (at_end (u :: r') _); [|exact Logic.I]. cbn [obind]. rewrite <- Eu in *.
      eapply safe_bind; [apply (IHr (q' ++ t' :: R') q' t' R' stop); [exact Hf'|exact Hw'|reflexivity|exact Ht'|exact Hq']|]. intros es _ _. exact Logic.I.
Qed.

(** * conditions: the last token is END *)
Notation optionals := (optionals to_double).
Notation parse_elem := (parse_elem to_double dcf consts minus_one).
Notation parse_cond := (parse_cond to_double dcf consts minus_one).
Notation or_loop := (or_loop to_double dcf consts minus_one).
Notation parse_cond2 := (parse_cond2 to_double dcf consts minus_one).
Notation and_loop := (and_loop to_double dcf consts minus_one).
Notation cond_paren := (cond_paren to_double dcf consts minus_one).
Notation parse_statement := (parse_statement to_double dcf consts minus_one).
Notation block := (block to_double dcf consts minus_one).
Hypothesis to_double_word : forall t v, to_double t = Ok v -> first t <> "("%char /\ first t <> ")"%char /\ ~ keyword t "END".
Definition ended : Prop := exists p t, toks = p ++ [t] /\ keyword t "END".

Lemma from_last cur : ended -> from cur -> cur <> [] -> is (last cur []) "END" = true.
Proof.
  intros (p & t & E & Ht) (q & Eq) Hn. assert (L : last toks [] = last cur []) by (rewrite Eq; apply last_app, Hn).
  rewrite <- L, E, last_app by discriminate. apply is_keyword, Ht.
Qed.
Lemma eaten_some cur r : ended -> from cur -> cur <> [] -> eaten cur r -> r <> [].
Proof.
  intros He Hf Hn (p & E & _ & Hl) ->. rewrite app_nil_r in E. subst p. rewrite (from_last cur He Hf Hn) in Hl. discriminate.
Qed.
Lemma optionals_safe : ended -> forall n cur e stop, length cur <= n -> from cur -> cur <> [] -> weak cur stop ->
  safe (fun x => eaten cur (snd x)) (optionals e cur stop).
Proof.
  intros He. induction n as [|n IH]; intros cur e stop Hlen Hf Hn Hw; destruct cur as [|t r]; try congruence; [cbn in Hlen; lia|].
  cbn [ParserModel.optionals]. destruct (is t ";" || is t ":") eqn:Et; [|apply eaten_refl].
  assert (Bt : balanced [t] /\ is t "END" = false).
  { apply semi_token, Et. }
  pose proof (eaten_one t r (proj1 Bt) (proj2 Bt)) as H1. pose proof (weak_eaten _ _ _ Hw H1) as Hw1.
  destruct (at_end r stop) eqn:E; [exact Logic.I|]. pose proof (weak_some _ _ Hw1 E) as Nr. destruct r as [|u r]; [congruence|].
  apply (safe_bind (fun _ => True)); [apply safe_any, to_double_safe|]. intros v Hv _. destruct (to_double_word _ _ Hv) as (W1 & W2 & W3).
  assert (Eu : is u "END" = false) by (destruct (is u "END") eqn:Q; [apply is_keyword in Q; contradiction|reflexivity]).
  pose proof (eaten_one u r (balanced_char u W1 W2) Eu) as H2. pose proof (from_tail _ _ Hf) as Hf1.
  pose proof (eaten_some _ _ He Hf1 ltac:(discriminate) H2) as Nr2.
  eapply safe_weaken; [apply (IH r v stop); [cbn [length] in Hlen; lia|exact (from_tail _ _ Hf1)|exact Nr2|exact (weak_eaten _ _ _ Hw1 H2)]|].
  intros x Hx. exact (eaten_trans _ _ _ H1 (eaten_trans _ _ _ H2 Hx)).
Qed.
Lemma build_safe c a b e : safe (fun _ => balanced [c] /\ is c "END" = false) (build c a b e).
Proof.
  unfold build. repeat match goal with |- safe _ (if is c ?k then _ else _) => destruct (is c k) eqn:?Q; [apply (compare_token c k); [cbn; tauto|assumption]|clear Q] end.
  exact Logic.I.
Qed.
(** after any token that is not at the inner end *)
Lemma strong_next c r stop : strong (c :: r) stop -> at_end (c :: r) stop = false -> weak r stop.
Proof.
  intros [->|(q & t & R & E & Hl & Ht & Hq)] Hn; [left; reflexivity|]. destruct q as [|x q]; cbn [app] in E.
  - exfalso. rewrite E in Hn. unfold at_end in Hn. rewrite Hl, Nat.eqb_refl in Hn. discriminate.
  - injection E as <- ->. right. exists q, t, R. repeat split; try assumption. rewrite depth_app. unfold balanced in Hq. cbn [depth] in Hq.
    destruct (starts c "(").
    + destruct (depth 0 q) as [d|] eqn:D; [|reflexivity]. apply (depth_shift _ 0 d 1) in D. cbn [Nat.add] in D. rewrite D in Hq. injection Hq as Hq. lia.
    + destruct (starts c ")"); [discriminate|]. rewrite Hq. cbn [depth]. rewrite (close_not_open t Ht), Ht. reflexivity.
Qed.
Definition csafe (cur : cursor) (o : outcome (cond * cursor)) : Prop := safe (fun x => eaten cur (snd x)) o.
Lemma elem_safe f cur stop : ended -> from cur -> cur <> [] -> strong cur stop -> csafe cur (parse_elem f cur stop).
Proof.
  intros He Hf Hn Hs. unfold ParserModel.parse_elem. destruct (exprs_safe f) as (Hl & _).
  eapply safe_bind; [apply (Hl L1 cur stop Hf Hn (strong_weak _ _ Hs))|]. intros [a r] _ H1. cbn [snd] in H1.
  pose proof (strong_eaten _ _ _ Hs H1) as S1. pose proof (from_eaten _ _ Hf H1) as F1. destruct (at_end r stop) eqn:E1; [exact Logic.I|].
  pose proof (weak_some _ _ (strong_weak _ _ S1) E1) as N1. destruct r as [|c r]; [congruence|]. cbn [deref advance obind].
  destruct (at_end r stop) eqn:E2; [exact Logic.I|]. pose proof (strong_next _ _ _ S1 E1) as W2. pose proof (weak_some _ _ W2 E2) as N2.
  pose proof (from_tail _ _ F1) as F2.
  eapply safe_bind; [apply (Hl L1 r stop F2 N2 W2)|]. intros [b r3] _ H3. cbn [snd] in H3.
  pose proof (eaten_some _ _ He F2 N2 H3) as N3. pose proof (from_eaten _ _ F2 H3) as F3.
  eapply safe_bind; [apply (optionals_safe He (length r3) r3 minus_one stop (le_n _) F3 N3 (weak_eaten _ _ _ W2 H3))|].
  intros [e r4] _ H4. cbn [snd] in H4. eapply safe_bind; [apply build_safe|]. intros x _ [B1 B2].
  exact (eaten_trans _ _ _ H1 (eaten_trans _ _ _ (eaten_one c r B1 B2) (eaten_trans _ _ _ H3 H4))).
Qed.
Lemma key_balanced t k : In k keywords -> keyword t k -> balanced [t].
Proof. intros Hk H. apply balanced_one, letter_wordy, (keyword_letter t k Hk H). Qed.
Theorem conds_safe fuel : ended ->
  (forall cur stop, from cur -> cur <> [] -> strong cur stop -> csafe cur (parse_cond fuel cur stop)) /\
  (forall a cur stop, from cur -> strong cur stop -> csafe cur (or_loop fuel a cur stop)) /\
  (forall cur stop, from cur -> cur <> [] -> strong cur stop -> csafe cur (parse_cond2 fuel cur stop)) /\
  (forall a cur stop, from cur -> strong cur stop -> csafe cur (and_loop fuel a cur stop)) /\
  (forall cur stop, from cur -> cur <> [] -> strong cur stop -> csafe cur (cond_paren fuel cur stop)).
Proof.
  intros He. induction fuel as [|f (IHc & IHo & IH2 & IHa & IHp)]; [repeat apply conj; intros; exact Logic.I|].
  repeat apply conj.
  - intros cur stop Hf Hn Hs. rewrite parse_cond_S. eapply safe_bind; [apply (IH2 cur stop Hf Hn Hs)|]. intros [a r] _ H1. cbn [snd] in H1.
    eapply safe_weaken; [apply (IHo a r stop (from_eaten _ _ Hf H1) (strong_eaten _ _ _ Hs H1))|]. intros x Hx. exact (eaten_trans _ _ _ H1 Hx).
  - intros a cur stop Hf Hs. rewrite or_loop_S. destruct (at_end cur stop) eqn:E; [apply eaten_refl|].
    pose proof (weak_some _ _ (strong_weak _ _ Hs) E) as Hn. destruct cur as [|t r]; [congruence|]. cbn [deref obind].
    destruct (is t "OR") eqn:Et; [|apply eaten_refl]. cbn [advance obind]. apply is_keyword in Et.
    assert (H1 : eaten (t :: r) r) by (apply eaten_one; [apply (key_balanced t "OR"%string); [cbn; tauto|exact Et]|rewrite (is_other t _ _ Et); reflexivity]).
    pose proof (strong_eaten _ _ _ Hs H1) as S1. destruct (at_end r stop) eqn:E2; [exact Logic.I|]. pose proof (weak_some _ _ (strong_weak _ _ S1) E2) as N1.
    pose proof (from_tail _ _ Hf) as F1. eapply safe_bind; [apply (IH2 r stop F1 N1 S1)|]. intros [b r2] _ H2. cbn [snd] in H2.
    eapply safe_weaken; [apply (IHo (COr no_flags a b) r2 stop (from_eaten _ _ F1 H2) (strong_eaten _ _ _ S1 H2))|].
    intros x Hx. exact (eaten_trans _ _ _ H1 (eaten_trans _ _ _ H2 Hx)).
  - intros cur stop Hf Hn Hs. rewrite parse_cond2_S. eapply safe_bind; [apply (IHp cur stop Hf Hn Hs)|]. intros [a r] _ H1. cbn [snd] in H1.
    eapply safe_weaken; [apply (IHa a r stop (from_eaten _ _ Hf H1) (strong_eaten _ _ _ Hs H1))|]. intros x Hx. exact (eaten_trans _ _ _ H1 Hx).
  - intros a cur stop Hf Hs. rewrite and_loop_S. destruct (at_end cur stop) eqn:E; [apply eaten_refl|].
    pose proof (weak_some _ _ (strong_weak _ _ Hs) E) as Hn. destruct cur as [|t r]; [congruence|]. cbn [deref obind].
    destruct (is t "AND") eqn:Et; [|apply eaten_refl]. cbn [advance obind]. apply is_keyword in Et.
    assert (H1 : eaten (t :: r) r) by (apply eaten_one; [apply (key_balanced t "AND"%string); [cbn; tauto|exact Et]|rewrite (is_other t _ _ Et); reflexivity]).
    pose proof (strong_eaten _ _ _ Hs H1) as S1. destruct (at_end r stop) eqn:E2; [exact Logic.I|]. pose proof (weak_some _ _ (strong_weak _ _ S1) E2) as N1.
    pose proof (from_tail _ _ Hf) as F1. eapply safe_bind; [apply (IHp r stop F1 N1 S1)|]. intros [b r2] _ H2. cbn [snd] in H2.
    eapply safe_weaken; [apply (IHa (CAnd no_flags a b) r2 stop (from_eaten _ _ F1 H2) (strong_eaten _ _ _ S1 H2))|].
    intros x Hx. exact (eaten_trans _ _ _ H1 (eaten_trans _ _ _ H2 Hx)).
  - intros cur stop Hf Hn Hs. rewrite cond_paren_S. destruct cur as [|t cur]; [congruence|]. cbn [deref obind].
    destruct (is t "(") eqn:Ht; [|apply elem_safe; assumption]. cbn [advance obind].
    assert (St : starts t "(" = true) by (apply paren_starts, Ht). pose proof (weak_open _ _ _ St (strong_weak _ _ Hs)) as Hw'.
    eapply safe_bind; [apply (safe_any (find_match 1 cur stop)), find_match_safe, (weak_len _ _ Hw')|]. intros close Hc _.
    destruct (find_match_spec _ _ _ _ Hc) as (q & u & R & -> & -> & Hu & Hq).
    eapply safe_bind; [apply (IHc (q ++ u :: R) (length (u :: R))); [exact (from_tail _ _ Hf)|destruct q; discriminate|right; exists q, u, R; auto]|].
    intros [e r] _ _. cbn [advance obind]. apply eaten_brackets; assumption.
Qed.

(** * statements *)
Hypothesis Hif : (exists t, In t toks /\ keyword t "IF") -> ended.
Lemma from_in t r : from (t :: r) -> In t toks.
Proof. intros (p & H). rewrite H. apply in_or_app. right. left. reflexivity. Qed.
Lemma from_advance cur : from cur -> at_end cur 0 = false -> exists t r, cur = t :: r /\ from r.
Proof. intros H E. destruct cur as [|t r]; [discriminate|]. exists t, r. split; [reflexivity|exact (from_tail _ _ H)]. Qed.
Theorem statements_safe fuel :
  (forall cur, from cur -> cur <> [] -> safe (fun x => from (snd x)) (parse_statement fuel cur 0)) /\
  (forall ends cur, from cur -> safe (fun x => from (snd x)) (block fuel ends cur 0)).
Proof.
  induction fuel as [|f (IHs & IHb)]; [split; intros; exact Logic.I|]. split.
  - intros cur Hf Hn. rewrite parse_statement_S. destruct cur as [|t cur]; [congruence|]. cbn [deref obind]. pose proof (from_tail _ _ Hf) as F1.
    destruct (is t "IF") eqn:Et.
    + cbn [advance obind]. destruct (at_end cur 0) eqn:E1; [exact Logic.I|].
      assert (He : ended) by (apply Hif; exists t; split; [exact (from_in _ _ Hf)|apply is_keyword, Et]).
      destruct (conds_safe f He) as (Hc & _).
      eapply safe_bind; [apply (Hc cur 0 F1); [destruct cur; discriminate|left; reflexivity]|]. intros [c r] _ H2. cbn [snd] in H2.
      pose proof (from_eaten _ _ F1 H2) as F2. destruct (at_end r 0) eqn:E2; [exact Logic.I|].
      destruct (from_advance _ F2 E2) as (u & r3 & -> & F3). cbn [deref obind]. destruct (negb (is u "then")); [exact Logic.I|]. cbn [advance obind].
      eapply safe_bind; [apply (IHb _ r3 F3)|]. intros [thens r4] _ F4. cbn [snd] in F4. destruct (at_end r4 0) eqn:E4; [exact Logic.I|].
      destruct (from_advance _ F4 E4) as (w & r5 & -> & F5). cbn [deref obind].
      apply (safe_bind (fun x => from (snd x) /\ at_end (snd x) 0 = false)).
      * destruct (is w "ELSE"); [|split; [exact F4|exact E4]]. cbn [advance obind].
        eapply safe_bind; [apply (IHb _ r5 F5)|]. intros [l r6] _ F6. cbn [snd] in F6. destruct (at_end r6 0) eqn:E6; [exact Logic.I|]. split; assumption.
      * intros [elses r7] _ [F7 E7]. cbn [snd] in F7, E7. destruct (from_advance _ F7 E7) as (y & r8 & -> & F8). cbn [advance obind]. exact F8.
    + apply (safe_bind (fun _ => True)); [apply safe_any; unfold parse_lhs; destruct (valid_name t); discriminate|]. intros v _ _.
      cbn [advance obind]. destruct (at_end cur 0) eqn:E1; [exact Logic.I|]. destruct (from_advance _ F1 E1) as (u & r & -> & F2). cbn [deref obind].
      destruct (is u "=" || is u "PAYS"); [|exact Logic.I]. cbn [advance obind]. destruct (at_end r 0) eqn:E2; [exact Logic.I|].
      destruct (exprs_safe f) as (Hl & _).
      eapply safe_bind; [apply (Hl L1 r 0 F2); [destruct r; discriminate|left; reflexivity]|]. intros [e r3] _ H3. exact (from_eaten _ _ F2 H3).
  - intros ends cur Hf. rewrite block_S. destruct (at_end cur 0) eqn:E1; [exact Hf|]. destruct (from_advance _ Hf E1) as (u & r & -> & F2). cbn [deref obind].
    destruct (ends u); [exact Hf|]. eapply safe_bind; [apply (IHs (u :: r) Hf); discriminate|]. intros [s r3] _ F3.
    eapply safe_bind; [apply (IHb ends r3 F3)|]. intros [l r4] _ F4. exact F4.
Qed.
Theorem script_safe : parse_tokens to_double dcf consts minus_one toks <> UB.
Proof.
  unfold parse_tokens. destruct (statements_safe (enough toks)) as [_ H]. specialize (H (fun _ => false) toks (ex_intro _ [] eq_refl)).
  destruct (block _ _ toks 0) as [[]| | |]; cbn in *; congruence || exact (False_ind _ H).
Qed.
End Safe.
