(** Layout of tokens, and writing trees. *)
From Coq Require Import String Ascii ZArith List Bool Lia Arith.
From Verif Require Import Base StringModel StringSpec StringProofs ScriptModel ScriptEval ParserModel ParserSpec ParserWords ParserProofs.
Import ListNotations.
Local Open Scope nat_scope.

(** * layout *)
Definition word_check (c : ascii) : bool := Bool.eqb (existsb (Ascii.eqb c) (letters ++ digits)) (word_char c).
Lemma word_char_iff c : word_char c = true <-> In c (letters ++ digits).
Proof.
  assert (W : word_check c = true) by (apply all_ascii; vm_compute; reflexivity). unfold word_check in W. apply Bool.eqb_prop in W. rewrite <- W.
  symmetry. apply in_existsb.
Qed.
Lemma word_char_not c : ~ In c (letters ++ digits) -> word_char c = false.
Proof. intros H. destruct (word_char c) eqn:E; [|reflexivity]. apply word_char_iff in E. contradiction. Qed.
Lemma skip_blanks s : forall rest, Forall blank s -> tokens_from [] (s ++ rest) = tokens_from [] rest.
Proof.
  induction s as [|c s IH]; intros rest H; [reflexivity|]. inversion H as [|? ? Hc Hs]; subst. rewrite <- (IH rest Hs). cbn [app].
  unfold blank in Hc. cbn [In] in Hc. destruct Hc as [<-|[<-|[<-|[<-|[]]]]]; cbn [tokens_from]; destruct (s ++ rest); reflexivity.
Qed.
Lemma read_word t : forall w rest, Forall (fun c => In c (letters ++ digits)) t -> tokens_from w (t ++ rest) = tokens_from (w ++ t) rest.
Proof.
  induction t as [|c t IH]; intros w rest H; [rewrite app_nil_r; reflexivity|]. inversion H as [|? ? Hc Ht]; subst. cbn [app tokens_from].
  rewrite (proj2 (word_char_iff c) Hc), IH by exact Ht. rewrite <- app_assoc. reflexivity.
Qed.
Lemma end_word w rest : w <> [] -> match rest with [] => True | c :: _ => ~ In c (letters ++ digits) end -> tokens_from w rest = w :: tokens_from [] rest.
Proof.
  intros Hw H. destruct rest as [|c rest]; [destruct w; [congruence|reflexivity]|]. cbn [tokens_from]. rewrite (word_char_not c H).
  destruct w; [congruence|]. reflexivity.
Qed.
Lemma read_mark t rest : mark_token t -> (In t [lit "<"; lit ">"] -> match rest with [] => True | c :: _ => c <> "="%char end) ->
  tokens_from [] (t ++ rest) = t :: tokens_from [] rest.
Proof.
  intros Ht Ha. unfold mark_token in Ht. cbn [map In] in Ht.
  assert (E : forall d, match rest with [] => True | c :: _ => c <> "="%char end -> rest = d :: tl rest -> Ascii.eqb d "=" = false).
  { intros d H E. rewrite E in H. destruct (Ascii.eqb_spec d "="); [contradiction|reflexivity]. }
  repeat (destruct Ht as [<-|Ht]; [
    try (destruct rest as [|d rest]; reflexivity);
    try (specialize (Ha ltac:(cbn; tauto)); destruct rest as [|d rest]; [reflexivity|];
         change (lit "<" ++ d :: rest) with ("<"%char :: d :: rest); change (lit ">" ++ d :: rest) with (">"%char :: d :: rest);
         cbn [tokens_from]; rewrite (E d Ha eq_refl); reflexivity)|]).
  destruct Ht.
Qed.
Theorem tokenize_layout l text : layout l text -> tokenize text = l.
Proof.
  unfold tokenize. induction 1 as [s Hs|s t l rest Hs Ht Ha _ IH].
  - rewrite <- (app_nil_r s), skip_blanks by exact Hs. reflexivity.
  - rewrite skip_blanks by exact Hs. destruct Ht as [[Hn Hw]|Ht].
    + rewrite read_word by exact Hw. cbn [app]. rewrite end_word; [rewrite IH; reflexivity|exact Hn|]. destruct rest; [exact Logic.I|]. apply Ha. split; assumption.
    + rewrite read_mark; [rewrite IH; reflexivity|exact Ht|]. intros Hi. destruct rest; [exact Logic.I|]. apply Ha, Hi.
Qed.
Lemma spaced_layout l : Forall (fun t => word_token t \/ mark_token t) l -> layout l (spaced l).
Proof.
  intros H. assert (G : forall s, Forall blank s -> layout l (s ++ spaced l)); [|exact (G [] (Forall_nil _))].
  induction H as [|t l Ht _ IH]; intros s Hs; [unfold spaced; cbn; rewrite app_nil_r; apply lay_end, Hs|].
  unfold spaced. cbn [map concat]. rewrite <- app_assoc. apply lay_token; [exact Hs|exact Ht| |apply (IH (lit " ")); repeat constructor].
  cbn. split; [|discriminate]. intros _ Hi. vm_compute in Hi. repeat destruct Hi as [Hi|Hi]; try discriminate. destruct Hi.
Qed.

(** * writing *)
Section Raise.
Context {N : Num}.
Variable (number : str -> outcome num) (dcf : str -> str -> str -> outcome num) (constant : str -> option num).
Notation expression := (expression number dcf constant).
Lemma raise l e : expression Tight l e -> forall s, expression s l e.
Proof.
  intros H. assert (P : expression Power l e) by (apply ex_stronger; [discriminate|exact H]).
  assert (Q : expression Product l e) by (apply ex_stronger; [discriminate|exact P]). intros s. destruct s; try assumption. apply ex_stronger; [discriminate|exact Q].
Qed.
Lemma raise_to so l e : expression so l e -> forall s, rank s <= rank so -> expression s l e.
Proof.
  intros H s Hr. destruct so; cbn in Hr; destruct s; cbn in Hr; try exact H; try lia; repeat (first [exact H|apply ex_stronger; [discriminate|cbn [stronger]]]).
Qed.
End Raise.
Section Printing.
Context {N : Num}.
Variable (show : num -> str) (show_width : num -> list str).
Variable (number : str -> outcome num) (dcf : str -> str -> str -> outcome num) (constant : str -> option num) (no_width : num).
Notation expression := (expression number dcf constant).
Notation arguments := (arguments number dcf constant).
Notation condition := (condition number dcf constant no_width).
Notation statement := (statement number dcf constant no_width).
Notation statements := (statements number dcf constant no_width).
Notation source_expr := (source_expr show number constant).
Notation source_cond := (source_cond show show_width number constant no_width).
Notation source_stmt := (source_stmt show show_width number constant no_width).
Notation source_script := (source_script show show_width number constant no_width).
Notation print := (print show).

Lemma infix_operator op so k : infix op = Some (so, k) -> operator so k op.
Proof. destruct op; cbn; intros E; try discriminate; injection E as <- <-; constructor. Qed.
Lemma print_args more : (forall x, In x more -> expression Sum (print Sum x) x) -> forall l b, expression Sum l b ->
  arguments (l ++ concat (map (fun x => lit "," :: print Sum x) more)) (b :: more).
Proof.
  induction more as [|x more IH]; intros H l b Hb; cbn [map concat].
  - rewrite app_nil_r. apply ar_one, Hb.
  - cbn [app]. apply ar_more; [exact Hb|]. apply IH; [intros y Hy; apply H; right; exact Hy|apply H; left; reflexivity].
Qed.
Theorem print_expression e : source_expr e -> forall s, expression s (print s e) e.
Proof.
  induction e as [an op l r x Hl Hr Hx|an op x IH|an|v|an n i|n i v] using expr_ind'; cbn [ParserSpec.source_expr]; intros H s.
  - destruct H as (-> & H1 & H2 & H3). cbn [ParserSpec.print]. destruct (infix op) as [[so k]|] eqn:Ei.
    + subst x. assert (P : expression so (print so l ++ lit k :: print (stronger so) r) (EBin None op l r []))
        by (apply ex_binary; [apply infix_operator, Ei|apply Hl, H1|apply Hr, H2]).
      destruct (Nat.ltb_spec (rank so) (rank s)); cbn [in_brackets]; [|apply (raise_to _ _ _ so); assumption].
      apply raise, ex_brackets. apply (raise_to _ _ _ so); [exact P|cbn; lia].
    + apply raise. destruct H3 as [Hlen Hall].
      assert (Ha : arguments (print Sum l ++ lit "," :: print Sum r ++ concat (map (fun y => lit "," :: print Sum y) x)) (l :: r :: x)).
      { apply ar_more; [apply Hl, H1|]. apply print_args; [|apply Hr, H2]. clear -Hx Hall. induction x as [|y x IH]; intros z Hz; [destruct Hz|].
        inversion Hx; subst. destruct Hall as [Hy Hall]. destruct Hz as [<-|Hz]; [auto|]. apply IH; assumption. }
      destruct op; try discriminate;
        [apply (ex_function2 _ _ _ (lit "MAX") "MAX" Max); [constructor|apply is_keyword; reflexivity|exact Ha|exact Hlen]
        |apply (ex_function2 _ _ _ (lit "MIN") "MIN" Min); [constructor|apply is_keyword; reflexivity|exact Ha|exact Hlen]].
  - destruct H as [-> H]. apply raise. cbn [ParserSpec.print]. destruct op;
      try (apply ex_unary; [constructor|apply IH, H]).
    + apply (ex_function1 _ _ _ (lit "LOG") "LOG" Log); [constructor|apply is_keyword; reflexivity|apply IH, H].
    + apply (ex_function1 _ _ _ (lit "SQRT") "SQRT" Sqrt); [constructor|apply is_keyword; reflexivity|apply IH, H].
    + apply (ex_function1 _ _ _ (lit "EXP") "EXP" Exp); [constructor|apply is_keyword; reflexivity|apply IH, H].
  - subst an. apply raise. apply ex_spot, is_keyword. reflexivity.
  - apply raise. apply ex_number; apply H.
  - destruct H as [H E]. apply raise. cbn [ParserSpec.print]. rewrite E. apply ex_variable, H.
  - destruct H as [H E]. apply raise. cbn [ParserSpec.print]. rewrite E. apply ex_variable, H.
Qed.
Lemma craise l c : condition Single l c -> forall k, condition k l c.
Proof. intros H k. assert (P : condition Conj l c) by (apply co_single, H). destruct k; [apply co_conj, P|exact P|exact H]. Qed.
Theorem print_condition c : source_cond c -> forall k, condition k (print_cond show show_width k c) c.
Proof.
  induction 1 as [op a b e Ha Hb Hh Hw|a b e Ha Hb Hh Hw|a b _ IHa _ IHb|a b _ IHa _ IHb]; intros k.
  - apply craise. cbn [difference print_cond print_compare eps]. apply (co_compare _ _ _ _ (print Sum a) a _ (print Sum b) b (show_width e) e);
      [apply print_expression, Ha|exact Hh|apply print_expression, Hb|exact Hw|destruct op; constructor].
  - apply craise. cbn [difference print_cond print_compare eps]. apply (co_compare _ _ _ _ (print Sum a) a _ (print Sum b) b (show_width e) e);
      [apply print_expression, Ha|exact Hh|apply print_expression, Hb|exact Hw|constructor].
  - cbn [print_cond]. assert (P : condition Conj (print_cond show show_width Conj a ++ lit "AND" :: print_cond show show_width Single b) (CAnd (Flags false false) a b))
      by (apply co_and; [apply is_keyword; reflexivity|apply IHa|apply IHb]).
    destruct k; cbn [in_brackets]; [apply co_conj, P|exact P|apply co_brackets, co_conj, P].
  - cbn [print_cond]. assert (P : condition Disj (print_cond show show_width Disj a ++ lit "OR" :: print_cond show show_width Conj b) (COr (Flags false false) a b))
      by (apply co_or; [apply is_keyword; reflexivity|apply IHa|apply IHb]).
    destruct k; cbn [in_brackets]; [exact P|apply co_single, co_brackets, P|apply co_brackets, P].
Qed.
Scheme source_stmt_mut := Minimality for ParserSpec.source_stmt Sort Prop with source_script_mut := Minimality for ParserSpec.source_script Sort Prop.
Combined Scheme source_stmt_script from source_stmt_mut, source_script_mut.
Lemma target_target t : target (target_tree constant t) = t.
Proof. unfold target_tree. destruct (constant t); reflexivity. Qed.
Theorem print_statements :
  (forall s, source_stmt s -> statement (print_stmt show show_width s) s) /\
  (forall ss, source_script ss -> statements (print_script show show_width ss) ss).
Proof.
  apply source_stmt_script.
  - intros t e Ht He. cbn [print_stmt]. rewrite target_target. apply st_assign; [exact Ht|apply print_expression, He].
  - intros t e Ht He. cbn [print_stmt]. rewrite target_target. apply st_pays; [exact Ht|apply is_keyword; reflexivity|apply print_expression, He].
  - intros c thens Hc _ H1. cbn [print_stmt]. apply st_if; try (apply is_keyword; reflexivity); [apply print_condition, Hc|exact H1].
  - intros c thens elses Hc _ H1 _ H2. cbn [print_stmt]. apply st_else; try (apply is_keyword; reflexivity); [apply print_condition, Hc|exact H1|exact H2].
  - apply ss_none.
  - intros s ss _ H1 _ H2. unfold print_script. cbn [map concat]. apply ss_more; assumption.
Qed.
End Printing.

(** * keyword case *)
Section Case.
Context {N : Num}.
Variable (number : str -> outcome num) (dcf : str -> str -> str -> outcome num) (constant : str -> option num) (no_width : num).
Notation expression := (expression number dcf constant).
Notation arguments := (arguments number dcf constant).
Notation condition := (condition number dcf constant no_width).
Notation statement := (statement number dcf constant no_width).
Notation statements := (statements number dcf constant no_width).
Definition rec1 (t t' : str) : Prop := t = t' \/ exists k, In k keywords /\ keyword t k /\ keyword t' k.
Definition no_dcf (l : list str) : Prop := Forall (fun t => ~ keyword t "DCF") l.
Lemma rec_keyword t t' k : rec1 t t' -> keyword t k -> keyword t' k.
Proof.
  intros [<-|(j & Hj & H1 & H2)] H; [exact H|]. apply is_keyword. apply is_keyword in H. rewrite (is_other t _ _ H1) in H. rewrite (is_other t' _ _ H2). exact H.
Qed.
Lemma rec_same t t' : rec1 t t' -> (forall k, In k keywords -> ~ keyword t k) -> t = t'.
Proof. intros [<-|(j & Hj & H1 & _)] H; [reflexivity|]. destruct (H j Hj H1). Qed.
Lemma mark_not m t : In m marks -> starts t m = true -> forall k, In k keywords -> ~ keyword t k.
Proof.
  intros Hm Ht k Hk H. pose proof (proj2 (word_mark t m (letter_wordy _ (keyword_letter t k Hk H)) Hm)). congruence.
Qed.
Lemma rec_mark k t' m : rec1 (lit k) t' -> In m marks -> starts (lit k) m = true -> t' = lit k.
Proof. intros H Hm Hs. symmetry. apply (rec_same _ _ H). exact (mark_not m _ Hm Hs). Qed.
Lemma rec_name t t' : rec1 t t' -> name_token t -> t' = t.
Proof. intros H [_ Ht]. symmetry. exact (rec_same _ _ H Ht). Qed.
Lemma rec_number t t' : rec1 t t' -> number_token t -> t' = t.
Proof.
  intros H Ht. symmetry. apply (rec_same _ _ H). intros k Hk K. pose proof (number_digit t Ht) as D.
  rewrite (proj1 (letter_facts _ (keyword_letter t k Hk K))) in D. discriminate.
Qed.
Lemma rec_cons t l l' : Forall2 rec1 (t :: l) l' -> exists t' r, l' = t' :: r /\ rec1 t t' /\ Forall2 rec1 l r.
Proof. intros H. inversion H; subst. eauto. Qed.
Lemma rec_nil l' : Forall2 rec1 [] l' -> l' = [].
Proof. intros H. inversion H. reflexivity. Qed.
Lemma all_cons {A} (P : A -> Prop) t l : Forall P (t :: l) -> P t /\ Forall P l.
Proof. intros H. inversion H; subst. auto. Qed.
Ltac split2 := repeat match goal with
  | H : Forall2 _ (_ ++ _) _ |- _ => apply Forall2_app_inv_l in H; destruct H as (?l1 & ?l2 & ?H1 & ?H2 & ->)
  | H : Forall2 _ (_ :: _) _ |- _ => apply rec_cons in H; destruct H as (?t & ?r & -> & ?R & ?H)
  | H : Forall2 _ [] _ |- _ => apply rec_nil in H; subst
  | H : Forall _ (_ ++ _) |- _ => apply Forall_app in H; destruct H
  | H : Forall _ (_ :: _) |- _ => apply all_cons in H; destruct H
  | H : rec1 (lit ")") ?t |- _ => rewrite (rec_mark _ t ")" H) in * by (try reflexivity; cbn; tauto); clear H
  | H : rec1 (lit "(") ?t |- _ => rewrite (rec_mark _ t "(" H) in * by (try reflexivity; cbn; tauto); clear H
  | H : rec1 (lit ",") ?t |- _ => rewrite (rec_mark _ t "," H) in * by (try reflexivity; cbn; tauto); clear H
  end.
Lemma rec_hd l l' : Forall2 rec1 l l' -> hd [] l <> lit "(" -> hd [] l' <> lit "(".
Proof.
  intros [|t t' r r' H _] Hn; [exact Hn|]. cbn [hd] in *. intros ->. destruct H as [H|(k & Hk & _ & H)]; [contradiction|].
  exact (mark_not "(" (lit "(") ltac:(cbn; tauto) eq_refl k Hk H).
Qed.
Lemma recase_expr :
  (forall s l e, expression s l e -> forall l', Forall2 rec1 l l' -> no_dcf l -> expression s l' e) /\
  (forall l es, arguments l es -> forall l', Forall2 rec1 l l' -> no_dcf l -> arguments l' es).
Proof.
  unfold no_dcf. apply expression_arguments.
  - intros s l e Hs _ IH l' H D. apply ex_stronger; [exact Hs|]. apply IH; assumption.
  - intros s l1 a k op l2 b Ho _ IH1 _ IH2 l' H D. split2.
    match goal with H : rec1 (lit k) ?t |- _ => rewrite (rec_mark k t (first (lit k)) H) by (destruct Ho; try reflexivity; cbn; tauto) end.
    apply ex_binary; auto.
  - intros k op l e Ho _ IH l' H D. split2.
    match goal with H : rec1 (lit k) ?t |- _ => rewrite (rec_mark k t (first (lit k)) H) by (destruct Ho; try reflexivity; cbn; tauto) end.
    apply ex_unary; auto.
  - intros l e _ IH l' H D. split2. apply ex_brackets; auto.
  - intros t v Ht Hv l' H D. split2. match goal with H : rec1 t ?u |- _ => rewrite (rec_number t u H Ht) end. apply ex_number; assumption.
  - intros t Ht l' H D. split2. match goal with H : rec1 t ?u |- _ => rewrite (rec_name t u H Ht) end. apply ex_variable; assumption.
  - intros t Ht l' H D. split2. apply ex_spot. eapply rec_keyword; eassumption.
  - intros t k op l e Hf Ht _ IH l' H D. split2. eapply ex_function1; [exact Hf|eapply rec_keyword; eassumption|auto].
  - intros t k op l a b more Hf Ht _ IH Hm l' H D. split2. eapply ex_function2; [exact Hf|eapply rec_keyword; eassumption|auto|exact Hm].
  - intros t b s e v Ht _ _ _ _ _ _ _ l' H D. exfalso. inversion D; subst. contradiction.
  - intros l e _ IH l' H D. apply ar_one; auto.
  - intros l e l2 es _ IH1 _ IH2 l' H D. split2. apply ar_more; auto.
Qed.
Lemma recase_widths e l e' : widths number e l e' -> forall l', Forall2 rec1 l l' -> l' = l.
Proof.
  induction 1 as [e|e k t v l e' Hk Ht Hv _ IH]; intros l' H; split2; [reflexivity|].
  match goal with H : rec1 (lit k) ?u |- _ => rewrite (rec_mark k u (first (lit k)) H) by (cbn in Hk; destruct Hk as [<-|[<-|[]]]; try reflexivity; cbn; tauto) end.
  match goal with H : rec1 t ?u |- _ => rewrite (rec_number t u H Ht) end. f_equal. f_equal. auto.
Qed.
Lemma recase_cond k l c : condition k l c -> forall l', Forall2 rec1 l l' -> no_dcf l -> condition k l' c.
Proof.
  unfold no_dcf. induction 1 as [l c _ IH|l c _ IH|l1 a u l2 b Hu C1 IH1 C2 IH2|l1 a u l2 b Hu C1 IH1 C2 IH2|l c C IH|l1 a k l2 b l3 e c E1 Hh E2 Hw Hc]; intros l' H D.
  - apply co_conj; auto.
  - apply co_single; auto.
  - split2. apply co_or; auto. eapply rec_keyword; eassumption.
  - split2. apply co_and; auto. eapply rec_keyword; eassumption.
  - split2. apply co_brackets; auto.
  - assert (Hk : In (first (lit k)) marks /\ starts (lit k) (first (lit k)) = true).
    { clear -Hc. destruct Hc; split; try reflexivity; cbn; tauto. }
    split2. match goal with H : rec1 (lit k) ?t |- _ => rewrite (rec_mark k t (first (lit k)) H (proj1 Hk) (proj2 Hk)) end.
    match goal with H : Forall2 rec1 l3 ?w |- _ => rewrite (recase_widths _ _ _ Hw _ H) end.
    destruct recase_expr as [RE _]. unfold no_dcf in RE.
    eapply co_compare; [eapply RE; [exact E1|eassumption|assumption]|eapply rec_hd; eassumption|eapply RE; [exact E2|eassumption|assumption]|exact Hw|exact Hc].
Qed.
Theorem recase_statements :
  (forall l s, statement l s -> forall l', Forall2 rec1 l l' -> no_dcf l -> statement l' s) /\
  (forall l ss, statements l ss -> forall l', Forall2 rec1 l l' -> no_dcf l -> statements l' ss).
Proof.
  unfold no_dcf. destruct recase_expr as [RE _]. pose proof recase_cond as RC. unfold no_dcf in *. apply statement_statements.
  - intros t l e Ht E l' H D. split2. match goal with H : rec1 t ?u |- _ => rewrite (rec_name t u H Ht) end.
    match goal with H : rec1 (lit "=") ?u |- _ => rewrite (rec_mark "=" u "=" H) by (try reflexivity; cbn; tauto) end. apply st_assign; eauto.
  - intros t p l e Ht Hp E l' H D. split2. match goal with H : rec1 t ?u |- _ => rewrite (rec_name t u H Ht) end.
    apply st_pays; [exact Ht|eapply rec_keyword; eassumption|eauto].
  - intros i lc c th l1 s1 en Hi C Hth _ IH Hen l' H D. split2. apply st_if; try (eapply rec_keyword; eassumption); eauto.
  - intros i lc c th l1 s1 el l2 s2 en Hi C Hth _ IH1 Hel _ IH2 Hen l' H D. split2. apply st_else; try (eapply rec_keyword; eassumption); eauto.
  - intros l' H D. split2. apply ss_none.
  - intros l s l2 ss _ IH1 _ IH2 l' H D. split2. apply ss_more; eauto.
Qed.
End Case.
