(** C11: what is written is what is parsed.  C12: the parser ends, and does not read past the tokens of guarded texts. *)
From Coq Require Import String Ascii ZArith List Bool Lia.
From Verif Require Import Base StringModel StringSpec ScriptModel ParserModel ParserSpec ParserWords ParserFuel ParserProofs ParserPrint ParserSafe.
Import ListNotations.

Section Props.
Context {N : Num}.
Variable to_double : str -> outcome num.
Variable dcf : str -> str -> str -> outcome num.
Variable consts : list (str * num).
Variable minus_one : num.
Notation parse_tokens := (parse_tokens to_double dcf consts minus_one).
Notation parse := (parse to_double dcf consts minus_one).
Notation statements := (statements to_double dcf (const_value consts) minus_one).
Notation expression := (expression to_double dcf (const_value consts)).

(** Every text of the grammar is parsed to the tree it denotes. *)
Theorem C11_reads toks ss : statements toks ss -> parse_tokens toks = Ok ss.
Proof. apply script_read. Qed.
(** The grammar gives a text one meaning. *)
Theorem C11_unambiguous toks ss ss' : statements toks ss -> statements toks ss' -> ss = ss'.
Proof. intros H H'. apply script_read in H, H'. congruence. Qed.
(** Blanks between tokens do not matter. *)
Theorem C11_layout toks ss text : statements toks ss -> layout toks text -> parse text = Ok ss.
Proof. intros H L. unfold ParserModel.parse. rewrite (tokenize_layout _ _ L). apply script_read, H. Qed.
(** Every tree that a script can denote has a text, with the fewest brackets, that is parsed back to it. *)
Theorem C11_round_trip show show_width ss : source_script show show_width to_double (const_value consts) minus_one ss ->
  parse_tokens (print_script show show_width ss) = Ok ss.
Proof. intros H. apply script_read, print_statements, H. Qed.
Theorem C11_round_trip_text show show_width ss : source_script show show_width to_double (const_value consts) minus_one ss ->
  Forall (fun t => word_token t \/ mark_token t) (print_script show show_width ss) ->
  parse (spaced (print_script show show_width ss)) = Ok ss.
Proof. intros H T. apply (C11_layout (print_script show show_width ss)); [apply print_statements, H|apply spaced_layout, T]. Qed.
(** Redundant brackets around an expression change nothing, wherever the expression stands: in the grammar the bracketed
    text denotes the same tree at every strength. *)
Theorem C11_brackets s l e : expression s l e -> forall s', expression s' (lit "(" :: l ++ [lit ")"]) e.
Proof.
  intros H s'. apply raise, ex_brackets. eapply raise_to; [exact H|]. cbn. lia.
Qed.
Theorem C11_bracketed x l e : name_token x -> expression Sum l e ->
  parse_tokens (x :: lit "=" :: lit "(" :: l ++ [lit ")"]) = parse_tokens (x :: lit "=" :: l).
Proof.
  intros Hx H. assert (G : forall l', expression Sum l' e -> statements (x :: lit "=" :: l') [SAssign (target_tree (const_value consts) x) e]).
  { intros l' H'. rewrite <- (app_nil_r (x :: lit "=" :: l')). apply ss_more; [apply st_assign; assumption|apply ss_none]. }
  rewrite (C11_reads _ _ (G _ H)). apply (C11_reads _ _ (G _ (C11_brackets _ _ _ H Sum))).
Qed.
(** The case of letters in keywords does not matter (DCF arguments apart). *)
Theorem C11_case toks toks' ss : statements toks ss -> recased toks toks' -> Forall (fun t => ~ keyword t "DCF") toks -> parse_tokens toks' = Ok ss.
Proof. intros H R D. apply script_read. apply (proj2 (recase_statements _ _ _ _) toks ss H toks' R D). Qed.

(** Parsing ends, on any tokens: the recursion is bounded by a multiple of their number. *)
Theorem C12_terminates toks : (forall t, to_double t <> OutOfFuel) -> (forall b s e, dcf b s e <> OutOfFuel) -> parse_tokens toks <> OutOfFuel.
Proof. intros H1 H2. apply parse_ends; assumption. Qed.
(** Reading stays within the tokens: no function name at the end, END at the end if there is an IF, complete DCF arguments. *)
Theorem C12_no_overread toks : (forall t, to_double t <> UB) -> (forall b s e, dcf b s e <> UB) ->
  (forall t v, to_double t = Ok v -> hd " "%char t <> "("%char /\ hd " "%char t <> ")"%char /\ ~ keyword t "END") ->
  guarded toks -> parse_tokens toks <> UB.
Proof.
  intros H1 H2 H3 (G1 & G2 & G3). apply (script_safe to_double dcf consts minus_one H1 H2 toks G1 G2); [|exact G3].
  intros t v H. destruct (H3 t v H) as (A & B & C). repeat split; [| |exact C]; destruct t; cbn in *; congruence.
Qed.
End Props.
Print Assumptions C11_reads.
Print Assumptions C11_unambiguous.
Print Assumptions C11_layout.
Print Assumptions C11_round_trip.
Print Assumptions C11_round_trip_text.
Print Assumptions C11_brackets.
Print Assumptions C11_bracketed.
Print Assumptions C11_case.
Print Assumptions C12_terminates.
Print Assumptions C12_no_overread.

(** * Examples and refutations, with integers as numbers *)
(** the operations on numbers play no part *)
#[local] Instance ZNum : Num := {| num := Z; n_zero := 0%Z; n_thirty := 30%Z; n_add := fun x _ => x; n_sub := fun x _ => x; n_mul := fun x _ => x;
  n_div := fun x _ => x; n_pow := fun x _ => x; n_neg := fun x => x; n_log := fun x => x; n_sqrt := fun x => x; n_exp := fun x => x;
  n_ltb := fun _ _ => true; eq0 := fun _ => true; gt0 := fun _ => true; ge0 := fun _ => true; ge0_const := fun _ => true |}.
Definition decimal (t : str) : outcome Z :=
  match t with
  | [] => Throw
  | _ => fold_left (fun a c => do a <- a; if ((48 <=? code c) && (code c <=? 57))%Z then Ok (10 * a + code c - 48)%Z else Throw) t (Ok 0%Z)
  end.
Definition third (_ _ _ : str) : outcome Z := Ok 3%Z.
Definition run (s : string) : outcome (list stmt) := parse decimal third [(lit "STRIKE", 100%Z)] (-1)%Z (lit s).
Definition v (s : string) : expr := EVar (Some 0%Z) (lit s) (-1).
Definition w (s : string) : lhs := LVar (Some 0%Z) (lit s) (-1).

(** a text with all the kinds of statement *)
Example ex_script : run "x = 1 - 2*y^2 - max(strike, spot(), -z) if x >= 2 and (y < 3 or z != 4; 2) then x pays 1 else y = (x) end" =
  Ok [SAssign (w "x")
        (EBin None Sub (EBin None Sub (EConst 1%Z) (EBin None Mul (EConst 2%Z) (EBin None Pow (v "y") (EConst 2%Z) []) []) [])
           (EBin None Max (EConstVar (lit "strike") (-1) 100%Z) (ESpot None) [EUn None UMinus (v "z")]) []);
      SIf (Flags false false) []
        (CAnd (Flags false false) (difference SupEqual (v "x") (EConst 2%Z) (-1)%Z)
           (COr (Flags false false) (difference Sup (EConst 3%Z) (v "y") (-1)%Z) (CNot (Flags false false) (difference Equal (v "z") (EConst 4%Z) 2%Z))))
        [SPays (w "x") (EConst 1%Z)] (Some [SAssign (w "y") (v "x")])].
Proof. vm_compute. reflexivity. Qed.

(** Junk inside brackets is dropped without a word. *)
Theorem C11_junk_refuted : run "x = (1 2)" = run "x = 1" /\ run "x = 1" = Ok [SAssign (w "x") (EConst 1%Z)] /\
  run "IF (x > 1 garbage) THEN x = 2 END" = run "IF x > 1 THEN x = 2 END" /\
  run "IF x > 1 THEN x = 2 END" = Ok [SIf (Flags false false) [] (difference Sup (v "x") (EConst 1%Z) (-1)%Z) [SAssign (w "x") (EConst 2%Z)] None].
Proof. vm_compute. repeat split. Qed.
Print Assumptions C11_junk_refuted.
(** A comparison that begins with a bracket is refused. *)
Theorem C11_bracket_comparison_refuted : run "IF (x + 1) * 2 > 3 THEN x = 2 END" = Throw /\ run "IF 3 < (x + 1) * 2 THEN x = 2 END" <> Throw /\
  run "IF (x) > 3 THEN x = 2 END" = Throw.
Proof. vm_compute. repeat split. discriminate. Qed.
Print Assumptions C11_bracket_comparison_refuted.
(** Characters outside the language are dropped, and exponents of numbers come apart. *)
Theorem C11_characters_refuted : run "x = 5%" = run "x = 5" /\ tokenize (lit "x = 1e-5") = map lit ["x"; "="; "1e"; "-"; "5"]%string.
Proof. vm_compute. split; reflexivity. Qed.
Print Assumptions C11_characters_refuted.
(** Operator signs and stray commas taken for something else. *)
Theorem C11_lenient_refuted : run "x = ^" = Ok [SAssign (w "x") (v "^")] /\ run "x = MAX(1,2,)" = run "x = MAX(1,2)" /\ run "x = MAX(1,2)" <> Throw /\
  run "x = DCF(ACT365,2020,,,2021)" = run "x = DCF(ACT365,2020,2021)".
Proof. vm_compute. repeat split. discriminate. Qed.
Print Assumptions C11_lenient_refuted.

(** Reading past the end: a function name at the end, a comparison at the end, DCF with too few arguments. *)
Theorem C12_overread_refuted : run "x = SPOT" = UB /\ run "IF x > 1" = UB /\ run "x = DCF(ACT365)" = UB.
Proof. vm_compute. repeat split. Qed.
Print Assumptions C12_overread_refuted.

(** the hypotheses are met *)
Definition toks : list str := map lit ["if"; "x"; ">"; "1"; "THEN"; "x"; "PAYS"; "DCF"; "("; "ACT365"; ","; "2020"; "-"; "1"; "-"; "1"; ","; "2021"; "-"; "1"; "-"; "1"; ")"; "end"]%string.
Ltac key := apply is_keyword; vm_compute; reflexivity.
Lemma keyword_dec t k : is t k = false -> ~ keyword t k.
Proof. intros H K. apply is_keyword in K. congruence. Qed.
Lemma name_x : name_token (lit "x").
Proof. split; [exists "x"%char, []; split; [reflexivity|]; vm_compute; tauto|]. intros k Hk. apply keyword_dec. cbn in Hk. repeat destruct Hk as [<-|Hk]; try reflexivity. destruct Hk. Qed.
Lemma digit_number c r : In c digits -> number_token (c :: r).
Proof. intros H. exists c, r. auto. Qed.
Lemma plain c r : existsb (Ascii.eqb c) (lit "(),") = false -> plain_token (c :: r).
Proof. intros H. exists c, r. split; [reflexivity|]. intros K. apply in_existsb in K. congruence. Qed.
Example ex_reads : exists ss, statements decimal third (const_value []) (-1)%Z toks ss.
Proof.
  eexists. unfold toks. cbn [map]. rewrite <- (app_nil_r (_ :: _)). apply ss_more; [|apply ss_none].
  eapply (st_if _ _ _ _ (lit "if") (map lit ["x"; ">"; "1"]%string) _ (lit "THEN")
    (map lit ["x"; "PAYS"; "DCF"; "("; "ACT365"; ","; "2020"; "-"; "1"; "-"; "1"; ","; "2021"; "-"; "1"; "-"; "1"; ")"]%string) _ (lit "end")); try key.
  - apply co_conj, co_single. apply (co_compare _ _ _ _ [lit "x"] (variable_tree (const_value []) (lit "x")) ">" [lit "1"] (@EConst ZNum 1%Z) [] (-1)%Z).
    + apply raise, ex_variable, name_x.
    + discriminate.
    + apply raise, ex_number; [apply digit_number; vm_compute; tauto|reflexivity].
    + constructor.
    + constructor.
  - rewrite <- (app_nil_r (map lit _)). apply ss_more; [|apply ss_none]. cbn [map]. apply st_pays; [apply name_x|key|]. apply raise.
    apply (@ex_dcf ZNum _ _ _ (lit "DCF") [lit "ACT365"] (map lit ["2020"; "-"; "1"; "-"; "1"]%string) (map lit ["2021"; "-"; "1"; "-"; "1"]%string) 3%Z);
      [key|discriminate|discriminate|discriminate| | | |reflexivity]; cbn [map]; repeat (apply Forall_cons; [apply plain; reflexivity|]); apply Forall_nil.
Qed.
Example ex_guarded : guarded toks.
Proof.
  split; [|split].
  - intros p t r E Ht. right.
    assert (Hp : exists n, p = firstn n toks /\ t :: r = skipn n toks).
    { exists (length p). split; [rewrite E, firstn_app, firstn_all, Nat.sub_diag; cbn; rewrite app_nil_r; reflexivity|].
      rewrite E, skipn_app, skipn_all, Nat.sub_diag. reflexivity. }
    destruct Hp as (n & _ & Er). apply is_keyword in Ht.
    assert (En : n = 7%nat).
    { do 24 (destruct n as [|n]; [injection Er as -> ->; first [reflexivity|exfalso; vm_compute in Ht; discriminate]|]). destruct n; discriminate. }
    subst n. injection Er as -> ->.
    exists [lit "ACT365"], (map lit ["2020"; "-"; "1"; "-"; "1"]%string), (map lit ["2021"; "-"; "1"; "-"; "1"]%string), [lit "end"].
    repeat apply conj; try discriminate; try reflexivity; cbn [map]; repeat (apply Forall_cons; [apply plain; reflexivity|]); apply Forall_nil.
  - intros p t E k Hk. apply keyword_dec. assert (Et : t = lit "end").
    { apply (f_equal (fun l => last l [])) in E. rewrite last_app in E by discriminate. vm_compute in E. symmetry. exact E. }
    subst t. cbn in Hk. repeat destruct Hk as [<-|Hk]; try reflexivity. destruct Hk.
  - intros _. exists (removelast toks), (lit "end"). split; [reflexivity|key].
Qed.
Example ex_layout : layout (map lit ["x"; "="; "1"; "<="; "y"]%string) (lit "x= 1<= y").
Proof.
  assert (W : forall t, forallb word_char t = true -> t <> [] -> word_token t \/ mark_token t).
  { intros t H Hn. left. split; [exact Hn|]. apply Forall_forall. intros c Hc. apply word_char_iff. rewrite forallb_forall in H. apply H, Hc. }
  assert (B : Forall blank (lit " ")) by (apply Forall_cons; [left; reflexivity|apply Forall_nil]).
  assert (A : forall t c r, existsb (Ascii.eqb c) (letters ++ digits) = false -> c <> "="%char -> apart t (c :: r)).
  { intros t c r H1 H2. split; [|intros _; exact H2]. intros _ H. apply in_existsb in H. congruence. }
  cbn [map].
  apply (lay_token [] (lit "x") _ (lit "= 1<= y")); [apply Forall_nil|apply W; [reflexivity|discriminate]| |].
  { split; [intros _ H; apply in_existsb in H; discriminate|intros H; exfalso; vm_compute in H; intuition discriminate]. }
  apply (lay_token [] (lit "=") _ (lit " 1<= y")); [apply Forall_nil|right; vm_compute; tauto|apply A; [reflexivity|discriminate]|].
  apply (lay_token (lit " ") (lit "1") _ (lit "<= y")); [exact B|apply W; [reflexivity|discriminate]|apply A; [reflexivity|discriminate]|].
  apply (lay_token [] (lit "<=") _ (lit " y")); [apply Forall_nil|right; vm_compute; tauto|apply A; [reflexivity|discriminate]|].
  apply (lay_token (lit " ") (lit "y") _ []); [exact B|apply W; [reflexivity|discriminate]|exact Logic.I|]. apply lay_end, Forall_nil.
Qed.
(** a tree that can be written, and its text *)
Definition show (z : Z) : str := if (z =? 2)%Z then lit "2" else lit "1".
Definition some_tree : list stmt :=
  [SAssign (w "x") (EBin None Mul (EBin None Add (v "x") (EConst 1%Z) []) (EUn None UMinus (EBin None Max (v "x") (ESpot None) [])) [])].
Example ex_source : source_script show (fun _ => []) decimal (const_value []) (-1)%Z some_tree /\
  spaced (print_script show (fun _ => []) some_tree) = lit "x = ( x + 1 ) * - MAX ( x , SPOT ( ) ) ".
Proof.
  split; [|reflexivity]. apply ss_cons; [|apply ss_nil]. change (w "x") with (target_tree (const_value []) (lit "x")).
  apply so_assign; [apply name_x|].
  cbn. repeat split; try apply name_x; try lia. apply digit_number. vm_compute. tauto.
Qed.
Example ex_recased : recased (map lit ["x"; "="; "SPOT"; "("; ")"]%string) (map lit ["x"; "="; "Spot"; "("; ")"]%string).
Proof.
  cbn [map]. apply Forall2_cons; [left; reflexivity|]. apply Forall2_cons; [left; reflexivity|]. apply Forall2_cons.
  { right. exists "SPOT"%string. split; [vm_compute; tauto|]. split; key. }
  apply Forall2_cons; [left; reflexivity|]. apply Forall2_cons; [left; reflexivity|]. apply Forall2_nil.
Qed.
