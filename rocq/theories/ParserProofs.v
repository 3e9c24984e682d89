(** The parser reads every text of the grammar as the tree it denotes. *)
From Coq Require Import String Ascii ZArith List Bool Lia Arith.
From Verif Require Import Base StringModel StringSpec StringProofs ScriptModel ParserModel ParserSpec ParserWords.
Import ListNotations.
Local Open Scope nat_scope.

Scheme expression_mut := Minimality for expression Sort Prop with arguments_mut := Minimality for arguments Sort Prop.
Combined Scheme expression_arguments from expression_mut, arguments_mut.
Scheme statement_mut := Minimality for statement Sort Prop with statements_mut := Minimality for statements Sort Prop.
Combined Scheme statement_statements from statement_mut, statements_mut.

Definition lv (s : strength) : level := match s with Sum => L1 | Product => L2 | Power => L3 | Tight => L4 end.
Definition cost (l : level) : nat := match l with L1 => 7 | L2 => 6 | L3 => 5 | L4 => 4 end.
(** no operator of the level follows *)
Definition quiet (l : level) (R : cursor) (stop : nat) : Prop :=
  at_end R stop = true \/ match R with t :: _ => op_at l (first t) = None | [] => False end.
Definition calm (l : level) (R : cursor) (stop : nat) : Prop :=
  match l with
  | L1 => quiet L1 R stop /\ quiet L2 R stop /\ quiet L3 R stop
  | L2 => quiet L2 R stop /\ quiet L3 R stop
  | L3 => quiet L3 R stop
  | L4 => True
  end.
Definition calm_below (l : level) (R : cursor) (stop : nat) : Prop := match l with L4 => True | _ => calm (below l) R stop end.
Lemma calm_end l R stop : at_end R stop = true -> calm l R stop.
Proof. intros H. destruct l; cbn; unfold quiet; auto. Qed.
Lemma calm_token l t r stop : op_at L1 (first t) = None -> op_at L2 (first t) = None -> op_at L3 (first t) = None -> calm l (t :: r) stop.
Proof. intros H1 H2 H3. destruct l; cbn; unfold quiet; auto. Qed.
Lemma calm_word l t r stop : wordy (first t) = true -> calm l (t :: r) stop.
Proof. intros H. apply calm_token; apply word_quiet, H. Qed.

(** * shape of the texts *)
Lemma plain_balanced l : Forall plain_token l -> balanced l.
Proof.
  induction 1 as [|t l (c & r & -> & H) _ IH]; [reflexivity|]. unfold balanced. cbn [depth]. unfold starts. cbn [first].
  destruct (Ascii.eqb_spec c "("); [subst; exfalso; apply H; cbn; tauto|]. destruct (Ascii.eqb_spec c ")"); [subst; exfalso; apply H; cbn; tauto|]. exact IH.
Qed.
Section Shape.
Context {N : Num}.
Variable (number : str -> outcome num) (dcf : str -> str -> str -> outcome num) (constant : str -> option num) (no_width : num).
Lemma expression_shape :
  (forall s l e, expression number dcf constant s l e -> l <> [] /\ balanced l) /\
  (forall l es, arguments number dcf constant l es -> l <> [] /\ balanced l).
Proof.
  assert (L : forall t k, In k keywords -> keyword t k -> balanced [t]) by (intros t k Hk H; apply balanced_one, letter_wordy; exact (keyword_letter t k Hk H)).
  apply expression_arguments.
  - intros s l e _ _ H. exact H.
  - intros s l1 a k op l2 b Ho _ [A1 A2] _ [B1 B2]. split; [destruct l1; discriminate|]. apply balanced_app; [exact A2|].
    destruct Ho; apply balanced_cons; try exact B2; reflexivity.
  - intros k op l e Ho _ [A1 A2]. split; [discriminate|]. destruct Ho; apply balanced_cons; try exact A2; reflexivity.
  - intros l e _ [A1 A2]. split; [discriminate|]. apply balanced_brackets, A2.
  - intros t v Ht _. split; [discriminate|]. apply balanced_one, number_wordy, Ht.
  - intros t Ht. split; [discriminate|]. apply balanced_one, letter_wordy, name_letter, Ht.
  - intros t Ht. split; [discriminate|]. apply balanced_cons; [apply (L t "SPOT"%string); [cbn; tauto|exact Ht]|]. reflexivity.
  - intros t k op l e Hf Ht _ [A1 A2]. split; [discriminate|]. apply balanced_cons; [apply (L t k); [destruct Hf; cbn; tauto|exact Ht]|]. apply balanced_brackets, A2.
  - intros t k op l a b more Hf Ht _ [A1 A2] _. split; [discriminate|]. apply balanced_cons; [apply (L t k); [destruct Hf; cbn; tauto|exact Ht]|]. apply balanced_brackets, A2.
  - intros t b s e v Ht _ _ _ Pb Ps Pe _. split; [discriminate|]. apply balanced_cons; [apply (L t "DCF"%string); [cbn; tauto|exact Ht]|].
    replace (lit "(" :: b ++ lit "," :: s ++ lit "," :: e ++ [lit ")"]) with (lit "(" :: (b ++ lit "," :: s ++ lit "," :: e) ++ [lit ")"])
      by (rewrite <- !app_assoc; cbn [app]; rewrite <- app_assoc; reflexivity).
    apply balanced_brackets, balanced_app; [apply plain_balanced, Pb|]. apply balanced_cons; [reflexivity|].
    apply balanced_app; [apply plain_balanced, Ps|]. apply balanced_cons; [reflexivity|apply plain_balanced, Pe].
  - intros l e _ H. exact H.
  - intros l e l' es _ [A1 A2] _ [B1 B2]. split; [destruct l; discriminate|]. apply balanced_app; [exact A2|]. apply balanced_cons; [reflexivity|exact B2].
Qed.
End Shape.

Section Reading.
Context {N : Num}.
Variable to_double : str -> outcome num.
Variable dcf : str -> str -> str -> outcome num.
Variable consts : list (str * num).
Variable minus_one : num.
Notation parse_level := (parse_level to_double dcf consts).
Notation level_loop := (level_loop to_double dcf consts).
Notation parse_unary := (parse_unary to_double dcf consts).
Notation parse_paren := (parse_paren to_double dcf consts).
Notation parse_atom := (parse_atom to_double dcf consts).
Notation parse_args := (parse_args to_double dcf consts).
Notation args_loop := (args_loop to_double dcf consts).
Notation optionals := (optionals to_double).
Notation parse_elem := (parse_elem to_double dcf consts minus_one).
Notation parse_cond := (parse_cond to_double dcf consts minus_one).
Notation or_loop := (or_loop to_double dcf consts minus_one).
Notation parse_cond2 := (parse_cond2 to_double dcf consts minus_one).
Notation and_loop := (and_loop to_double dcf consts minus_one).
Notation cond_paren := (cond_paren to_double dcf consts minus_one).
Notation parse_statement := (parse_statement to_double dcf consts minus_one).
Notation block := (block to_double dcf consts minus_one).
Notation expression := (expression to_double dcf (const_value consts)).
Notation arguments := (arguments to_double dcf (const_value consts)).

(** unfolding *)
Lemma parse_level_S f l cur stop : parse_level (S f) l cur stop =
  match l with L4 => parse_unary f cur stop | _ => do (a, r) <- parse_level f (below l) cur stop; level_loop f l a r stop end.
Proof. reflexivity. Qed.
Lemma level_loop_S f l a cur stop : level_loop (S f) l a cur stop =
  if at_end cur stop then Ok (a, cur) else
  do t <- deref cur;
  match op_at l (first t) with
  | None => Ok (a, cur)
  | Some op => do cur <- advance cur; if at_end cur stop then Throw else
               do (b, r) <- parse_level f (below l) cur stop; level_loop f l (EBin None op a b []) r stop
  end.
Proof. reflexivity. Qed.
Lemma parse_unary_S f cur stop : parse_unary (S f) cur stop =
  do sign <- (if at_end cur stop then Ok None else do t <- deref cur; Ok (sign_of (first t)));
  match sign with
  | Some op => do cur <- advance cur; if at_end cur stop then Throw else do (x, r) <- parse_unary f cur stop; Ok (EUn None op x, r)
  | None => parse_paren f cur stop
  end.
Proof. reflexivity. Qed.
Lemma parse_paren_S f cur stop : parse_paren (S f) cur stop =
  do t <- deref cur;
  if is t "(" then
    do cur <- advance cur; do close <- find_match 1 cur stop; do (e, _) <- parse_level f L1 cur (length close);
    do cur <- advance close; Ok (e, cur)
  else parse_atom f cur stop.
Proof. reflexivity. Qed.
Lemma parse_atom_S f cur stop : parse_atom (S f) cur stop =
  do t <- deref cur; do cur <- advance cur;
  if is_digit (first t) then do v <- to_double t; Ok (EConst v, cur) else
  match func_of t with
  | Some FDcf => do (v, r) <- parse_dcf dcf cur stop; Ok (EConst v, r)
  | Some g => do (args, r) <- parse_args f cur stop; do e <- apply_func g args; Ok (e, r)
  | None => do e <- parse_var consts t; Ok (e, cur)
  end.
Proof. reflexivity. Qed.
Lemma parse_args_S f cur stop : parse_args (S f) cur stop =
  do t <- deref cur; if negb (starts t "(") then Throw else
  do cur <- advance cur; do close <- find_match 1 cur stop; do args <- args_loop f cur (length close) stop;
  do cur <- advance close; Ok (args, cur).
Proof. reflexivity. Qed.
Lemma args_loop_S f cur close stop : args_loop (S f) cur close stop =
  if at_end cur close then Ok [] else
  do (e, r) <- parse_level f L1 cur stop; do t <- deref r;
  do r <- (if starts t "," then advance r else if at_end r close then Ok r else Throw);
  do es <- args_loop f r close stop; Ok (e :: es).
Proof. reflexivity. Qed.

Definition parsed (s : strength) (l : list str) (e : expr) : Prop :=
  match s with
  | Tight => forall R stop fuel, stop <= length R -> 10 * length (l ++ R) + 3 <= fuel -> parse_unary fuel (l ++ R) stop = Ok (e, R)
  | _ => forall R stop fuel, stop <= length R -> calm_below (lv s) R stop -> 10 * length (l ++ R) + cost (lv s) <= fuel ->
         exists f', 10 * length R + 1 <= f' /\ parse_level fuel (lv s) (l ++ R) stop = level_loop f' (lv s) e R stop
  end.
Definition done (s : strength) (l : list str) (e : expr) : Prop :=
  forall R stop fuel, stop <= length R -> calm (lv s) R stop -> 10 * length (l ++ R) + cost (lv s) <= fuel ->
  parse_level fuel (lv s) (l ++ R) stop = Ok (e, R).
Lemma loop_quiet f l e R stop : 1 <= f -> quiet l R stop -> level_loop f l e R stop = Ok (e, R).
Proof.
  intros Hf H. destruct f as [|f]; [lia|]. rewrite level_loop_S. destruct (at_end R stop) eqn:E; [reflexivity|].
  destruct H as [H|H]; [congruence|]. destruct R as [|t r]; [destruct H|]. cbn [deref obind]. rewrite H. reflexivity.
Qed.
Lemma parsed_done s l e : parsed s l e -> done s l e.
Proof.
  intros H R stop fuel Hs Hc Hf. destruct s; cbn [parsed lv calm calm_below below cost] in *;
    try (destruct (H R stop fuel Hs ltac:(tauto) Hf) as (f' & Hf' & ->); apply loop_quiet; [lia|tauto]).
  destruct fuel as [|f]; [lia|]. rewrite parse_level_S. apply H; [exact Hs|lia].
Qed.

Definition reads (l : list str) (e : expr) : Prop :=
  forall R stop fuel, stop <= length R -> calm L1 R stop -> 10 * length (l ++ R) + 7 <= fuel -> parse_level fuel L1 (l ++ R) stop = Ok (e, R).
Lemma parsed_reads l e : parsed Sum l e -> reads l e.
Proof. intros H. exact (parsed_done Sum l e H). Qed.

(** the arguments of DCF *)
Lemma plain_starts t m : plain_token t -> In m (lit "(),") -> starts t m = false.
Proof. intros (c & r & -> & H) Hm. unfold starts. cbn [first]. destruct (Ascii.eqb_spec c m); [subst; contradiction|reflexivity]. Qed.
Lemma upto_plain l : forall X k t, Forall plain_token l -> k <= length (t :: X) -> starts t "," = true \/ k = length (t :: X) ->
  upto_comma (l ++ t :: X) k = Ok (concat l, t :: X).
Proof.
  induction l as [|u l IH]; intros X k t Hp Hk Ht; cbn [app concat upto_comma].
  - destruct (at_end (t :: X) k) eqn:E; [reflexivity|]. destruct Ht as [->|Ht]; [reflexivity|]. unfold at_end in E. apply Nat.eqb_neq in E. congruence.
  - inversion Hp; subst. rewrite at_end_false by (cbn [length] in *; rewrite app_length; cbn [length]; lia).
    rewrite (plain_starts u ",") by (try assumption; cbn; tauto). rewrite IH by assumption. reflexivity.
Qed.
Lemma skip_plain l X k : Forall plain_token l -> l <> [] -> k <= length X -> skip_commas (l ++ X) k = Ok (l ++ X) /\ at_end (l ++ X) k = false.
Proof.
  intros Hp Hn Hk. destruct l as [|u l]; [congruence|]. inversion Hp; subst. cbn [app skip_commas].
  rewrite at_end_false by (cbn [length]; rewrite app_length; lia). rewrite (plain_starts u ",") by (try assumption; cbn; tauto). auto.
Qed.
Lemma parse_dcf_eq b s e R stop : b <> [] -> s <> [] -> e <> [] -> Forall plain_token b -> Forall plain_token s -> Forall plain_token e ->
  find_match 1 (b ++ lit "," :: s ++ lit "," :: e ++ lit ")" :: R) stop = Ok (lit ")" :: R) ->
  parse_dcf dcf (lit "(" :: b ++ lit "," :: s ++ lit "," :: e ++ lit ")" :: R) stop = do v <- dcf (concat b) (concat s) (concat e); Ok (v, R).
Proof.
  intros Nb Ns Ne Pb Ps Pe Hm. unfold parse_dcf. cbn [deref advance obind]. change (starts (lit "(") "(") with true. cbn [negb].
  rewrite Hm. cbn [obind].
  remember (length (lit ")" :: R)) as k eqn:Ek.
  assert (Le : k <= length (e ++ lit ")" :: R)) by (rewrite app_length, Ek; apply Nat.le_add_l).
  assert (Lk : k <= length (lit "," :: e ++ lit ")" :: R)) by (cbn [length]; apply Nat.le_le_succ_r, Le);
    assert (Ls : k <= length (s ++ lit "," :: e ++ lit ")" :: R)) by (rewrite app_length; eapply Nat.le_trans; [exact Lk|apply Nat.le_add_l]);
    assert (Lj : k <= length (lit "," :: s ++ lit "," :: e ++ lit ")" :: R)) by (cbn [length]; apply Nat.le_le_succ_r, Ls).
  rewrite (proj2 (skip_plain b _ k Pb Nb Lj)).
  rewrite upto_plain; [|exact Pb|exact Lj|left; reflexivity]. cbn [obind advance].
  destruct (skip_plain s (lit "," :: e ++ lit ")" :: R) k Ps Ns Lk) as [S1 S2]. rewrite S1. cbn [obind]. rewrite S2.
  rewrite upto_plain; [|exact Ps|exact Lk|left; reflexivity]. cbn [obind advance].
  destruct (skip_plain e (lit ")" :: R) k Pe Ne (Nat.eq_le_incl _ _ Ek)) as [E1 E2]. rewrite E1. cbn [obind]. rewrite E2.
  rewrite upto_plain; [|exact Pe|exact (Nat.eq_le_incl _ _ Ek)|right; exact Ek]. cbn [obind advance]. reflexivity.
Qed.

Lemma parse_dcf_ok b s e v R stop : b <> [] -> s <> [] -> e <> [] -> Forall plain_token b -> Forall plain_token s -> Forall plain_token e ->
  dcf (concat b) (concat s) (concat e) = Ok v -> stop <= length R ->
  parse_dcf dcf (lit "(" :: b ++ lit "," :: s ++ lit "," :: e ++ lit ")" :: R) stop = Ok (v, R).
Proof.
  intros Nb Ns Ne Pb Ps Pe Hv Hs. rewrite parse_dcf_eq; try assumption; [rewrite Hv; reflexivity|].
  replace (b ++ lit "," :: s ++ lit "," :: e ++ lit ")" :: R) with ((b ++ lit "," :: s ++ lit "," :: e) ++ lit ")" :: R)
    by (rewrite <- !app_assoc; cbn [app]; rewrite <- app_assoc; reflexivity).
  assert (Bal : balanced (b ++ lit "," :: s ++ lit "," :: e)).
  { apply balanced_app; [apply plain_balanced, Pb|]. apply balanced_cons; [reflexivity|].
    apply balanced_app; [apply plain_balanced, Ps|]. apply balanced_cons; [reflexivity|apply plain_balanced, Pe]. }
  apply find_match_found; [exact Bal|exact Hs|reflexivity].
Qed.

(** a call with its arguments *)
Definition args_read (l : list str) (es : list expr) : Prop :=
  forall R stop fuel, stop <= length R -> 10 * length (l ++ lit ")" :: R) + 8 <= fuel -> args_loop fuel (l ++ lit ")" :: R) (length (lit ")" :: R)) stop = Ok es.
Lemma args_one l e : l <> [] -> parsed Sum l e -> args_read l [e].
Proof.
  intros Hn H R stop fuel Hs Hf. apply parsed_reads in H. destruct fuel as [|[|f]]; [lia|lia|]. rewrite args_loop_S.
  rewrite at_end_false by (destruct l; [congruence|]; rewrite app_length; cbn [length]; lia).
  rewrite (H (lit ")" :: R) stop (S f)); [|cbn [length]; lia|apply calm_token; reflexivity|lia]. cbn [obind deref].
  change (starts (lit ")") ",") with false. cbn beta iota. unfold at_end at 1. rewrite Nat.eqb_refl. cbn [obind]. rewrite args_loop_S.
  unfold at_end. rewrite Nat.eqb_refl. reflexivity.
Qed.
Lemma args_more l e l' es : l <> [] -> parsed Sum l e -> args_read l' es -> args_read (l ++ lit "," :: l') (e :: es).
Proof.
  intros Hn H Hl R stop fuel Hs Hf. apply parsed_reads in H. destruct fuel as [|f]; [lia|]. rewrite args_loop_S.
  rewrite <- app_assoc in *. cbn [app] in *. assert (Hlen : length (l ++ lit "," :: l' ++ lit ")" :: R) = length l + S (length (l' ++ lit ")" :: R))) by (rewrite app_length; reflexivity).
  assert (Hl' : length (l' ++ lit ")" :: R) = length l' + S (length R)) by (rewrite app_length; reflexivity).
  rewrite at_end_false by (cbn [length]; lia).
  rewrite H; [|cbn [length]; lia|apply calm_token; reflexivity|lia]. cbn [obind deref].
  change (starts (lit ",") ",") with true. cbn [advance obind]. rewrite Hl by lia. reflexivity.
Qed.
Lemma call_ok t g l es e R stop f : func_of t = Some g -> g <> FDcf -> is_digit (first t) = false -> balanced l -> args_read l es ->
  apply_func g es = Ok e -> stop <= length R -> 10 * length (t :: lit "(" :: l ++ lit ")" :: R) + 1 <= f ->
  parse_atom f (t :: lit "(" :: l ++ lit ")" :: R) stop = Ok (e, R).
Proof.
  intros Hg Hd Hn Hb Ha He Hs Hf. cbn [length] in Hf. destruct f as [|[|f]]; [lia|lia|]. rewrite parse_atom_S. cbn [deref advance obind]. rewrite Hn, Hg.
  assert (E : (do (args, r) <- parse_args (S f) (lit "(" :: l ++ lit ")" :: R) stop; do e <- apply_func g args; Ok (e, r)) = Ok (e, R)).
  { rewrite parse_args_S. cbn [deref obind]. change (starts (lit "(") "(") with true. cbn [negb advance obind].
    rewrite find_match_found; [|exact Hb|exact Hs|reflexivity]. cbn [obind]. rewrite Ha; [|exact Hs|lia]. cbn [obind advance]. rewrite He. reflexivity. }
  destruct g; try exact E. congruence.
Qed.
(** down to the atom *)
Lemma word_atom t rest stop fuel : wordy (first t) = true -> 3 <= fuel -> parse_unary fuel (t :: rest) stop = parse_atom (fuel - 2) (t :: rest) stop.
Proof.
  intros H Hf. destruct fuel as [|[|f]]; [lia|lia|]. rewrite parse_unary_S.
  assert (E : (if at_end (t :: rest) stop then Ok None else do t0 <- deref (t :: rest); Ok (sign_of (first t0))) = Ok None).
  { destruct (at_end (t :: rest) stop); [reflexivity|]. cbn [deref obind]. rewrite word_sign by exact H. reflexivity. }
  rewrite E. cbn [obind]. rewrite parse_paren_S. cbn [deref obind]. rewrite (proj1 (word_mark t "(" H ltac:(cbn; tauto))).
  replace (S (S f) - 2) with f by lia. reflexivity.
Qed.
Lemma func_word t k : In k keywords -> keyword t k -> wordy (first t) = true /\ is_digit (first t) = false.
Proof. intros Hk H. pose proof (keyword_letter t k Hk H) as L. split; [apply letter_wordy, L|apply letter_facts, L]. Qed.

Theorem reading :
  (forall s l e, expression s l e -> parsed s l e) /\ (forall l es, arguments l es -> args_read l es).
Proof.
  pose proof (expression_shape to_double dcf (const_value consts)) as [Sh1 Sh2].
  apply expression_arguments.
  - intros s l e Hs He H. apply parsed_done in H. assert (G : s <> Tight -> forall R stop fuel, stop <= length R -> calm_below (lv s) R stop -> 10 * length (l ++ R) + cost (lv s) <= fuel ->
         exists f', 10 * length R + 1 <= f' /\ parse_level fuel (lv s) (l ++ R) stop = level_loop f' (lv s) e R stop).
    { intros _ R stop fuel Hst Hc Hf. rewrite app_length in Hf. destruct fuel as [|f]; [destruct s; cbn [lv cost] in Hf; lia|]. exists f.
      split; [destruct s; cbn [lv cost] in Hf; lia|]. rewrite parse_level_S.
      assert (E : parse_level f (below (lv s)) (l ++ R) stop = Ok (e, R)).
      { replace (below (lv s)) with (lv (stronger s)) by (destruct s; reflexivity). apply H; [exact Hst| |rewrite app_length; destruct s; try (destruct (Hs eq_refl)); cbn [lv stronger cost] in *; lia].
        destruct s; cbn in *; tauto. }
      destruct s; try (destruct (Hs eq_refl)); cbn [lv below] in *; rewrite E; reflexivity. }
    destruct s; try (destruct (Hs eq_refl)); exact (G Hs).
  - intros s l1 a k op l2 b Ho E1 H1 E2 H2. apply parsed_done in H2. pose proof (proj1 (Sh1 _ _ _ E2)) as N2.
    assert (G : forall R stop fuel, stop <= length R -> calm_below (lv s) R stop -> 10 * length ((l1 ++ lit k :: l2) ++ R) + cost (lv s) <= fuel ->
         exists f', 10 * length R + 1 <= f' /\ parse_level fuel (lv s) ((l1 ++ lit k :: l2) ++ R) stop = level_loop f' (lv s) (EBin None op a b []) R stop).
    { intros R stop fuel Hst Hc Hf. rewrite <- app_assoc in *. cbn [app] in *.
      assert (P : exists f1, 10 * length (lit k :: l2 ++ R) + 1 <= f1 /\ parse_level fuel (lv s) (l1 ++ lit k :: l2 ++ R) stop = level_loop f1 (lv s) a (lit k :: l2 ++ R) stop).
      { destruct Ho; cbn [parsed lv] in *; apply H1; try exact Hf; try (cbn [length]; rewrite app_length; lia);
          cbn [calm_below calm below]; unfold quiet; cbn; auto. }
      destruct P as (f1 & Hf1 & ->). cbn [length] in Hf1. rewrite app_length in Hf1. destruct f1 as [|f]; [lia|]. exists f. split; [lia|].
      rewrite level_loop_S. rewrite at_end_false by (cbn [length]; rewrite app_length; lia). cbn [deref obind].
      assert (O : op_at (lv s) (first (lit k)) = Some op) by (destruct Ho; reflexivity). rewrite O. cbn [advance obind].
      rewrite at_end_false by (rewrite app_length; destruct l2; [congruence|]; cbn [length]; lia).
      replace (below (lv s)) with (lv (stronger s)) by (destruct s; reflexivity).
      rewrite H2; [reflexivity|exact Hst| |rewrite app_length; destruct s; cbn; lia].
      destruct s; cbn in *; tauto. }
    destruct Ho; exact G.
  - intros k op l e Ho E H R stop fuel Hst Hf. cbn [app length] in Hf. rewrite app_length in Hf. destruct fuel as [|f]; [lia|]. cbn [app]. rewrite parse_unary_S.
    pose proof (proj1 (Sh1 _ _ _ E)) as Nl. rewrite at_end_false by (cbn [length]; rewrite app_length; lia). cbn [deref obind].
    assert (O : sign_of (first (lit k)) = Some op) by (destruct Ho; reflexivity). rewrite O. cbn [advance obind].
    rewrite at_end_false by (rewrite app_length; destruct l; [congruence|]; cbn [length]; lia).
    rewrite H; [reflexivity|exact Hst|rewrite app_length; lia].
  - intros l e E H R stop fuel Hst Hf. apply parsed_reads in H. destruct (Sh1 _ _ _ E) as [Nl Bl].
    cbn [app length] in Hf. rewrite !app_length in Hf. cbn [length] in Hf. destruct fuel as [|[|f]]; [lia|lia|].
    cbn [app]. rewrite <- app_assoc. cbn [app]. rewrite parse_unary_S.
    assert (Es : (if at_end (lit "(" :: l ++ lit ")" :: R) stop then Ok None else do t0 <- deref (lit "(" :: l ++ lit ")" :: R); Ok (sign_of (first t0))) = Ok None).
    { destruct (at_end _ stop); reflexivity. }
    rewrite Es. cbn [obind]. rewrite parse_paren_S. cbn [deref obind]. change (is (lit "(") "(") with true. cbn [advance obind].
    rewrite find_match_found; [|exact Bl|exact Hst|reflexivity]. cbn [obind].
    rewrite H; [reflexivity|reflexivity|apply calm_end; apply Nat.eqb_refl|rewrite app_length; cbn [length lv cost]; lia].
  - intros t v Ht Hv R stop fuel Hst Hf. cbn [app length] in *. rewrite word_atom; [|apply number_wordy, Ht|lia].
    destruct (fuel - 2) as [|f] eqn:F; [lia|]. rewrite parse_atom_S. cbn [deref advance obind]. rewrite (number_digit t Ht), Hv. reflexivity.
  - intros t Ht R stop fuel Hst Hf. cbn [app length] in *. pose proof (name_letter t Ht) as L. rewrite word_atom; [|apply letter_wordy, L|lia].
    destruct (fuel - 2) as [|f] eqn:F; [lia|]. rewrite parse_atom_S. cbn [deref advance obind]. rewrite (proj1 (letter_facts _ L)), (name_func t Ht).
    unfold parse_var. rewrite (name_valid t Ht). reflexivity.
  - intros t Ht R stop fuel Hst Hf. cbn [app length] in *. destruct (func_word t "SPOT" ltac:(cbn; tauto) Ht) as [W D]. rewrite word_atom; [|exact W|lia].
    apply (call_ok t FSpot [] []); try exact Hst; try exact D; try reflexivity; try discriminate; cbn [app length]; [unfold func_of; rewrite (is_other t _ _ Ht); reflexivity| |lia].
    intros R' stop' fuel' Hs' Hf'. destruct fuel' as [|f]; [lia|]. rewrite args_loop_S. unfold at_end. cbn [app]. rewrite Nat.eqb_refl. reflexivity.
  - intros t k op l e Hfn Ht E H R stop fuel Hst Hf. destruct (Sh1 _ _ _ E) as [Nl Bl]. cbn [app length] in *. rewrite <- app_assoc in *. cbn [app] in *.
    destruct (func_word t k ltac:(destruct Hfn; cbn; tauto) Ht) as [W D]. rewrite word_atom; [|exact W|lia].
    apply (call_ok t (FUn op) l [e]); try exact Hst; try exact D; try exact Bl; try discriminate; try reflexivity; [|apply args_one; assumption|cbn [length]; lia].
    unfold func_of. rewrite !(is_other t _ _ Ht). destruct Hfn; reflexivity.
  - intros t k op l a b more Hfn Ht E H Hm R stop fuel Hst Hf. destruct (Sh2 _ _ E) as [Nl Bl]. cbn [app length] in *. rewrite <- app_assoc in *. cbn [app] in *.
    destruct (func_word t k ltac:(destruct Hfn; cbn; tauto) Ht) as [W D]. rewrite word_atom; [|exact W|lia].
    apply (call_ok t (FBin op) l (a :: b :: more)); try exact Hst; try exact D; try exact Bl; try discriminate; [|exact H| |cbn [length]; lia].
    + unfold func_of. rewrite !(is_other t _ _ Ht). destruct Hfn; reflexivity.
    + unfold apply_func. rewrite (proj2 (Nat.leb_le _ _)) by (cbn [length]; lia). reflexivity.
  - intros t b s e v Ht Nb Ns Ne Pb Ps Pe Hv R stop fuel Hst Hf. destruct (func_word t "DCF" ltac:(cbn; tauto) Ht) as [W D].
    cbn [app length] in Hf. cbn [app]. rewrite word_atom; [|exact W|lia]. destruct (fuel - 2) as [|f] eqn:F; [lia|]. rewrite parse_atom_S. cbn [deref advance obind]. rewrite D.
    assert (Fn : func_of t = Some FDcf) by (unfold func_of; rewrite !(is_other t _ _ Ht); reflexivity). rewrite Fn.
    replace ((b ++ lit "," :: s ++ lit "," :: e ++ [lit ")"]) ++ R) with (b ++ lit "," :: s ++ lit "," :: e ++ lit ")" :: R)
      by (rewrite <- !app_assoc; cbn [app]; rewrite <- app_assoc; cbn [app]; rewrite <- app_assoc; reflexivity).
    rewrite (parse_dcf_ok b s e v R stop Nb Ns Ne Pb Ps Pe Hv Hst). reflexivity.
  - intros l e E H. apply args_one; [exact (proj1 (Sh1 _ _ _ E))|exact H].
  - intros l e l' es E H E' H'. apply args_more; [exact (proj1 (Sh1 _ _ _ E))|exact H|exact H'].
Qed.
Corollary expression_done s l e : expression s l e -> done s l e.
Proof. intros H. apply parsed_done, reading, H. Qed.

Corollary expression_reads l e : expression Sum l e -> reads l e.
Proof. intros H. apply parsed_reads, reading, H. Qed.

(** * conditions *)
Notation condition := (condition to_double dcf (const_value consts) minus_one).
Notation widths := (widths to_double).
Lemma parse_cond_S f cur stop : parse_cond (S f) cur stop = do (a, r) <- parse_cond2 f cur stop; or_loop f a r stop.
Proof. reflexivity. Qed.
Lemma or_loop_S f a cur stop : or_loop (S f) a cur stop =
  if at_end cur stop then Ok (a, cur) else
  do t <- deref cur;
  if is t "OR" then do cur <- advance cur; if at_end cur stop then Throw else
    do (b, r) <- parse_cond2 f cur stop; or_loop f (COr no_flags a b) r stop
  else Ok (a, cur).
Proof. reflexivity. Qed.
Lemma parse_cond2_S f cur stop : parse_cond2 (S f) cur stop = do (a, r) <- cond_paren f cur stop; and_loop f a r stop.
Proof. reflexivity. Qed.
Lemma and_loop_S f a cur stop : and_loop (S f) a cur stop =
  if at_end cur stop then Ok (a, cur) else
  do t <- deref cur;
  if is t "AND" then do cur <- advance cur; if at_end cur stop then Throw else
    do (b, r) <- cond_paren f cur stop; and_loop f (CAnd no_flags a b) r stop
  else Ok (a, cur).
Proof. reflexivity. Qed.
Lemma cond_paren_S f cur stop : cond_paren (S f) cur stop =
  do t <- deref cur;
  if is t "(" then
    do cur <- advance cur; do close <- find_match 1 cur stop; do (c, _) <- parse_cond f cur (length close);
    do cur <- advance close; Ok (c, cur)
  else parse_elem f cur stop.
Proof. reflexivity. Qed.

(** what may follow a condition *)
Definition after_cond (t : str) : Prop := t = lit ")" \/ exists k, In k ["THEN"; "AND"; "OR"]%string /\ keyword t k.
Lemma after_calm t r l stop : after_cond t -> calm l (t :: r) stop.
Proof.
  intros [->|(k & Hk & H)]; [apply calm_token; reflexivity|]. apply calm_word, letter_wordy, (keyword_letter t k); [|exact H].
  cbn in *. tauto.
Qed.
Lemma after_optionals t r e stop : after_cond t -> optionals e (t :: r) stop = Ok (e, t :: r).
Proof.
  intros [->|(k & Hk & H)]; [reflexivity|]. cbn [ParserModel.optionals]. rewrite !(is_other t _ _ H). cbn in Hk.
  destruct Hk as [<-|[<-|[<-|[]]]]; reflexivity.
Qed.
Lemma widths_read e l e' : widths e l e' -> forall t r stop, after_cond t -> stop <= length (t :: r) ->
  optionals e (l ++ t :: r) stop = Ok (e', t :: r) /\ (forall lv, calm lv (l ++ t :: r) stop).
Proof.
  induction 1 as [e|e k u v l e' Hk Hu Hv _ IH]; intros t r stop Ht Hs.
  - split; [apply after_optionals, Ht|]. intros lv. apply after_calm, Ht.
  - destruct (IH t r stop Ht Hs) as [E _]. split.
    + cbn [app ParserModel.optionals]. rewrite at_end_false by (cbn [length] in *; rewrite app_length; cbn [length]; lia).
      rewrite Hv. cbn [obind]. rewrite E. cbn in Hk. destruct Hk as [<-|[<-|[]]]; reflexivity.
    + intros lv. cbn [app]. apply calm_token; cbn in Hk; destruct Hk as [<-|[<-|[]]]; reflexivity.
Qed.
Lemma widths_balanced e l e' : widths e l e' -> balanced l.
Proof.
  induction 1 as [e|e k u v l e' Hk Hu Hv _ IH]; [reflexivity|]. apply balanced_cons; [cbn in Hk; destruct Hk as [<-|[<-|[]]]; reflexivity|].
  apply balanced_cons; [apply balanced_one, number_wordy, Hu|exact IH].
Qed.
Lemma condition_shape k l c : condition k l c -> l <> [] /\ balanced l.
Proof.
  pose proof (expression_shape to_double dcf (const_value consts)) as [Sh _].
  assert (L : forall t k, In k keywords -> keyword t k -> balanced [t]) by (intros t k' Hk H; apply balanced_one, letter_wordy; exact (keyword_letter t k' Hk H)).
  induction 1 as [l c _ IH|l c _ IH|l1 a t l2 b Ht _ [A1 A2] _ [B1 B2]|l1 a t l2 b Ht _ [A1 A2] _ [B1 B2]|l c _ [A1 A2]|l1 a k l2 b l3 e c E1 _ E2 Hw Hc].
  - exact IH.
  - exact IH.
  - split; [destruct l1; discriminate|]. apply balanced_app; [exact A2|]. apply balanced_cons; [apply (L t "OR"%string); [cbn; tauto|exact Ht]|exact B2].
  - split; [destruct l1; discriminate|]. apply balanced_app; [exact A2|]. apply balanced_cons; [apply (L t "AND"%string); [cbn; tauto|exact Ht]|exact B2].
  - split; [discriminate|]. apply balanced_brackets, A2.
  - destruct (Sh _ _ _ E1) as [A1 A2], (Sh _ _ _ E2) as [B1 B2]. split; [destruct l1; discriminate|].
    apply balanced_app; [exact A2|]. apply balanced_cons; [destruct Hc; reflexivity|]. apply balanced_app; [exact B2|exact (widths_balanced _ _ _ Hw)].
Qed.
Lemma expression_head s l e : expression s l e -> exists t r, l = t :: r /\ (t = lit "(" \/ is t "(" = false).
Proof.
  assert (K : forall t k, In k keywords -> keyword t k -> is t "(" = false).
  { intros t k Hk H. refine (proj1 (word_mark t "(" (letter_wordy _ (keyword_letter t k Hk H)) _)). cbn. tauto. }
  induction 1 as [s l e _ _ IH|s l1 a k op l2 b _ _ (t & r & -> & H) _ _|k op l e Ho _ _|l e _ _|t v Ht _|t Ht|t Ht|t k op l e Hf Ht _ _|t k op l a b more Hf Ht _ _|t b s e v Ht _ _ _ _ _ _ _].
  - exact IH.
  - exists t, (r ++ lit k :: l2). auto.
  - exists (lit k), l. split; [reflexivity|]. right. destruct Ho; reflexivity.
  - eexists _, _. split; [reflexivity|]. left; reflexivity.
  - exists t, []. split; [reflexivity|]. right. refine (proj1 (word_mark t "(" (number_wordy t Ht) _)). cbn. tauto.
  - exists t, []. split; [reflexivity|]. right. refine (proj1 (word_mark t "(" (letter_wordy _ (name_letter t Ht)) _)). cbn. tauto.
  - eexists _, _. split; [reflexivity|]. right. apply (K t "SPOT"%string); [cbn; tauto|exact Ht].
  - eexists _, _. split; [reflexivity|]. right. apply (K t k); [destruct Hf; cbn; tauto|exact Ht].
  - eexists _, _. split; [reflexivity|]. right. apply (K t k); [destruct Hf; cbn; tauto|exact Ht].
  - eexists _, _. split; [reflexivity|]. right. apply (K t "DCF"%string); [cbn; tauto|exact Ht].
Qed.

Definition creads (k : cstrength) (l : list str) (c : cond) : Prop :=
  forall t r stop fuel, stop <= length (t :: r) -> after_cond t ->
  match k with
  | Single => 10 * length (l ++ t :: r) + 8 <= fuel -> cond_paren fuel (l ++ t :: r) stop = Ok (c, t :: r)
  | Conj => 10 * length (l ++ t :: r) + 10 <= fuel ->
      exists f', 10 * length (t :: r) + 1 <= f' /\ parse_cond2 fuel (l ++ t :: r) stop = and_loop f' c (t :: r) stop
  | Disj => is t "AND" = false -> 10 * length (l ++ t :: r) + 11 <= fuel ->
      exists f', 10 * length (t :: r) + 1 <= f' /\ parse_cond fuel (l ++ t :: r) stop = or_loop f' c (t :: r) stop
  end.
Lemma and_stop f c t r stop : 1 <= f -> is t "AND" = false -> and_loop f c (t :: r) stop = Ok (c, t :: r).
Proof. intros Hf H. destruct f as [|f]; [lia|]. rewrite and_loop_S. destruct (at_end _ stop); [reflexivity|]. cbn [deref obind]. rewrite H. reflexivity. Qed.
Lemma or_stop f c t r stop : 1 <= f -> at_end (t :: r) stop = true \/ is t "OR" = false -> or_loop f c (t :: r) stop = Ok (c, t :: r).
Proof.
  intros Hf H. destruct f as [|f]; [lia|]. rewrite or_loop_S. destruct (at_end _ stop) eqn:E; [reflexivity|]. cbn [deref obind].
  destruct H as [H|H]; [congruence|]. rewrite H. reflexivity.
Qed.
Lemma build_ok k a b e c : comparison k a b e c -> build (lit k) a b e = Ok c.
Proof. destruct 1; reflexivity. Qed.
Theorem condition_reads k l c : condition k l c -> creads k l c.
Proof.
  induction 1 as [l c _ IH|l c _ IH|l1 a u l2 b Hu C1 IH1 C2 IH2|l1 a u l2 b Hu C1 IH1 C2 IH2|l c C IH|l1 a k l2 b l3 e c E1 Hh E2 Hw Hc]; intros t r stop fuel Hs Ht.
  - intros Ha Hf. rewrite app_length in Hf. destruct fuel as [|f]; [lia|]. rewrite parse_cond_S.
    destruct (IH t r stop f Hs Ht ltac:(rewrite app_length; lia)) as (f' & Hf' & ->). rewrite and_stop by (try assumption; lia). cbn [obind].
    exists f. split; [lia|reflexivity].
  - intros Hf. rewrite app_length in Hf. destruct fuel as [|f]; [lia|]. rewrite parse_cond2_S.
    rewrite (IH t r stop f Hs Ht) by (rewrite app_length; lia). cbn [obind]. exists f. split; [lia|reflexivity].
  - intros Ha Hf. rewrite <- app_assoc in *. cbn [app] in *.
    assert (Au : after_cond u) by (right; exists "OR"%string; split; [cbn; tauto|exact Hu]).
    assert (L : length (l2 ++ t :: r) = length l2 + S (length r)) by (rewrite app_length; reflexivity). cbn [length] in Hs.
    destruct (IH1 u (l2 ++ t :: r) stop fuel ltac:(cbn [length]; lia) Au ltac:(rewrite (is_other u _ _ Hu); reflexivity) Hf) as (f1 & Hf1 & ->).
    cbn [length] in Hf1. destruct f1 as [|f1]; [lia|]. rewrite or_loop_S. rewrite at_end_false by (cbn [length]; lia). cbn [deref obind].
    rewrite (is_other u _ _ Hu). change (is (lit "OR") "OR") with true. cbn [advance obind].
    pose proof (proj1 (condition_shape _ _ _ C2)) as N2.
    rewrite at_end_false by (rewrite L; destruct l2; [congruence|]; cbn [length]; lia).
    destruct (IH2 t r stop f1 ltac:(cbn [length]; lia) Ht ltac:(lia)) as (f2 & Hf2 & ->). rewrite and_stop by (try assumption; lia). cbn [obind].
    exists f1. split; [cbn [length]; lia|reflexivity].
  - intros Hf. rewrite <- app_assoc in *. cbn [app] in *.
    assert (Au : after_cond u) by (right; exists "AND"%string; split; [cbn; tauto|exact Hu]).
    assert (L : length (l2 ++ t :: r) = length l2 + S (length r)) by (rewrite app_length; reflexivity). cbn [length] in Hs.
    destruct (IH1 u (l2 ++ t :: r) stop fuel ltac:(cbn [length]; lia) Au Hf) as (f1 & Hf1 & ->).
    cbn [length] in Hf1. destruct f1 as [|f1]; [lia|]. rewrite and_loop_S. rewrite at_end_false by (cbn [length]; lia). cbn [deref obind].
    rewrite (is_other u _ _ Hu). change (is (lit "AND") "AND") with true. cbn [advance obind].
    pose proof (proj1 (condition_shape _ _ _ C2)) as N2.
    rewrite at_end_false by (rewrite L; destruct l2; [congruence|]; cbn [length]; lia).
    rewrite (IH2 t r stop f1 ltac:(cbn [length]; lia) Ht) by lia. cbn [obind]. exists f1. split; [cbn [length]; lia|reflexivity].
  - intros Hf. destruct (condition_shape _ _ _ C) as [Nl Bl]. cbn [app] in *. rewrite <- app_assoc in *. cbn [app length] in *. rewrite app_length in Hf. cbn [length] in Hf.
    destruct fuel as [|f]; [lia|]. rewrite cond_paren_S. cbn [deref obind]. change (is (lit "(") "(") with true. cbn [advance obind].
    rewrite find_match_found; [|exact Bl|cbn [length]; exact Hs|reflexivity]. cbn [obind].
    destruct (IH (lit ")") (t :: r) (length (lit ")" :: t :: r)) f (le_n _) (or_introl eq_refl) eq_refl) as (f' & Hf' & E);
      [rewrite app_length; cbn [length]; lia|]. rewrite E, or_stop; [|lia|left; apply Nat.eqb_refl]. reflexivity.
  - intros Hf. rewrite <- app_assoc in *. cbn [app] in *. rewrite <- app_assoc in *.
    pose proof (expression_shape to_double dcf (const_value consts)) as [Sh _]. pose proof (proj1 (Sh _ _ _ E2)) as N2.
    destruct (expression_head _ _ _ E1) as (h & l1' & -> & Hp). cbn [hd] in Hh. destruct Hp as [Hp|Hp]; [congruence|].
    destruct (widths_read _ _ _ Hw t r stop Ht Hs) as [W1 W2].
    pose proof (expression_reads _ _ E1) as R1. pose proof (expression_reads _ _ E2) as R2.
    assert (L : length ((h :: l1') ++ lit k :: l2 ++ l3 ++ t :: r) = length (h :: l1') + S (length l2 + (length l3 + S (length r))))
      by (rewrite app_length; cbn [length]; rewrite app_length, app_length; reflexivity).
    assert (L2 : length (l2 ++ l3 ++ t :: r) = length l2 + (length l3 + S (length r))) by (rewrite app_length, app_length; reflexivity).
    assert (L3 : length (l3 ++ t :: r) = length l3 + S (length r)) by (rewrite app_length; reflexivity).
    cbn [length] in Hs. destruct fuel as [|f]; [lia|]. rewrite cond_paren_S. cbn [app deref obind]. rewrite Hp.
    change (h :: l1' ++ lit k :: l2 ++ l3 ++ t :: r) with ((h :: l1') ++ lit k :: l2 ++ l3 ++ t :: r). unfold ParserModel.parse_elem.
    rewrite R1; [|cbn [length]; lia|apply calm_token; destruct Hc; reflexivity|lia]. cbn [obind].
    rewrite at_end_false by (cbn [length]; lia). cbn [deref advance obind].
    rewrite at_end_false by (rewrite L2; destruct l2; [congruence|]; cbn [length]; lia).
    rewrite R2; [|lia|apply W2|lia]. cbn [obind]. rewrite W1. cbn [obind]. rewrite (build_ok _ _ _ _ _ Hc). reflexivity.
Qed.

(** * statements *)
Notation statement := (statement to_double dcf (const_value consts) minus_one).
Notation statements := (statements to_double dcf (const_value consts) minus_one).
Lemma block_S f ends cur stop : block (S f) ends cur stop =
  if at_end cur stop then Ok ([], cur) else
  do t <- deref cur; if ends t then Ok ([], cur) else
  do (s, cur) <- parse_statement f cur stop; do (l, cur) <- block f ends cur stop; Ok (s :: l, cur).
Proof. reflexivity. Qed.
Lemma parse_statement_S f cur stop : parse_statement (S f) cur stop =
  do t <- deref cur;
  if is t "IF" then
    do cur <- advance cur; if at_end cur stop then Throw else
    do (c, cur) <- parse_cond f cur stop; if at_end cur stop then Throw else
    do t <- deref cur; if negb (is t "then") then Throw else
    do cur <- advance cur; do (thens, cur) <- block f (fun t => is t "ELSE" || is t "END") cur stop;
    if at_end cur stop then Throw else
    do t <- deref cur;
    do (elses, cur) <-
      (if is t "ELSE" then
         do cur <- advance cur; do (l, cur) <- block f (fun t => is t "END") cur stop;
         if at_end cur stop then Throw else Ok (Some l, cur)
       else Ok (None, cur));
    do cur <- advance cur; Ok (SIf no_flags [] c thens elses, cur)
  else
    do v <- parse_lhs consts t; do cur <- advance cur; if at_end cur stop then Throw else
    do t <- deref cur;
    if is t "=" || is t "PAYS" then
      do cur <- advance cur; if at_end cur stop then Throw else
      do (e, cur) <- parse_level f L1 cur stop; Ok (if is t "=" then SAssign v e else SPays v e, cur)
    else Throw.
Proof. reflexivity. Qed.

Definition wordy_next (R : cursor) : Prop := match R with [] => True | t :: _ => wordy (first t) = true end.
Lemma wordy_calm R l : wordy_next R -> calm l R 0.
Proof. destruct R as [|t r]; intros H; [apply calm_end; reflexivity|apply calm_word, H]. Qed.
Definition opens (t : str) : Prop := name_token t \/ keyword t "IF".
Lemma opens_wordy t : opens t -> wordy (first t) = true.
Proof. intros [H|H]; apply letter_wordy; [apply name_letter, H|apply (keyword_letter t "IF"%string); [cbn; tauto|exact H]]. Qed.
Lemma statement_head l s : statement l s -> exists t r, l = t :: r /\ opens t.
Proof. unfold opens. destruct 1; eauto 6. Qed.
Lemma statements_next l ss R : statements l ss -> wordy_next R -> wordy_next (l ++ R).
Proof. destruct 1 as [|l s l' ss Hs _]; intros H; [exact H|]. destruct (statement_head _ _ Hs) as (t & r & -> & Ho). exact (opens_wordy t Ho). Qed.

Definition sreads (l : list str) (s : stmt) : Prop :=
  forall R fuel, wordy_next R -> 10 * length (l ++ R) + 12 <= fuel -> parse_statement fuel (l ++ R) 0 = Ok (s, R).
Definition breads (l : list str) (ss : list stmt) : Prop :=
  forall ends R fuel, wordy_next R -> (forall t, opens t -> ends t = false) -> match R with [] => True | t :: _ => ends t = true end ->
  10 * length (l ++ R) + 13 <= fuel -> block fuel ends (l ++ R) 0 = Ok (ss, R).
Lemma opens_not t k : opens t -> In k ["ELSE"; "END"]%string -> is t k = false.
Proof.
  intros [H|H] Hk; [apply name_not; [exact H|]; cbn in *; tauto|]. rewrite (is_other t _ _ H). cbn in Hk. destruct Hk as [<-|[<-|[]]]; reflexivity.
Qed.
Lemma key_wordy t k : In k keywords -> keyword t k -> wordy (first t) = true.
Proof. intros Hk H. apply letter_wordy, (keyword_letter t k Hk H). Qed.

Lemma cond_then lc c th R f : condition Disj lc c -> keyword th "THEN" -> 10 * length (lc ++ th :: R) + 11 <= f ->
  parse_cond f (lc ++ th :: R) 0 = Ok (c, th :: R).
Proof.
  intros C Ht Hf. assert (Au : after_cond th) by (right; exists "THEN"%string; split; [cbn; tauto|exact Ht]).
  destruct (condition_reads _ _ _ C th R 0 f ltac:(lia) Au ltac:(rewrite (is_other th _ _ Ht); reflexivity) Hf) as (f' & Hf' & ->).
  apply or_stop; [lia|]. right. rewrite (is_other th _ _ Ht). reflexivity.
Qed.
Theorem statements_read : (forall l s, statement l s -> sreads l s) /\ (forall l ss, statements l ss -> breads l ss).
Proof.
  pose proof (expression_shape to_double dcf (const_value consts)) as [Sh _].
  apply statement_statements.
  - intros t l e Ht E R fuel HR Hf. pose proof (proj1 (Sh _ _ _ E)) as Nl. pose proof (expression_reads _ _ E) as Re. cbn [app length] in *.
    destruct fuel as [|f]; [lia|]. rewrite parse_statement_S. cbn [deref obind]. rewrite (name_not t "IF" Ht ltac:(cbn; tauto)).
    unfold parse_lhs. rewrite (name_valid t Ht). cbn [obind advance]. rewrite at_end_false by (cbn [length]; lia). cbn [deref obind].
    change (is (lit "=") "=") with true. cbn [orb obind advance].
    rewrite at_end_false by (destruct l; [congruence|]; cbn [app length]; lia).
    rewrite Re; [reflexivity|lia|apply wordy_calm, HR|lia].
  - intros t p l e Ht Hp E R fuel HR Hf. pose proof (proj1 (Sh _ _ _ E)) as Nl. pose proof (expression_reads _ _ E) as Re. cbn [app length] in *.
    destruct fuel as [|f]; [lia|]. rewrite parse_statement_S. cbn [deref obind]. rewrite (name_not t "IF" Ht ltac:(cbn; tauto)).
    unfold parse_lhs. rewrite (name_valid t Ht). cbn [obind advance]. rewrite at_end_false by (cbn [length]; lia). cbn [deref obind].
    rewrite !(is_other p _ _ Hp). change (is (lit "PAYS") "=") with false. change (is (lit "PAYS") "PAYS") with true. cbn [orb obind advance].
    rewrite at_end_false by (destruct l; [congruence|]; cbn [app length]; lia).
    rewrite Re; [reflexivity|lia|apply wordy_calm, HR|lia].
  - intros i lc c th l1 s1 en Hi C Hth E1 H1 Hen R fuel HR Hf. pose proof (proj1 (condition_shape _ _ _ C)) as Nc.
    cbn [app] in *. rewrite <- app_assoc in *. cbn [app] in *. rewrite <- app_assoc in *. cbn [app] in *. cbn [length] in Hf.
    assert (L : length (lc ++ th :: l1 ++ en :: R) = length lc + S (length (l1 ++ en :: R))) by (rewrite app_length; reflexivity).
    destruct fuel as [|f]; [lia|]. rewrite parse_statement_S. cbn [deref obind]. rewrite (is_other i _ _ Hi). change (is (lit "IF") "IF") with true.
    cbn [advance obind]. rewrite at_end_false by lia. rewrite (cond_then lc c th _ f C Hth) by lia. cbn [obind].
    rewrite at_end_false by (cbn [length]; lia). cbn [deref obind]. rewrite (is_other th _ _ Hth). change (is (lit "THEN") "then") with true. cbn [negb advance obind].
    rewrite H1; [|cbn; apply (key_wordy en "END"%string); [cbn; tauto|exact Hen]| |cbn beta; rewrite !(is_other en _ _ Hen); reflexivity|lia].
    2:{ intros t Ho. rewrite !opens_not by (try exact Ho; cbn; tauto). reflexivity. }
    cbn [obind]. rewrite at_end_false by (cbn [length]; lia). cbn [deref obind]. rewrite !(is_other en _ _ Hen).
    change (is (lit "END") "ELSE") with false. cbn [obind advance]. reflexivity.
  - intros i lc c th l1 s1 el l2 s2 en Hi C Hth E1 H1 Hel E2 H2 Hen R fuel HR Hf. pose proof (proj1 (condition_shape _ _ _ C)) as Nc.
    cbn [app] in *. rewrite <- app_assoc in *. cbn [app] in *. rewrite <- app_assoc in *. cbn [app] in *. rewrite <- app_assoc in *. cbn [app] in *. cbn [length] in Hf.
    assert (L : length (lc ++ th :: l1 ++ el :: l2 ++ en :: R) = length lc + S (length (l1 ++ el :: l2 ++ en :: R))) by (rewrite app_length; reflexivity).
    assert (L1 : length (l1 ++ el :: l2 ++ en :: R) = length l1 + S (length (l2 ++ en :: R))) by (rewrite app_length; reflexivity).
    destruct fuel as [|f]; [lia|]. rewrite parse_statement_S. cbn [deref obind]. rewrite (is_other i _ _ Hi). change (is (lit "IF") "IF") with true.
    cbn [advance obind]. rewrite at_end_false by lia. rewrite (cond_then lc c th _ f C Hth) by lia. cbn [obind].
    rewrite at_end_false by (cbn [length]; lia). cbn [deref obind]. rewrite (is_other th _ _ Hth). change (is (lit "THEN") "then") with true. cbn [negb advance obind].
    rewrite H1; [|cbn; apply (key_wordy el "ELSE"%string); [cbn; tauto|exact Hel]| |cbn beta; rewrite !(is_other el _ _ Hel); reflexivity|lia].
    2:{ intros t Ho. rewrite !opens_not by (try exact Ho; cbn; tauto). reflexivity. }
    cbn [obind]. rewrite at_end_false by (cbn [length]; lia). cbn [deref obind]. rewrite !(is_other el _ _ Hel).
    change (is (lit "ELSE") "ELSE") with true. cbn [obind advance].
    rewrite H2; [|cbn; apply (key_wordy en "END"%string); [cbn; tauto|exact Hen]| |cbn beta; rewrite !(is_other en _ _ Hen); reflexivity|lia].
    2:{ intros t Ho. apply opens_not; [exact Ho|cbn; tauto]. }
    cbn [obind]. rewrite at_end_false by (cbn [length]; lia). reflexivity.
  - intros ends R fuel HR He Hend Hf. cbn [app] in *. destruct fuel as [|f]; [lia|]. rewrite block_S. destruct R as [|t r]; [reflexivity|].
    rewrite at_end_false by (cbn [length]; lia). cbn [deref obind]. rewrite Hend. reflexivity.
  - intros l s l' ss E H E' H' ends R fuel HR He Hend Hf. rewrite <- app_assoc in *. destruct (statement_head _ _ E) as (t & r & -> & Ho).
    assert (L : length ((t :: r) ++ l' ++ R) = S (length r + length (l' ++ R))) by (rewrite app_length; reflexivity).
    destruct fuel as [|f]; [lia|]. rewrite block_S. rewrite at_end_false by lia. cbn [app deref obind]. rewrite (He t Ho).
    change (t :: r ++ l' ++ R) with ((t :: r) ++ l' ++ R). rewrite H; [|apply (statements_next _ _ _ E' HR)|lia]. cbn [obind].
    rewrite H'; [reflexivity|exact HR|exact He|exact Hend|lia].
Qed.
Theorem script_read l ss : statements l ss -> parse_tokens to_double dcf consts minus_one l = Ok ss.
Proof.
  intros H. unfold parse_tokens. pose proof (proj2 statements_read _ _ H (fun _ => false) [] (enough l)) as E. rewrite app_nil_r in E.
  rewrite E; [reflexivity|exact Logic.I|reflexivity|exact Logic.I|unfold enough; lia].
Qed.
End Reading.
