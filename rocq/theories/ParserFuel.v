(** The parser comes to an end: the fuel given by the model is always enough. *)
From Coq Require Import String Ascii ZArith List Bool Lia Arith.
From Verif Require Import Base StringModel ScriptModel ParserModel.
Import ListNotations.
Local Open Scope nat_scope.

Lemma find_match_ends cur : forall k stop, find_match k cur stop <> OutOfFuel /\ forall c, find_match k cur stop = Ok c -> 0 < length c <= length cur.
Proof.
  induction cur as [|t r IH]; intros k stop; cbn [find_match].
  - destruct (at_end [] stop); split; discriminate.
  - destruct (at_end (t :: r) stop); [split; discriminate|].
    destruct (k + _ - _).
    + split; [discriminate|]. intros c E. assert (c = t :: r) by congruence. subst. cbn. lia.
    + destruct (IH (S n) stop) as [H1 H2]. split; [exact H1|]. intros c E. specialize (H2 c E). cbn. lia.
Qed.
Lemma advance_len cur r : advance cur = Ok r -> length cur = S (length r).
Proof. destruct cur as [|s l]; cbn; intros E; [discriminate|]. assert (l = r) by congruence. subst. reflexivity. Qed.
Lemma upto_ends cur : forall k, upto_comma cur k <> OutOfFuel.
Proof.
  induction cur as [|t r IH]; intros k; cbn [upto_comma]; destruct (at_end _ k); try discriminate. destruct (starts t ","); try discriminate.
  specialize (IH k). destruct (upto_comma r k) as [[]| | |]; cbn; congruence.
Qed.
Lemma skip_ends cur : forall k, skip_commas cur k <> OutOfFuel.
Proof. induction cur as [|t r IH]; intros k; cbn [skip_commas]; destruct (at_end _ k); try discriminate. destruct (starts t ","); [apply IH|discriminate]. Qed.

(** a result that is not for lack of fuel and leaves fewer than [n] tokens *)
Definition fine {A} (n : nat) (o : outcome (A * cursor)) : Prop := o <> OutOfFuel /\ forall a r, o = Ok (a, r) -> length r < n.
Lemma fine_throw {A} n : fine n (@Throw (A * cursor)). Proof. split; discriminate. Qed.
Lemma fine_ub {A} n : fine n (@UB (A * cursor)). Proof. split; discriminate. Qed.
Lemma fine_ok {A} n (a : A) r : length r < n -> fine n (Ok (a, r)).
Proof. intros H. split; [discriminate|]. intros b s E. assert (s = r) by congruence. subst. exact H. Qed.
Lemma fine_bind {A B} n (o : outcome A) (f : A -> outcome (B * cursor)) : o <> OutOfFuel -> (forall a, o = Ok a -> fine n (f a)) -> fine n (obind o f).
Proof. intros H1 H2. destruct o; cbn; [apply H2; reflexivity|apply fine_throw|apply fine_ub|congruence]. Qed.
Lemma fine_pair {A B} m n (o : outcome (A * cursor)) (f : A * cursor -> outcome (B * cursor)) :
  fine m o -> (forall a r, o = Ok (a, r) -> length r < m -> fine n (f (a, r))) -> fine n (obind o f).
Proof. intros [H1 H2] H3. apply fine_bind; [exact H1|]. intros [a r] E. apply H3; [exact E|eapply H2; exact E]. Qed.
Lemma fine_weaken {A} m n (o : outcome (A * cursor)) : fine m o -> m <= n -> fine n o.
Proof. intros [H1 H2] H. split; [exact H1|]. intros a r E. specialize (H2 a r E). lia. Qed.
Lemma deref_fuel cur : deref cur <> OutOfFuel. Proof. destruct cur; discriminate. Qed.
Lemma advance_fuel cur : advance cur <> OutOfFuel. Proof. destruct cur; discriminate. Qed.

Section Fuel.
Context {N : Num}.
Variable to_double : str -> outcome num.
Variable dcf : str -> str -> str -> outcome num.
Variable consts : list (str * num).
Variable minus_one : num.
Hypothesis to_double_ends : forall t, to_double t <> OutOfFuel.
Hypothesis dcf_ends : forall b s e, dcf b s e <> OutOfFuel.

Notation parse_level := (parse_level to_double dcf consts).
Notation level_loop := (level_loop to_double dcf consts).
Notation parse_unary := (parse_unary to_double dcf consts).
Notation parse_paren := (parse_paren to_double dcf consts).
Notation parse_atom := (parse_atom to_double dcf consts).
Notation parse_args := (parse_args to_double dcf consts).
Notation args_loop := (args_loop to_double dcf consts).
Notation optionals := (optionals to_double).
Notation parse_elem := (parse_elem to_double dcf consts minus_one).
Notation parse_cond := (parse_cond to_double dcf consts minus_one).
Notation or_loop := (or_loop to_double dcf consts minus_one).
Notation parse_cond2 := (parse_cond2 to_double dcf consts minus_one).
Notation and_loop := (and_loop to_double dcf consts minus_one).
Notation cond_paren := (cond_paren to_double dcf consts minus_one).
Notation parse_statement := (parse_statement to_double dcf consts minus_one).
Notation block := (block to_double dcf consts minus_one).

Lemma parse_dcf_fine cur stop : fine (length cur) (parse_dcf dcf cur stop).
Proof.
  unfold parse_dcf. apply fine_bind; [apply deref_fuel|]. intros t _. destruct (negb _); [apply fine_throw|].
  apply fine_bind; [apply advance_fuel|]. intros c Hc. apply advance_len in Hc.
  apply fine_bind; [apply find_match_ends|]. intros cl Hcl. apply find_match_ends in Hcl.
  destruct (at_end c _); [apply fine_throw|].
  apply fine_bind; [apply upto_ends|]. intros [b c1] _. apply fine_bind; [apply advance_fuel|]. intros c2 _.
  apply fine_bind; [apply skip_ends|]. intros c3 _. destruct (at_end c3 _); [apply fine_throw|].
  apply fine_bind; [apply upto_ends|]. intros [b' c1'] _. apply fine_bind; [apply advance_fuel|]. intros c2' _.
  apply fine_bind; [apply skip_ends|]. intros c3' _. destruct (at_end c3' _); [apply fine_throw|].
  apply fine_bind; [apply upto_ends|]. intros [b'' c1''] _. apply fine_bind; [apply advance_fuel|]. intros c4 H4. apply advance_len in H4.
  apply fine_bind; [apply dcf_ends|]. intros v _. apply fine_ok. lia.
Qed.
Lemma args_loop_S f cur close stop : args_loop (S f) cur close stop =
  (if at_end cur close then Ok [] else
   do (e, r) <- parse_level f L1 cur stop;
   do t <- deref r;
   do r <- (if starts t "," then advance r else if at_end r close then Ok r else Throw);
   do es <- args_loop f r close stop;
   Ok (e :: es)).
Proof. reflexivity. Qed.
Definition offset (l : level) : nat := match l with L1 => 7 | L2 => 6 | L3 => 5 | L4 => 4 end.
Lemma exprs_fine fuel :
  (forall l cur stop, 10 * length cur + offset l <= fuel -> fine (length cur) (parse_level fuel l cur stop)) /\
  (forall l a cur stop, 10 * length cur + 1 <= fuel -> fine (S (length cur)) (level_loop fuel l a cur stop)) /\
  (forall cur stop, 10 * length cur + 3 <= fuel -> fine (length cur) (parse_unary fuel cur stop)) /\
  (forall cur stop, 10 * length cur + 2 <= fuel -> fine (length cur) (parse_paren fuel cur stop)) /\
  (forall cur stop, 10 * length cur + 1 <= fuel -> fine (length cur) (parse_atom fuel cur stop)) /\
  (forall cur stop, 10 * length cur + 9 <= fuel -> fine (length cur) (parse_args fuel cur stop)) /\
  (forall cur close stop, 10 * length cur + 8 <= fuel -> args_loop fuel cur close stop <> OutOfFuel).
Proof.
  induction fuel as [|f (IHl & IHo & IHu & IHp & IHa & IHg & IHx)].
  { repeat apply conj; intros; exfalso; try destruct l; cbn [offset] in *; lia. }
  split; [|split; [|split; [|split; [|split; [|split]]]]].
  - intros l cur stop H. cbn [ParserModel.parse_level]. destruct l; cbn [offset below] in *;
      try (eapply fine_pair; [apply IHl; cbn [offset]; lia|]; intros a r _ Hr; eapply fine_weaken; [apply IHo; lia|lia]).
    apply IHu. lia.
  - intros l a cur stop H. cbn [ParserModel.level_loop]. destruct (at_end cur stop); [apply fine_ok; lia|].
    apply fine_bind; [apply deref_fuel|]. intros t _. destruct (op_at l (first t)); [|apply fine_ok; lia].
    apply fine_bind; [apply advance_fuel|]. intros c Hc. apply advance_len in Hc. destruct (at_end c stop); [apply fine_throw|].
    eapply fine_pair; [apply IHl; destruct l; cbn [below offset]; lia|]. intros b' r _ Hr. eapply fine_weaken; [apply IHo; lia|lia].
  - intros cur stop H. cbn [ParserModel.parse_unary]. apply fine_bind.
    { destruct (at_end cur stop); [discriminate|]. destruct cur; discriminate. }
    intros [op|] _; [|apply IHp; lia].
    apply fine_bind; [apply advance_fuel|]. intros c Hc. apply advance_len in Hc. destruct (at_end c stop); [apply fine_throw|].
    eapply fine_pair; [apply IHu; lia|]. intros x r _ Hr. apply fine_ok. lia.
  - intros cur stop H. cbn [ParserModel.parse_paren]. apply fine_bind; [apply deref_fuel|]. intros t _. destruct (is t "("); [|apply IHa; lia].
    apply fine_bind; [apply advance_fuel|]. intros c Hc. apply advance_len in Hc.
    apply fine_bind; [apply find_match_ends|]. intros cl Hcl. apply find_match_ends in Hcl.
    eapply fine_pair; [apply IHl; cbn [offset]; lia|]. intros e r _ _.
    apply fine_bind; [apply advance_fuel|]. intros c2 Hc2. apply advance_len in Hc2. apply fine_ok. lia.
  - intros cur stop H. cbn [ParserModel.parse_atom]. apply fine_bind; [apply deref_fuel|]. intros t _.
    apply fine_bind; [apply advance_fuel|]. intros c Hc. apply advance_len in Hc. destruct (is_digit (first t)).
    + apply fine_bind; [apply to_double_ends|]. intros v _. apply fine_ok. lia.
    + assert (G : forall g, fine (length cur) (do (args, r) <- parse_args f c stop; do e <- apply_func g args; Ok (e, r))).
      { intros g. eapply fine_pair; [apply IHg; lia|]. intros args r _ Hr. apply fine_bind.
        - destruct g; destruct args as [|x [|y q]]; cbn; try discriminate. destruct (length (x :: y :: q) <=? 1000)%nat eqn:E; cbn in E; rewrite ?E; discriminate.
        - intros e _. apply fine_ok. lia. }
      destruct (func_of t) as [[]|]; try apply G.
      * eapply fine_pair; [apply parse_dcf_fine|]. intros v r _ Hr. apply fine_ok. lia.
      * apply fine_bind; [unfold parse_var; destruct (valid_name t); discriminate|]. intros e _. apply fine_ok. lia.
  - intros cur stop H. cbn [ParserModel.parse_args]. apply fine_bind; [apply deref_fuel|]. intros t _. destruct (negb _); [apply fine_throw|].
    apply fine_bind; [apply advance_fuel|]. intros c Hc. apply advance_len in Hc.
    apply fine_bind; [apply find_match_ends|]. intros cl Hcl. apply find_match_ends in Hcl.
    apply fine_bind; [apply IHx; lia|]. intros args _.
    apply fine_bind; [apply advance_fuel|]. intros c2 Hc2. apply advance_len in Hc2. apply fine_ok. lia.
  - intros cur close stop H. rewrite args_loop_S. destruct (at_end cur close); [discriminate|].
    destruct (IHl L1 cur stop ltac:(cbn [offset]; lia)) as [F1 F2]. destruct (parse_level f L1 cur stop) as [[e r]| | |] eqn:E; cbn [obind]; try congruence.
    specialize (F2 e r eq_refl). destruct r as [|t r]; [cbn [deref obind]; discriminate|]; cbn [deref obind]. cbn [length] in F2.
    destruct (starts t ",").
    + cbn [advance obind]. pose proof (IHx r close stop ltac:(lia)). destruct (args_loop f r close stop); cbn [obind]; congruence.
    + destruct (at_end (t :: r) close); cbn [obind]; [|discriminate].
      pose proof (IHx (t :: r) close stop ltac:(cbn [length]; lia)). destruct (args_loop f (t :: r) close stop); cbn [obind]; congruence.
Qed.
Lemma level_fine fuel l cur stop : 10 * length cur + 7 <= fuel -> fine (length cur) (parse_level fuel l cur stop).
Proof. intros H. apply exprs_fine. destruct l; cbn; lia. Qed.
Lemma optionals_fine n : forall cur e stop, length cur <= n -> fine (S (length cur)) (optionals e cur stop).
Proof.
  induction n as [|n IH]; intros [|t r] e stop H; cbn [ParserModel.optionals length] in *; try apply fine_ub; [lia|].
  destruct (is t ";" || is t ":"); [|apply fine_ok; cbn; lia]. destruct (at_end r stop); [apply fine_throw|].
  destruct r as [|u r]; [apply fine_ub|]. apply fine_bind; [apply to_double_ends|]. intros e' _.
  eapply fine_weaken; [apply IH; cbn in H; lia|cbn; lia].
Qed.
Lemma elem_fine f cur stop : 10 * length cur + 7 <= f -> fine (length cur) (parse_elem f cur stop).
Proof.
  intros H. unfold ParserModel.parse_elem. eapply fine_pair; [apply level_fine; lia|]. intros a r _ Hr. destruct (at_end r stop); [apply fine_throw|].
  apply fine_bind; [apply deref_fuel|]. intros c _. apply fine_bind; [apply advance_fuel|]. intros c2 Hc2. apply advance_len in Hc2.
  destruct (at_end c2 stop); [apply fine_throw|]. eapply fine_pair; [apply level_fine; lia|]. intros b r2 _ Hr2.
  eapply fine_pair; [eapply optionals_fine; reflexivity|]. intros e r3 _ Hr3. apply fine_bind.
  { unfold build. repeat match goal with |- (if ?b then _ else _) <> _ => destruct b end; discriminate. }
  intros x _. apply fine_ok. lia.
Qed.
Lemma conds_fine fuel :
  (forall cur stop, 10 * length cur + 11 <= fuel -> fine (length cur) (parse_cond fuel cur stop)) /\
  (forall a cur stop, 10 * length cur + 1 <= fuel -> fine (S (length cur)) (or_loop fuel a cur stop)) /\
  (forall cur stop, 10 * length cur + 10 <= fuel -> fine (length cur) (parse_cond2 fuel cur stop)) /\
  (forall a cur stop, 10 * length cur + 1 <= fuel -> fine (S (length cur)) (and_loop fuel a cur stop)) /\
  (forall cur stop, 10 * length cur + 8 <= fuel -> fine (length cur) (cond_paren fuel cur stop)).
Proof.
  induction fuel as [|f (IHc & IHo & IH2 & IHa & IHp)].
  { repeat apply conj; intros; exfalso; try destruct l; cbn [offset] in *; lia. }
  split; [|split; [|split; [|split]]].
  - intros cur stop H. cbn [ParserModel.parse_cond]. eapply fine_pair; [apply IH2; lia|]. intros a r _ Hr. eapply fine_weaken; [apply IHo; lia|lia].
  - intros a cur stop H. cbn [ParserModel.or_loop]. destruct (at_end cur stop); [apply fine_ok; lia|].
    apply fine_bind; [apply deref_fuel|]. intros t _. destruct (is t "OR"); [|apply fine_ok; lia].
    apply fine_bind; [apply advance_fuel|]. intros c Hc. apply advance_len in Hc. destruct (at_end c stop); [apply fine_throw|].
    eapply fine_pair; [apply IH2; lia|]. intros b r _ Hr. eapply fine_weaken; [apply IHo; lia|lia].
  - intros cur stop H. cbn [ParserModel.parse_cond2]. eapply fine_pair; [apply IHp; lia|]. intros a r _ Hr. eapply fine_weaken; [apply IHa; lia|lia].
  - intros a cur stop H. cbn [ParserModel.and_loop]. destruct (at_end cur stop); [apply fine_ok; lia|].
    apply fine_bind; [apply deref_fuel|]. intros t _. destruct (is t "AND"); [|apply fine_ok; lia].
    apply fine_bind; [apply advance_fuel|]. intros c Hc. apply advance_len in Hc. destruct (at_end c stop); [apply fine_throw|].
    eapply fine_pair; [apply IHp; lia|]. intros b r _ Hr. eapply fine_weaken; [apply IHa; lia|lia].
  - intros cur stop H. cbn [ParserModel.cond_paren]. apply fine_bind; [apply deref_fuel|]. intros t _. destruct (is t "("); [|apply elem_fine; lia].
    apply fine_bind; [apply advance_fuel|]. intros c Hc. apply advance_len in Hc.
    apply fine_bind; [apply find_match_ends|]. intros cl Hcl. apply find_match_ends in Hcl.
    eapply fine_pair; [apply IHc; lia|]. intros e r _ _.
    apply fine_bind; [apply advance_fuel|]. intros c2 Hc2. apply advance_len in Hc2. apply fine_ok. lia.
Qed.
Lemma statements_fine fuel :
  (forall cur stop, 10 * length cur + 12 <= fuel -> fine (length cur) (parse_statement fuel cur stop)) /\
  (forall ends cur stop, 10 * length cur + 13 <= fuel -> fine (S (length cur)) (block fuel ends cur stop)).
Proof.
  induction fuel as [|f (IHs & IHb)].
  { repeat apply conj; intros; exfalso; try destruct l; cbn [offset] in *; lia. }
  split.
  - intros cur stop H. cbn [ParserModel.parse_statement]. apply fine_bind; [apply deref_fuel|]. intros t _. destruct (is t "IF").
    + apply fine_bind; [apply advance_fuel|]. intros c Hc. apply advance_len in Hc. destruct (at_end c stop); [apply fine_throw|].
      eapply fine_pair; [apply conds_fine; lia|]. intros x r _ Hr. destruct (at_end r stop); [apply fine_throw|].
      apply fine_bind; [apply deref_fuel|]. intros t2 _. destruct (negb _); [apply fine_throw|].
      apply fine_bind; [apply advance_fuel|]. intros c2 Hc2. apply advance_len in Hc2.
      eapply fine_pair; [apply IHb; lia|]. intros l r3 _ Hr3. destruct (at_end r3 stop); [apply fine_throw|].
      apply fine_bind; [apply deref_fuel|]. intros t3 _.
      eapply (fine_pair (S (length r3))).
      { destruct (is t3 "ELSE"); [|apply fine_ok; lia]. apply fine_bind; [apply advance_fuel|]. intros c4 Hc4. apply advance_len in Hc4.
        eapply fine_pair; [apply IHb; lia|]. intros l2 r5 _ Hr5. destruct (at_end r5 stop); [apply fine_throw|]. apply fine_ok. lia. }
      intros el r6 _ Hr6. apply fine_bind; [apply advance_fuel|]. intros c7 Hc7. apply advance_len in Hc7. apply fine_ok. lia.
    + apply fine_bind; [unfold parse_lhs; destruct (valid_name t); discriminate|]. intros v _.
      apply fine_bind; [apply advance_fuel|]. intros c Hc. apply advance_len in Hc. destruct (at_end c stop); [apply fine_throw|].
      apply fine_bind; [apply deref_fuel|]. intros t2 _. destruct (is t2 "=" || is t2 "PAYS"); [|apply fine_throw].
      apply fine_bind; [apply advance_fuel|]. intros c2 Hc2. apply advance_len in Hc2. destruct (at_end c2 stop); [apply fine_throw|].
      eapply fine_pair; [apply level_fine; lia|]. intros e r _ Hr. apply fine_ok. lia.
  - intros ends cur stop H. cbn [ParserModel.block]. destruct (at_end cur stop); [apply fine_ok; lia|].
    apply fine_bind; [apply deref_fuel|]. intros t _. destruct (ends t); [apply fine_ok; lia|].
    eapply fine_pair; [apply IHs; lia|]. intros s r _ Hr. eapply fine_pair; [apply IHb; lia|]. intros l r2 _ Hr2. apply fine_ok. lia.
Qed.
Theorem parse_ends toks : parse_tokens to_double dcf consts minus_one toks <> OutOfFuel.
Proof.
  unfold parse_tokens, enough. destruct (proj2 (statements_fine (10 * length toks + 13)) (fun _ => false) toks 0 ltac:(lia)) as [H _].
  destruct (block _ _ toks 0) as [[]| | |]; cbn [obind]; congruence.
Qed.
End Fuel.
