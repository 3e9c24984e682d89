(** C59: stacks and the printed form of a product. *)
From Coq Require Import String Ascii ZArith List Bool Arith Lia.
From Verif Require Import Base StringModel ScriptModel StackModel DebugModel StackSpec.
From Verif Require StackProofs ScriptNum.
Import ListNotations.
Local Open Scope list_scope.

(** Any program that uses stacks properly finds in each, last in first out, what it should. *)
Theorem C59_history {A} (os : list (op A)) ps : pile_ops os (fun _ => Pile [] false) = Some ps ->
  exists st, run_ops os (fun _ => stack_empty) = Ok st /\ forall k, shows (st k) (items (ps k)).
Proof.
  intros E. destruct (StackProofs.ops_ok os (fun _ => stack_empty) (fun _ => Pile [] false) _ (fun _ => StackProofs.rep_empty) E) as (st & Es & H).
  exists st. split; [exact Es|]. intros k. exact (StackProofs.rep_shows _ _ _ (H k)).
Qed.
Print Assumptions C59_history.
Example C59_case : exists ps, pile_ops [New 0 1; Push 0 7; Push 0 8; CopyTo 0 1; Pop 0 1; Push 0 9; AssignTo 0 2; MoveTo 1 3; Push 2 4] (fun _ => Pile [] false) = Some ps /\
  items (ps 0%nat) = [9; 7] /\ items (ps 2%nat) = [4; 9; 7] /\ items (ps 3%nat) = [8; 7] /\ usable (ps 1%nat) = false.
Proof. eexists. split; [reflexivity|]. repeat split. Qed.
(** TopAndPop does not return the top: it reads the cell above it, never written, or the element popped last. *)
Theorem C59_top_and_pop_refuted {A} (a b : A) chunk : (2 <= chunk)%nat ->
  obind (push a (stack_new chunk)) top_and_pop = UB /\
  exists s, obind (push a (stack_new chunk)) (fun s => obind (push b s) (fun s => Ok (pop 1 s))) = Ok s /\ top s = Ok a /\
    exists s', top_and_pop s = Ok (b, s').
Proof.
  intros H. pose proof (StackProofs.rep_new (A := A) chunk) as H0. destruct (1 <=? chunk)%nat eqn:E0; [|apply Nat.leb_gt in E0; lia].
  destruct (StackProofs.rep_push _ _ a H0) as (s1 & E1 & H1). destruct (StackProofs.rep_push _ _ b H1) as (s2 & E2 & H2).
  rewrite E1. cbn [obind]. split.
  - unfold push, cell_put, stack_new in E1. cbn [sp data cap] in E1. change (0 <? 0)%Z with false in E1. cbn iota in E1. change (Z.to_nat 0) with 0%nat in E1.
    destruct chunk as [|[|n]]; [lia|lia|]. cbn [repeat Vec.put Datatypes.length Nat.ltb Nat.leb Vec.set_nth obind] in E1.
    destruct (Z.of_nat (S (S n)) <=? 0 + 1)%Z eqn:E3; [lia|]. injection E1 as <-. reflexivity.
  - rewrite E2. cbn [obind]. eexists. split; [reflexivity|]. split.
    + pose proof (StackProofs.rep_pop _ _ _ 1 H2 ltac:(cbn; lia)) as H3. apply (StackProofs.rep_shows _ _ _ H3) with (r := []). reflexivity.
    + assert (C : cell_at (data s2) (sp (pop 1 s2)) = Ok b).
      { destruct (StackProofs.rep_shows _ _ _ H2) as (_ & _ & T & _). specialize (T b [a] eq_refl). unfold top in T. exact T. }
      eexists. unfold top_and_pop. cbn [data pop] in C |- *. rewrite C. reflexivity.
Qed.
Print Assumptions C59_top_and_pop_refuted.
(** A stack that was cleared or moved from cannot be pushed on again. *)
Theorem C59_push_after_clear_refuted {A} (a b : A) chunk : (1 <= chunk)%nat ->
  run_ops [New 0 chunk; Push 0 a; Clear 0; Push 0 b] (fun _ => stack_empty) = UB /\
  run_ops [New 0 chunk; Push 0 a; MoveTo 0 1; Push 0 b] (fun _ => stack_empty) = UB.
Proof.
  intros H. pose proof (StackProofs.rep_new (A := A) chunk) as H0. destruct (1 <=? chunk)%nat eqn:E0; [|apply Nat.leb_gt in E0; lia].
  destruct (StackProofs.rep_push _ _ a H0) as (s1 & E1 & H1).
  cbn [run_ops run_op obind set_stack Nat.eqb]. rewrite E1. cbn [obind set_stack Nat.eqb]. split; reflexivity.
Qed.
Print Assumptions C59_push_after_clear_refuted.

Section Debug.
Context {N : Num}.
Variables (num_text : num -> str) (int_text : Z -> str) (held : str -> Z -> num).
Notation tree_of := (stmt_tree num_text int_text held).
Lemma debug_all_ok : forall l s0 l0, StackProofs.rep s0 l0 true ->
  debug_all num_text int_text held l s0 = Ok (map (fun st => text_of [] (tree_of st)) l).
Proof.
  induction l as [|st l IH]; intros s0 l0 H; cbn [debug_all map]; [reflexivity|].
  destruct (StackProofs.debug_ok (tree_of st) [] s0 l0 H) as (s1 & E1 & H1). rewrite E1. cbn [obind].
  destruct (StackProofs.rep_shows _ _ _ H1) as (_ & _ & T & _). rewrite (T _ _ eq_refl). cbn [obind]. rewrite (IH _ _ H1). reflexivity.
Qed.
(** Debug prints the functional form of every statement, in order, whatever the size of the product. *)
Theorem C59_debug chunk events : (1 <= chunk)%nat ->
  debug_product num_text int_text held chunk events = Ok (map (fun st => text_of [] (tree_of st)) (concat events)).
Proof.
  intros H. unfold debug_product. apply (debug_all_ok _ _ []). pose proof (StackProofs.rep_new (A := str) chunk) as H0.
  destruct (1 <=? chunk)%nat eqn:E0; [exact H0|apply Nat.leb_gt in E0; lia].
Qed.
Hypothesis (Hn : forall x, plain_text (num_text x)) (Hi : forall z, plain_text (int_text z)).
Lemma plain_app a b : plain_text a -> plain_text b -> plain_text (a ++ b).
Proof. intros [A B] [C D]. split; intros E; apply in_app_or in E; tauto. Qed.
Definition plainb (t : str) : bool := forallb (fun c => negb (Ascii.eqb c "(") && negb (Ascii.eqb c (chr 10))) t.
Lemma plainb_ok t : plainb t = true -> plain_text t.
Proof.
  intros H. unfold plainb in H. rewrite forallb_forall in H. split; intros E; apply H in E; apply andb_true_iff in E; destruct E as [E1 E2].
  - rewrite Ascii.eqb_refl in E1. discriminate.
  - rewrite Ascii.eqb_refl in E2. discriminate.
Qed.
Lemma plain_node label args : plain_text label -> Forall plain args -> plain (Node label args).
Proof. intros [A B] F. cbn [plain]. split; [exact A|]. split; [exact B|]. induction F; cbn [fold_right]; auto. Qed.
Ltac lits := repeat (apply plain_app); try apply Hn; try apply Hi; try (apply plainb_ok; reflexivity).
Lemma expr_plain : forall e, Forall plain_text (expr_names e) -> plain (expr_tree num_text int_text held e).
Proof.
  fix IH 1. intros [a op l r extra|a op x|a|v|a name idx|name idx v] H; cbn [expr_tree expr_names] in *.
  - apply Forall_app in H. destruct H as [H1 H]. apply Forall_app in H. destruct H as [H2 H3].
    apply plain_node; [destruct op; lits|]. constructor; [apply IH; exact H1|]. constructor; [apply IH; exact H2|].
    clear H1 H2. induction extra as [|x extra IHx]; cbn [map flat_map] in *; constructor; apply Forall_app in H3; [apply IH; apply H3|apply IHx; apply H3].
  - apply plain_node; [destruct op; lits|]. constructor; [apply IH; exact H|constructor].
  - apply plain_node; [lits|constructor].
  - apply plain_node; [lits|constructor].
  - apply plain_node; [unfold var_text; inversion H; lits; assumption|constructor].
  - apply plain_node; [unfold const_var_text; inversion H; lits; assumption|constructor].
Qed.
Lemma cond_plain : forall c, Forall plain_text (cond_names c) -> plain (cond_tree num_text int_text held c).
Proof.
  induction c as [f op z e|f a IHa b IHb|f a IHa b IHb|f a IHa| |]; cbn [cond_tree cond_names]; intros H.
  - apply plain_node; [apply plain_app; [destruct op; lits|unfold fuzz_text; destruct (isDiscrete z); lits]|]. constructor; [apply expr_plain; exact H|constructor].
  - apply Forall_app in H. apply plain_node; [lits|]. constructor; [apply IHa; apply H|]. constructor; [apply IHb; apply H|constructor].
  - apply Forall_app in H. apply plain_node; [lits|]. constructor; [apply IHa; apply H|]. constructor; [apply IHb; apply H|constructor].
  - apply plain_node; [lits|]. constructor; [apply IHa; apply H|constructor].
  - apply plain_node; [lits|constructor].
  - apply plain_node; [lits|constructor].
Qed.
Lemma lhs_plain v : Forall plain_text (lhs_names v) -> plain (lhs_tree num_text int_text held v).
Proof. destruct v; cbn [lhs_names lhs_tree]; intros H; inversion H; (apply plain_node; [|constructor]); [unfold var_text|unfold const_var_text]; lits; assumption. Qed.
Lemma stmt_plain : forall s, Forall plain_text (stmt_names s) -> plain (tree_of s).
Proof.
  fix IH 1. intros [v e|v e|f af c thens elses|l] H; cbn [stmt_tree stmt_names] in *.
  - apply Forall_app in H. apply plain_node; [lits|]. constructor; [apply lhs_plain; apply H|]. constructor; [apply expr_plain; apply H|constructor].
  - apply Forall_app in H. apply plain_node; [lits|]. constructor; [apply lhs_plain; apply H|]. constructor; [apply expr_plain; apply H|constructor].
  - apply Forall_app in H. destruct H as [Hc H]. apply Forall_app in H. destruct H as [Ht He].
    apply plain_node; [lits|]. constructor; [apply cond_plain; exact Hc|]. apply Forall_app. split.
    + clear Hc He. induction thens as [|x r IHx]; cbn [map flat_map] in *; constructor; apply Forall_app in Ht; [apply IH; apply Ht|apply IHx; apply Ht].
    + destruct elses as [l|]; [|constructor]. clear Hc Ht. induction l as [|x r IHx]; cbn [map flat_map] in *; constructor; apply Forall_app in He; [apply IH; apply He|apply IHx; apply He].
  - apply plain_node; [lits|]. induction l as [|x r IHx]; cbn [map flat_map] in *; constructor; apply Forall_app in H; [apply IH; apply H|apply IHx; apply H].
Qed.
(** Two statements print alike only if they are the same tree: same operations, variables and numbers as printed. *)
Theorem C59_unambiguous a b : Forall plain_text (stmt_names a) -> Forall plain_text (stmt_names b) ->
  text_of [] (tree_of a) = text_of [] (tree_of b) -> tree_of a = tree_of b.
Proof.
  intros Ha Hb E. destruct (StackProofs.text_inj (tree_of a) (tree_of b) [] [] []) as [F _]; [apply stmt_plain; exact Ha|apply stmt_plain; exact Hb| |exact F].
  rewrite E. reflexivity.
Qed.
End Debug.
Print Assumptions C59_debug.
Print Assumptions C59_unambiguous.
(** x = 2 + spot() with one-digit numbers *)
Definition digit (z : Z) : str := [chr (48 + z mod 10)].
Definition demo : @stmt ScriptNum.ZNum := SAssign (@LVar ScriptNum.ZNum None (lit "X") 0) (@EBin ScriptNum.ZNum None Add (@EConst ScriptNum.ZNum 2%Z) (@ESpot ScriptNum.ZNum None) []).
Example C59_demo : Forall plain_text (stmt_names demo) /\ (forall z, plain_text (digit z)) /\
  @debug_product ScriptNum.ZNum digit digit (fun _ _ => 0%Z) 1 [[demo]] =
    Ok [lit "ASSIGN(" ++ newline ++ tab ++ lit "VAR[X,0,0]" ++ newline ++ lit "," ++ newline ++ tab ++ lit "ADD(" ++ newline ++ tab ++ tab ++ lit "CONST[2]" ++ newline ++
        tab ++ lit "," ++ newline ++ tab ++ tab ++ lit "SPOT" ++ newline ++ tab ++ lit ")" ++ newline ++ lit ")" ++ newline].
Proof.
  split; [constructor; [apply plainb_ok; reflexivity|constructor]|]. split; [|vm_compute; reflexivity].
  intros z. apply plainb_ok. unfold digit. pose proof (Z.mod_pos_bound z 10 ltac:(lia)) as B.
  assert (Q : forall d, In d [0; 1; 2; 3; 4; 5; 6; 7; 8; 9]%Z -> plainb [chr (48 + d)] = true) by (intros d Hd; repeat (destruct Hd as [<-|Hd]; [reflexivity|]); destruct Hd).
  apply Q. cbn [In]. lia.
Qed.
