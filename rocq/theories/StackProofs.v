(** Proofs about stacks and the debugger. *)
From Coq Require Import String Ascii ZArith List Bool Arith Lia ZifyBool.
From Verif Require Import Base Vec StringModel StackModel DebugModel StackSpec.
Import ListNotations.
Local Open Scope list_scope.
Notation len := (@Datatypes.length _).
Lemma nth_firstn {B} n : forall (d : list B) i, (i < n)%nat -> nth_error (firstn n d) i = nth_error d i.
Proof. induction n as [|n IH]; intros [|x d] [|i] H; try lia; try reflexivity. cbn. apply IH. lia. Qed.
Section Stack.
Context {A : Type}.
(** the cells under the stack pointer hold the items *)
Definition rep (s : stack A) (l : list A) (u : bool) : Prop :=
  sp s = Z.of_nat (len l) /\ firstn (len l) (data s) = map Some (rev l) /\
  if u then (len l < cap s)%nat /\ (cap s <= len (data s))%nat else cap s = 0%nat /\ l = [].
Lemma rep_nth s l u i v : rep s l u -> nth_error l i = Some v -> nth_error (data s) (len l - 1 - i) = Some (Some v).
Proof.
  intros (_ & F & _) E. assert (Hi : (i < len l)%nat) by (apply nth_error_Some; congruence).
  rewrite <- (nth_firstn (len l)) by lia. rewrite F, nth_error_map.
  rewrite (nth_error_nth' _ v) by (rewrite rev_length; lia). rewrite rev_nth by lia.
  replace (len l - S (len l - 1 - i))%nat with i by lia. apply nth_error_nth with (d := v) in E. rewrite E. reflexivity.
Qed.
Lemma rep_shows s l u : rep s l u -> shows s l.
Proof.
  intros H. pose proof H as (Hs & _). unfold shows, stack_size, is_empty, top, at_. rewrite Hs.
  assert (R : forall i v, nth_error l i = Some v -> cell_at (data s) (Z.of_nat (len l) - 1 - Z.of_nat i) = Ok v).
  { intros i v E. assert (Hi : (i < len l)%nat) by (apply nth_error_Some; congruence). unfold cell_at.
    destruct (_ <? 0)%Z eqn:E1; [lia|]. replace (Z.to_nat _) with (len l - 1 - i)%nat by lia. unfold get. rewrite (rep_nth _ _ _ _ _ H E). reflexivity. }
  repeat split.
  - intros E. destruct l; [reflexivity|]. cbn [length] in E. lia.
  - intros ->. reflexivity.
  - intros v r ->. specialize (R 0%nat v eq_refl). rewrite Z.sub_0_r in R. exact R.
  - exact R.
Qed.
Lemma rep_new c : rep (@stack_new A c) [] (1 <=? c)%nat.
Proof. unfold rep, stack_new. cbn [sp data cap length rev map firstn]. rewrite repeat_length. destruct (1 <=? c)%nat eqn:E; repeat split; lia. Qed.
Lemma firstn_set n : forall (d : list (option A)) v, (n < len d)%nat -> firstn (S n) (set_nth d n v) = firstn n d ++ [v].
Proof. induction n as [|n IH]; intros [|x d] v H; cbn [length] in H; try lia; [reflexivity|]. cbn [set_nth]. cbn [firstn app]. f_equal. apply (IH d v). lia. Qed.
Lemma copy_ok n (f t : list (option A)) : (n <= len f)%nat -> (n <= len t)%nat -> exists r, copy_cells n f t = Ok r /\ len r = len t /\
  forall k, (k <= n)%nat -> firstn k r = firstn k f.
Proof.
  intros H1 H2. unfold copy_cells. destruct (n <=? len f)%nat eqn:E1; [|lia]. destruct (n <=? len t)%nat eqn:E2; [|lia]. cbn [andb].
  eexists. split; [reflexivity|]. split; [rewrite app_length, firstn_length, skipn_length; lia|].
  intros k Hk. rewrite firstn_app, firstn_firstn, firstn_length. replace (k - Nat.min n (len f))%nat with 0%nat by lia. rewrite firstn_O, app_nil_r. f_equal. lia.
Qed.
Lemma rep_push s l v : rep s l true -> exists s', push v s = Ok s' /\ rep s' (v :: l) true.
Proof.
  intros (Hs & F & Hc & Hd). unfold push, cell_put. rewrite Hs. destruct (_ <? 0)%Z eqn:E0; [lia|]. rewrite Nat2Z.id.
  rewrite Vec.put_ok by lia. cbn [obind].
  assert (F1 : firstn (S (len l)) (set_nth (data s) (len l) (Some v)) = map Some (rev (v :: l))).
  { rewrite firstn_set by lia. rewrite F. cbn [rev]. rewrite map_app. reflexivity. }
  destruct (_ <=? _)%Z eqn:E1.
  - destruct (copy_ok (cap s) (set_nth (data s) (len l) (Some v)) (repeat None (2 * cap s))) as (r & Er & Lr & Fr).
    + rewrite set_nth_length. lia.
    + rewrite repeat_length. lia.
    + rewrite Er. cbn [obind]. eexists. split; [reflexivity|]. unfold rep. cbn [sp data cap length]. rewrite repeat_length in Lr.
      split; [lia|]. split; [rewrite Fr by lia; exact F1|]. lia.
  - eexists. split; [reflexivity|]. unfold rep. cbn [sp data cap length]. rewrite set_nth_length. split; [lia|]. split; [exact F1|]. lia.
Qed.
Lemma rep_pop s l u n : rep s l u -> (n <= len l)%nat -> rep (pop n s) (skipn n l) u.
Proof.
  intros (Hs & F & Hu) Hn. unfold rep, pop. cbn [sp data cap]. rewrite skipn_length. split; [lia|]. split.
  - rewrite <- (Nat.min_l (len l - n) (len l)) by lia. rewrite <- firstn_firstn, F, firstn_map. f_equal.
    rewrite firstn_rev. f_equal. f_equal. lia.
  - destruct u; [lia|]. destruct Hu as [Hc ->]. split; [exact Hc|]. apply skipn_nil.
Qed.
Lemma rep_copy s l u : rep s l u -> exists s', stack_copy s = Ok s' /\ rep s' l u.
Proof.
  intros (Hs & F & Hu). unfold stack_copy. rewrite Hs. destruct (0 <? _)%Z eqn:E.
  - destruct u; [|destruct Hu as [_ ->]; cbn in E; discriminate]. rewrite Nat2Z.id.
    destruct (copy_ok (len l) (data s) (repeat None (cap s))) as (r & Er & Lr & Fr); [lia|rewrite repeat_length; lia|]. rewrite Er. cbn [obind].
    eexists. split; [reflexivity|]. unfold rep. cbn [sp data cap]. rewrite repeat_length in Lr. split; [reflexivity|]. split; [rewrite Fr by lia; exact F|]. lia.
  - assert (l = []) as -> by (destruct l; [reflexivity|cbn [length] in E; lia]). eexists. split; [reflexivity|]. unfold rep. cbn [sp data cap length rev map firstn].
    rewrite repeat_length. split; [reflexivity|]. split; [reflexivity|]. destruct u; cbn [length] in Hu; [lia|exact Hu].
Qed.
Lemma rep_assign t lt ut s l u : rep t lt ut -> rep s l u -> exists s', stack_assign t s = Ok s' /\ rep s' l u.
Proof.
  intros (_ & _ & Ht) (Hs & F & Hu). unfold stack_assign. rewrite Hs.
  set (d0 := if (cap t <? cap s)%nat then repeat None (cap s) else data t).
  assert (L0 : u = true -> (cap s <= len d0)%nat).
  { intros ->. unfold d0. destruct (cap t <? cap s)%nat eqn:E; [rewrite repeat_length; lia|]. destruct ut; lia. }
  destruct (0 <? _)%Z eqn:E.
  - destruct u; [|destruct Hu as [_ ->]; cbn in E; discriminate]. rewrite Nat2Z.id. specialize (L0 eq_refl).
    destruct (copy_ok (len l) (data s) d0) as (r & Er & Lr & Fr); [lia|lia|]. rewrite Er. cbn [obind].
    eexists. split; [reflexivity|]. unfold rep. cbn [sp data cap]. split; [reflexivity|]. split; [rewrite Fr by lia; exact F|]. lia.
  - assert (l = []) as -> by (destruct l; [reflexivity|cbn [length] in E; lia]). eexists. split; [reflexivity|]. unfold rep. cbn [sp data cap length rev map firstn].
    split; [reflexivity|]. split; [reflexivity|]. destruct u; cbn [length] in Hu; [specialize (L0 eq_refl); lia|exact Hu].
Qed.
Definition rep_all (st : stacks A) (ps : piles A) : Prop := forall k, rep (st k) (items (ps k)) (usable (ps k)).
Lemma rep_set st ps k s p : rep_all st ps -> rep s (items p) (usable p) -> rep_all (set_stack st k s) (set_pile ps k p).
Proof. intros H Hs i. unfold set_stack, set_pile. destruct (i =? k)%nat; [exact Hs|apply H]. Qed.
Lemma rep_empty : rep (@stack_empty A) [] false. Proof. repeat split. Qed.
Lemma op_ok o st ps ps' : rep_all st ps -> pile_op o ps = Some ps' -> exists st', run_op o st = Ok st' /\ forall k, rep (st' k) (items (ps' k)) (usable (ps' k)).
Proof.
  intros H. destruct o as [k c|k v|k n|k|k|i k|i k|i k]; cbn [pile_op run_op]; intros E.
  - injection E as <-. eexists. split; [reflexivity|]. apply rep_set; [exact H|apply rep_new].
  - destruct (usable (ps k)) eqn:U; [|discriminate]. injection E as <-. pose proof (H k) as Hk. rewrite U in Hk.
    destruct (rep_push _ _ v Hk) as (s' & Es & Hs). rewrite Es. cbn [obind]. eexists. split; [reflexivity|]. apply rep_set; [exact H|exact Hs].
  - destruct (n <=? _)%nat eqn:E1; [|discriminate]. injection E as <-. eexists. split; [reflexivity|]. apply rep_set; [exact H|]. apply rep_pop; [apply H|lia].
  - injection E as <-. eexists. split; [reflexivity|]. apply rep_set; [exact H|]. cbn [items usable]. destruct (H k) as (_ & _ & Hu).
    unfold rep, reset. cbn [sp data cap length rev map firstn]. split; [reflexivity|]. split; [reflexivity|]. destruct (usable (ps k)); [lia|tauto].
  - injection E as <-. eexists. split; [reflexivity|]. apply rep_set; [exact H|apply rep_empty].
  - injection E as <-. destruct (rep_copy _ _ _ (H i)) as (s' & Es & Hs). rewrite Es. cbn [obind]. eexists. split; [reflexivity|]. apply rep_set; assumption.
  - injection E as <-. destruct (i =? k)%nat eqn:Ek.
    + apply Nat.eqb_eq in Ek. subst k. eexists. split; [reflexivity|]. intros j. unfold set_pile. destruct (j =? i)%nat eqn:Ej; [apply Nat.eqb_eq in Ej; subst j|]; apply H.
    + destruct (rep_assign _ _ _ _ _ _ (H k) (H i)) as (s' & Es & Hs). rewrite Es. cbn [obind]. eexists. split; [reflexivity|]. apply rep_set; assumption.
  - injection E as <-. destruct (i =? k)%nat; eexists; (split; [reflexivity|]); [exact H|]. apply rep_set; [apply rep_set; [exact H|apply H]|apply rep_empty].
Qed.
Lemma ops_ok os : forall st ps ps', rep_all st ps -> pile_ops os ps = Some ps' -> exists st', run_ops os st = Ok st' /\ rep_all st' ps'.
Proof.
  induction os as [|o os IH]; intros st ps ps' H E; cbn [pile_ops run_ops] in *.
  - injection E as <-. exists st. split; [reflexivity|exact H].
  - destruct (pile_op o ps) as [p1|] eqn:E1; [|discriminate]. destruct (op_ok _ _ _ _ H E1) as (s1 & Es & H1). rewrite Es. cbn [obind]. exact (IH _ _ _ H1 E).
Qed.
End Stack.

(** the debugger *)
Fixpoint args_text (prefix : str) (l : list tree) : str :=
  match l with
  | [] => []
  | [a] => text_of (prefix ++ tab) a ++ prefix ++ lit ")"
  | a :: r => text_of (prefix ++ tab) a ++ prefix ++ lit "," ++ newline ++ args_text prefix r
  end.
Lemma text_of_node prefix label args : text_of prefix (Node label args) =
  prefix ++ label ++ (match args with [] => [] | _ => lit "(" ++ newline ++ args_text prefix args end) ++ newline.
Proof.
  cbn [text_of]. do 2 f_equal. destruct args as [|a r]; [reflexivity|].
  match goal with |- context [newline ++ ?f r] => assert (E : forall l, f l = args_text prefix l) end.
  { clear. induction l as [|a [|b r] IH]; [reflexivity|reflexivity|].
    change (args_text prefix (a :: b :: r)) with (text_of (prefix ++ tab) a ++ prefix ++ lit "," ++ newline ++ args_text prefix (b :: r)). rewrite <- IH. reflexivity. }
  destruct r; [reflexivity|]. rewrite E. reflexivity.
Qed.
Lemma tree_ind' (P : tree -> Prop) : (forall label args, Forall P args -> P (Node label args)) -> forall t, P t.
Proof.
  intros H. fix IH 1. intros [label args]. apply H. induction args as [|a r IHr]; constructor; [apply IH|exact IHr].
Qed.
Lemma take_ok prefix : forall ts s l text, rep s (ts ++ l) true ->
  exists s', take_args prefix (len ts) s text = Ok (s', text ++ concat (map (fun t => t ++ prefix ++ lit "," ++ newline) ts)) /\ rep s' l true.
Proof.
  induction ts as [|t ts IH]; intros s l text H; cbn [length take_args map concat].
  - exists s. rewrite app_nil_r. split; [reflexivity|exact H].
  - destruct (rep_shows _ _ _ H) as (_ & _ & T & _). rewrite (T t (ts ++ l) eq_refl). cbn [obind].
    pose proof (rep_pop _ _ _ 1 H ltac:(cbn [app length]; lia)) as H1. cbn [app skipn] in H1.
    destruct (IH _ l (text ++ t ++ prefix ++ lit "," ++ newline) H1) as (s' & E & H'). exists s'. split; [|exact H']. rewrite E. f_equal. f_equal.
    rewrite <- !app_assoc. reflexivity.
Qed.
Lemma combine_ok prefix label args s l : rep s (map (text_of (prefix ++ tab)) args ++ l) true ->
  exists s', combine_args prefix label (len args) s = Ok (s', text_of prefix (Node label args)) /\ rep s' l true.
Proof.
  intros H. rewrite text_of_node. destruct args as [|a r]; cbn [length combine_args].
  - exists s. cbn [map app]. rewrite app_assoc. split; [reflexivity|exact H].
  - destruct (rep_shows _ _ _ H) as (_ & _ & T & _). rewrite (T _ _ eq_refl). cbn [obind].
    pose proof (rep_pop _ _ _ 1 H ltac:(cbn [map app length]; lia)) as H1. cbn [map app skipn] in H1.
    destruct r as [|b r].
    + cbn [length Nat.sub Nat.ltb Nat.leb take_args obind]. eexists. split; [|exact H1]. cbn [args_text]. rewrite <- !app_assoc. reflexivity.
    + destruct (@exists_last _ (b :: r) ltac:(discriminate)) as (init & z & Ez). rewrite Ez in *. rewrite app_length. cbn [length].
      replace (len init + 1 - 1)%nat with (len init) by lia. destruct (0 <? len init + 1)%nat eqn:E0; [|lia].
      rewrite map_app in H1. rewrite <- app_assoc in H1. rewrite <- (map_length (text_of (prefix ++ tab)) init).
      destruct (take_ok prefix _ _ _ (((prefix ++ label) ++ lit "(" ++ newline) ++ text_of (prefix ++ tab) a ++ prefix ++ lit "," ++ newline) H1) as (s2 & E2 & H2).
      rewrite E2. cbn [obind]. cbn [map app] in H2.
      destruct (rep_shows _ _ _ H2) as (_ & _ & T2 & _). rewrite (T2 _ _ eq_refl). cbn [obind].
      pose proof (rep_pop _ _ _ 1 H2 ltac:(cbn [length]; lia)) as H3. cbn [skipn] in H3.
      eexists. split; [|exact H3]. f_equal. f_equal. rewrite <- !app_assoc. do 4 f_equal.
      clear. replace (args_text prefix (a :: init ++ [z])) with (text_of (prefix ++ tab) a ++ prefix ++ lit "," ++ newline ++ args_text prefix (init ++ [z]))
        by (destruct init; reflexivity).
      rewrite <- !app_assoc. do 4 f_equal.
      induction init as [|c init IH]; cbn [map concat app].
      * cbn [args_text]. rewrite <- !app_assoc. reflexivity.
      * replace (args_text prefix (c :: init ++ [z])) with (text_of (prefix ++ tab) c ++ prefix ++ lit "," ++ newline ++ args_text prefix (init ++ [z]))
          by (destruct init; reflexivity).
        rewrite <- !app_assoc. do 4 f_equal. exact IH.
Qed.
Lemma debug_ok t : forall prefix s l, rep s l true -> exists s', debug prefix t s = Ok s' /\ rep s' (text_of prefix t :: l) true.
Proof.
  induction t as [label args IH] using tree_ind'. intros prefix s l H. cbn [debug].
  assert (F : exists s1, fold_right (fun a acc => do s' <- acc; debug (prefix ++ tab) a s') (Ok s) args = Ok s1 /\ rep s1 (map (text_of (prefix ++ tab)) args ++ l) true).
  { induction IH as [|a r Ha _ IHr]; cbn [fold_right map app]; [exists s; split; [reflexivity|exact H]|].
    destruct IHr as (s1 & E1 & H1). rewrite E1. cbn [obind]. apply Ha. exact H1. }
  destruct F as (s1 & E1 & H1). rewrite E1. cbn [obind]. destruct (combine_ok prefix label args s1 l H1) as (s2 & E2 & H2). rewrite E2. cbn [obind fst snd].
  apply rep_push. exact H2.
Qed.
(** unambiguous *)
Lemma split_special l1 : forall l2 (c1 c2 : ascii) r1 r2, ~ In c1 l2 -> ~ In c2 l1 -> l1 ++ c1 :: r1 = l2 ++ c2 :: r2 -> l1 = l2 /\ c1 = c2 /\ r1 = r2.
Proof.
  induction l1 as [|x l1 IH]; intros [|y l2] c1 c2 r1 r2 N1 N2 E; cbn [app] in E.
  - injection E. auto.
  - injection E as E1 _. exfalso. apply N1. left. auto.
  - injection E as E1 _. exfalso. apply N2. left. auto.
  - injection E as -> E. destruct (IH l2 c1 c2 r1 r2) as (-> & -> & ->); auto; intros Q; [apply N1|apply N2]; right; exact Q.
Qed.
Lemma text_inj t1 : forall t2 prefix r1 r2, plain t1 -> plain t2 -> text_of prefix t1 ++ r1 = text_of prefix t2 ++ r2 -> t1 = t2 /\ r1 = r2.
Proof.
  induction t1 as [l1 a1 IH] using tree_ind'. intros [l2 a2] prefix r1 r2 P1 P2 E. rewrite !text_of_node in E.
  rewrite <- !app_assoc in E. apply app_inv_head in E. cbn [plain] in P1, P2. destruct P1 as (A1 & B1 & C1), P2 as (A2 & B2 & C2).
  set (f := fun args : list tree => (match args with [] => [] | _ => lit "(" ++ newline ++ args_text prefix args end) : str) in E.
  change (l1 ++ f a1 ++ newline ++ r1 = l2 ++ f a2 ++ newline ++ r2) in E.
  assert (G : forall a r, exists c q, f a ++ newline ++ r = c :: q /\ (c = "("%char \/ c = chr 10)).
  { intros [|a a'] r; cbn [f lit list_ascii_of_string app newline]; eexists; eexists; (split; [reflexivity|]); auto. }
  destruct (G a1 r1) as (c1 & q1 & E1 & D1), (G a2 r2) as (c2 & q2 & E2 & D2). rewrite E1, E2 in E.
  apply split_special in E; [|destruct D1; subst; assumption|destruct D2; subst; assumption]. destruct E as (-> & -> & ->).
  rewrite <- E2 in E1. clear E2 D1 D2 c2 q2 G. subst f. cbv beta in E1.
  assert (K : forall a1, Forall (fun t1 => forall t2 prefix r1 r2, plain t1 -> plain t2 -> text_of prefix t1 ++ r1 = text_of prefix t2 ++ r2 -> t1 = t2 /\ r1 = r2) a1 ->
    fold_right (fun a P => plain a /\ P) True a1 -> forall a2 q1 q2, fold_right (fun a P => plain a /\ P) True a2 -> a1 <> [] -> a2 <> [] ->
    args_text prefix a1 ++ q1 = args_text prefix a2 ++ q2 -> a1 = a2 /\ q1 = q2).
  { clear. induction 1 as [|x a1 Hx _ IHa]; intros C1 a2 q1 q2 C2 N1 N2 E; [congruence|]. destruct a2 as [|y a2]; [congruence|].
    cbn [fold_right] in C1, C2. destruct C1 as [Px C1], C2 as [Py C2].
    assert (T : forall z l, exists w, args_text prefix (z :: l) = text_of (prefix ++ tab) z ++ prefix ++ w /\
      (l = [] /\ w = lit ")" \/ l <> [] /\ w = lit "," ++ newline ++ args_text prefix l)).
    { intros z [|z' l]; eexists; (split; [reflexivity|]); [left|right]; split; try reflexivity; discriminate. }
    destruct (T x a1) as (w1 & E1 & D1), (T y a2) as (w2 & E2 & D2). rewrite E1, E2 in E. rewrite <- !app_assoc in E.
    apply Hx in E; [|assumption|assumption]. destruct E as [-> E]. apply app_inv_head in E.
    destruct D1 as [[-> ->]|[M1 ->]], D2 as [[-> ->]|[M2 ->]]; cbn [lit list_ascii_of_string app newline] in E.
    - injection E as E. auto.
    - discriminate.
    - discriminate.
    - injection E as E. destruct (IHa C1 a2 q1 q2 C2 M1 M2 E) as [-> ->]. auto. }
  destruct a1 as [|x a1], a2 as [|y a2].
  - injection E1 as ->. auto.
  - discriminate.
  - discriminate.
  - rewrite <- !app_assoc in E1. apply app_inv_head in E1. apply app_inv_head in E1.
    apply K in E1; [|exact IH|exact C1|exact C2|discriminate|discriminate]. destruct E1 as [-> E1]. injection E1 as ->. auto.
Qed.
