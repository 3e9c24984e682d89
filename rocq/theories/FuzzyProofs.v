(** Proofs about the IF processor and the fuzzy evaluator. *)
From Coq Require Import ZArith List Bool Lia ZifyBool.
From Verif Require Import Base StringModel ScriptModel ScriptSpec ScriptEval FuzzyModel FuzzySpec.
Import ListNotations.
Open Scope Z_scope.

(** * Sets *)
Lemma set_insert_in x y l : In y (set_insert x l) <-> y = x \/ In y l.
Proof.
  induction l as [|z l IH]; cbn [set_insert]; [cbn; intuition|]. destruct (x <? z) eqn:E1; [cbn; intuition|]. destruct (z <? x) eqn:E2.
  - cbn [In]. rewrite IH. intuition.
  - assert (x = z) by lia. subst z. cbn [In]. intuition.
Qed.
Lemma set_insert_inc x l : increasing l -> increasing (set_insert x l).
Proof.
  induction l as [|z l IH]; cbn [set_insert increasing]; [auto|]. intros [H1 H2]. destruct (x <? z) eqn:E1; [|destruct (z <? x) eqn:E2; [|cbn [increasing]; auto]].
  - cbn [increasing]. split; [|split; assumption]. constructor; [lia|]. eapply Forall_impl; [|exact H1]. cbn. lia.
  - cbn [increasing]. split; [|auto]. apply Forall_forall. intros y Hy. apply set_insert_in in Hy as [->|Hy]; [lia|]. rewrite Forall_forall in H1. auto.
Qed.
Lemma set_union_in y l acc : In y (fold_left (fun acc x => set_insert x acc) l acc) <-> In y l \/ In y acc.
Proof. revert acc. induction l as [|x l IH]; intros acc; cbn [fold_left In]; [intuition|]. rewrite IH, set_insert_in. intuition. Qed.
Lemma set_union_inc l acc : increasing acc -> increasing (fold_left (fun acc x => set_insert x acc) l acc).
Proof. revert acc. induction l as [|x l IH]; intros acc H; cbn [fold_left]; [assumption|]. apply IH, set_insert_inc, H. Qed.
Lemma increasing_nodup l : increasing l -> NoDup l.
Proof.
  induction l as [|x l IH]; cbn [increasing]; constructor; destruct H as [H1 H2]; [|auto]. intros Hin. rewrite Forall_forall in H1. specialize (H1 _ Hin). lia.
Qed.

Section IfProc.
Context {N : Num}.
Lemma depth_nonneg s : 0 <= depth s.
Proof.
  assert (HF : forall l, 0 <= fold_right (fun s n => Z.max (depth s) n) 0 l) by (induction l; cbn [fold_right]; lia).
  destruct s as [v e|v e|f af c t [l|]|l]; cbn [depth]; try lia; try (pose proof (HF t)); try (pose proof (HF l)); lia.
Qed.
Lemma depth_all_nonneg l : 0 <= depth_all l.
Proof. unfold depth_all. induction l as [|x l IH]; cbn [fold_right]; lia. Qed.
(** what a run of the processor does at nesting level [level s]: below it, sets are unchanged; at it (if any), the set
    grows by the assigned variables *)
Definition if_post (s : ifstate) (as_ : list Z) (d : Z) (s' : ifstate) : Prop :=
  level s' = level s /\ max_level s' = Z.max (max_level s) (level s + d) /\ sp (vstack s') = sp (vstack s) /\
  (forall i, i < sp (vstack s) -> data (vstack s') i = data (vstack s) i) /\
  (forall S0, 0 < level s -> data (vstack s) (sp (vstack s)) = Some S0 -> increasing S0 ->
     exists S1, data (vstack s') (sp (vstack s)) = Some S1 /\ increasing S1 /\ forall i, In i S1 <-> In i as_ \/ In i S0).
Definition if_pre (s : ifstate) (d : Z) : Prop :=
  0 <= level s /\ level s <= max_level s /\ sp (vstack s) = level s - 1 /\ level s + d <= 128 /\ (0 < level s -> exists S0, data (vstack s) (sp (vstack s)) = Some S0 /\ increasing S0).
Definition if_ok (st : stmt) : Prop := forall s, if_pre s (depth st) ->
  exists s' st', if_stmt st s = Ok (s', st') /\ if_post s (assigned st) (depth st) s' /\ unmarked st' = unmarked st /\ marked st' /\ assigned st' = assigned st.
Definition all_post l (s s' : ifstate) l' : Prop :=
  if_post s (flat_map assigned l) (depth_all l) s' /\ map unmarked l' = map unmarked l /\ Forall marked l' /\ flat_map assigned l' = flat_map assigned l.
Lemma if_post_pre s as_ d d' s' : if_pre s d' -> if_post s as_ d s' -> 0 <= d -> level s + d' <= 128 -> if_pre s' d'.
Proof.
  intros (P1 & P1b & P2 & P3 & P4) (Q1 & Q1b & Q2 & Q3 & Q4) Hd H. split; [lia|]. split; [lia|]. split; [lia|]. split; [lia|]. intros Hl.
  destruct (P4 ltac:(lia)) as (S0 & E & I). destruct (Q4 S0 ltac:(lia) E I) as (S1 & E1 & I1 & _). exists S1. rewrite Q2. auto.
Qed.
Lemma if_all_from l : Forall if_ok l -> forall s, if_pre s (depth_all l) -> exists s' l', if_all l s = Ok (s', l') /\ all_post l s s' l'.
Proof.
  induction 1 as [|x l Hx Hl IH]; intros s Hp.
  - exists s, []. split; [reflexivity|]. split; [|auto]. destruct Hp as (P1 & P1b & P2 & P3 & P4). unfold depth_all. cbn [fold_right flat_map].
    split; [reflexivity|]. split; [lia|]. split; [reflexivity|]. split; [reflexivity|]. intros S0 _ E I. exists S0. split; [exact E|]. split; [exact I|]. cbn; intuition.
  - unfold depth_all in Hp. cbn [fold_right] in Hp. fold (depth_all l) in Hp. pose proof (depth_nonneg x). pose proof (depth_all_nonneg l).
    assert (Hp1 : if_pre s (depth x)) by (destruct Hp as (P1 & P1b & P2 & P3 & P4); repeat split; auto; lia).
    destruct (Hx s Hp1) as (s1 & x' & E1 & Q1 & U1 & M1 & A1).
    assert (Hp2 : if_pre s1 (depth_all l)). { apply (if_post_pre s (assigned x) (depth x) (depth_all l) s1); [|exact Q1|lia|]; destruct Hp as (P1 & P1b & P2 & P3 & P4); [repeat split; auto; lia|lia]. }
    destruct (IH s1 Hp2) as (s2 & l' & E2 & Q2 & U2 & M2 & A2). exists s2, (x' :: l'). cbn [if_all]. rewrite E1. cbn [obind fst]. rewrite E2. cbn [obind fst snd].
    split; [reflexivity|]. split; [|cbn [map flat_map]; rewrite U1, U2, A1, A2; auto].
    destruct Q1 as (a1 & a1b & a2 & a3 & a4), Q2 as (b1 & b1b & b2 & b3 & b4). unfold depth_all. cbn [fold_right flat_map]. fold (depth_all l).
    split; [lia|]. split; [lia|]. split; [lia|]. split; [intros i Hi; rewrite b3 by lia; apply a3, Hi|].
    intros S0 Hl0 E I. destruct (a4 S0 Hl0 E I) as (S1 & E3 & I3 & J3). destruct (b4 S1 ltac:(lia) ltac:(now rewrite a2) I3) as (S2 & E4 & I4 & J4).
    rewrite a2 in E4. exists S2. split; [exact E4|]. split; [exact I4|]. intros i. rewrite J4, J3, in_app_iff. intuition.
Qed.
Lemma set_top_data {A} (s : stack A) v : 0 <= sp s < 128 -> exists d, set_top 0 s v = Ok d /\ sp d = sp s /\ data d (sp s) = Some v /\ forall i, i < sp s -> data d i = data s i.
Proof.
  intros H. unfold set_top, sput. replace (in_stack 0 (sp s)) with true by (unfold in_stack, stack_size; lia). eexists. split; [reflexivity|]. cbn [sp data].
  split; [reflexivity|]. split; [now rewrite Z.eqb_refl|]. intros i Hi. now replace (i =? sp s) with false by lia.
Qed.
Lemma top_data {A} (s : stack A) v : 0 <= sp s < 128 -> data s (sp s) = Some v -> top 0 s = Ok v.
Proof. intros H E. unfold top, sget. replace (in_stack 0 (sp s)) with true by (unfold in_stack, stack_size; lia). now rewrite E. Qed.
Lemma if_lhs_ok v e0 s (b : bool) : let st := if b then SAssign v e0 else SPays v e0 in if_pre s 0 ->
  exists s', (do s1 <- (if level s =? 0 then Ok s else if_lhs v s); Ok (s1, st)) = Ok (s', st) /\ if_post s (target v) 0 s'.
Proof.
  intros st (P1 & P1b & P2 & P3 & P4). destruct (level s =? 0) eqn:E0.
  - exists s. split; [reflexivity|]. split; [reflexivity|]. split; [lia|]. split; [reflexivity|]. split; [reflexivity|]. intros; lia.
  - destruct (P4 ltac:(lia)) as (S0 & E & I). destruct v as [a n i|n i w]; cbn [if_lhs target].
    + rewrite E0, (top_data _ S0) by (assumption || lia). cbn [obind]. destruct (set_top_data (vstack s) (set_insert i S0) ltac:(lia)) as (d & E1 & E2 & E3 & E4).
      rewrite E1. cbn [obind]. eexists. split; [reflexivity|]. cbn [level max_level vstack]. split; [reflexivity|]. split; cbn [level max_level vstack]; [lia|]. split; [exact E2|]. split; [exact E4|].
      intros S1 _ E5 I1. rewrite E in E5. injection E5 as <-. exists (set_insert i S0). split; [exact E3|]. split; [now apply set_insert_inc|]. intros j. rewrite set_insert_in. cbn; intuition.
    + cbn [obind]. exists s. split; [reflexivity|]. split; [reflexivity|]. split; [lia|]. split; [reflexivity|]. split; [reflexivity|]. intros S1 _ E1 I1. exists S1. cbn; intuition.
Qed.
(** leaving an IF *)
Lemma if_leave s s1 s2 as_ d : if_pre s (1 + d) -> 0 <= d ->
  (exists vs, push 0 [] (vstack s) = Ok vs /\ s1 = IfState vs (level s + 1) (if max_level s <? level s + 1 then level s + 1 else max_level s)) ->
  if_post s1 as_ d s2 ->
  exists af vs2, top 0 (vstack s2) = Ok af /\ set_of af as_ /\
    (if level s2 - 1 =? 0 then Ok (pop (vstack s2)) else do t <- top 0 (pop (vstack s2)); set_top 0 (pop (vstack s2)) (fold_left (fun acc x => set_insert x acc) af t)) = Ok vs2 /\
    if_post s as_ (1 + d) (IfState vs2 (level s2 - 1) (max_level s2)).
Proof.
  intros (P1 & P1b & P2 & P3 & P4) Hd (vs & Ep & ->) (Q1 & Q1b & Q2 & Q3 & Q4). cbn [level max_level vstack] in *.
  destruct (push_ok 0 [] (vstack s) ltac:(lia)) as (vs' & Ep' & (R1 & R2 & R3)). rewrite Ep in Ep'. injection Ep' as <-.
  destruct (Q4 [] ltac:(lia) R2 I) as (af & E & I0 & J). exists af. rewrite <- Q2 in E.
  assert (Ht : top 0 (vstack s2) = Ok af) by (apply top_data; [lia|exact E]).
  assert (Hset : set_of af as_) by (split; [exact I0|]; intros i; rewrite J; cbn; intuition).
  assert (Hdat : forall i, i <= sp (vstack s) -> data (vstack s2) i = data (vstack s) i) by (intros i Hi; rewrite Q3 by lia; apply R3, Hi).
  destruct (level s2 - 1 =? 0) eqn:E0.
  - exists (pop (vstack s2)). split; [exact Ht|]. split; [exact Hset|]. split; [reflexivity|]. split; cbn [level max_level vstack]; [lia|].
    split; [destruct (max_level s <? level s + 1) eqn:Em; lia|]. split; [cbn [pop sp]; lia|]. split; [intros i Hi; cbn [pop data]; apply Hdat; lia|]. intros; lia.
  - destruct (P4 ltac:(lia)) as (S0 & E1 & I1).
    assert (Hp : data (pop (vstack s2)) (sp (pop (vstack s2))) = Some S0) by (cbn [pop sp data]; replace (sp (vstack s2) - 1) with (sp (vstack s)) by lia; rewrite Hdat by lia; exact E1).
    rewrite (top_data (pop (vstack s2)) S0) by (cbn [pop sp] in *; (lia || assumption)). cbn [obind].
    destruct (set_top_data (pop (vstack s2)) (fold_left (fun acc x => set_insert x acc) af S0) ltac:(cbn [pop sp]; lia)) as (d0 & F1 & F2 & F3 & F4).
    exists d0. split; [exact Ht|]. split; [exact Hset|]. split; [exact F1|]. cbn [pop sp data] in *. split; cbn [level max_level vstack]; [lia|].
    split; [destruct (max_level s <? level s + 1) eqn:Em; lia|]. split; [lia|]. split; [intros i Hi; rewrite F4 by lia; apply Hdat; lia|].
    intros S1 _ E5 I5. rewrite E1 in E5. injection E5 as <-. exists (fold_left (fun acc x => set_insert x acc) af S0). replace (sp (vstack s2) - 1) with (sp (vstack s)) in F3 by lia.
    split; [exact F3|]. split; [now apply set_union_inc|]. intros i. rewrite set_union_in. destruct Hset as [_ Hs]. rewrite Hs. reflexivity.
Qed.
Lemma if_stmt_ok st : if_ok st.
Proof.
  induction st as [v e|v e|f af c t Ht|f af c t l Ht Hl|l Hl] using stmt_ind'; intros s Hp.
  - destruct (if_lhs_ok v e s true Hp) as (s' & E & Q). exists s', (SAssign v e). split; [exact E|]. split; [exact Q|]. cbn; auto.
  - destruct (if_lhs_ok v e s false Hp) as (s' & E & Q). exists s', (SPays v e). split; [exact E|]. split; [exact Q|]. cbn; auto.
  - change (if_stmt (SIf f af c t None) s) with
     (do vs <- push 0 [] (vstack s);
      do p <- if_all t (IfState vs (level s + 1) (if max_level s <? level s + 1 then level s + 1 else max_level s));
      do q <- Ok (fst p, None);
      do af <- top 0 (vstack (fst q));
      do vs2 <- (if level (fst q) - 1 =? 0 then Ok (pop (vstack (fst q))) else do t <- top 0 (pop (vstack (fst q))); set_top 0 (pop (vstack (fst q))) (fold_left (fun acc x => set_insert x acc) af t));
      Ok (IfState vs2 (level (fst q) - 1) (max_level (fst q)), SIf f af c (snd p) (snd q))).
    assert (Hd : depth (SIf f af c t None) = 1 + depth_all t) by (cbn [depth]; fold (depth_all t); pose proof (depth_all_nonneg t); lia). rewrite Hd in Hp |- *.
    pose proof (depth_all_nonneg t). destruct (push_ok 0 [] (vstack s)) as (vs & Ep & R); [destruct Hp as (? & ? & ? & ? & _); lia|]. rewrite Ep. cbn [obind].
    set (s1 := IfState vs _ _). destruct (if_all_from t Ht s1) as (s2 & t' & E2 & Q2 & U2 & M2 & A2).
    { destruct Hp as (P1 & P1b & P2 & P3 & P4). destruct R as (R1 & R2 & R3). unfold s1. split; cbn [level max_level vstack]; [lia|]. split; [destruct (max_level s <? level s + 1) eqn:Em; lia|].
      split; [lia|]. split; [lia|]. intros _. exists []. split; [exact R2|exact I]. }
    rewrite E2. cbn [obind fst snd]. destruct (if_leave s s1 s2 (flat_map assigned t) (depth_all t) Hp ltac:(lia) (ex_intro _ vs (conj Ep eq_refl)) Q2) as (af' & vs2 & T1 & T2 & T3 & T4).
    rewrite T1. cbn [obind]. rewrite T3. cbn [obind]. eexists _, _. split; [reflexivity|]. split.
    { cbn [assigned]. rewrite app_nil_r. exact T4. }
    cbn [unmarked marked assigned option_map]. rewrite U2, A2, F_iff, app_nil_r. auto.
  - change (if_stmt (SIf f af c t (Some l)) s) with
     (do vs <- push 0 [] (vstack s);
      do p <- if_all t (IfState vs (level s + 1) (if max_level s <? level s + 1 then level s + 1 else max_level s));
      do q <- (do q <- if_all l (fst p); Ok (fst q, Some (snd q)));
      do af <- top 0 (vstack (fst q));
      do vs2 <- (if level (fst q) - 1 =? 0 then Ok (pop (vstack (fst q))) else do t <- top 0 (pop (vstack (fst q))); set_top 0 (pop (vstack (fst q))) (fold_left (fun acc x => set_insert x acc) af t));
      Ok (IfState vs2 (level (fst q) - 1) (max_level (fst q)), SIf f af c (snd p) (snd q))).
    assert (Hd : depth (SIf f af c t (Some l)) = 1 + Z.max (depth_all t) (depth_all l)) by reflexivity. rewrite Hd in Hp |- *.
    pose proof (depth_all_nonneg t). pose proof (depth_all_nonneg l).
    destruct (push_ok 0 [] (vstack s)) as (vs & Ep & R); [destruct Hp as (? & ? & ? & ? & _); lia|]. rewrite Ep. cbn [obind].
    set (s1 := IfState vs _ _). assert (Hp1 : forall d, d <= Z.max (depth_all t) (depth_all l) -> if_pre s1 d).
    { intros d Hdd. destruct Hp as (P1 & P1b & P2 & P3 & P4). destruct R as (R1 & R2 & R3). unfold s1. split; cbn [level max_level vstack]; [lia|]. split; [destruct (max_level s <? level s + 1) eqn:Em; lia|].
      split; [lia|]. split; [lia|]. intros _. exists []. split; [exact R2|exact I]. }
    destruct (if_all_from t Ht s1 (Hp1 (depth_all t) ltac:(lia))) as (s2 & t' & E2 & Q2 & U2 & M2 & A2). rewrite E2. cbn [obind fst snd].
    destruct (if_all_from l Hl s2) as (s3 & l' & E3 & Q3 & U3 & M3 & A3).
    { apply (if_post_pre s1 (flat_map assigned t) (depth_all t) (depth_all l) s2 (Hp1 (depth_all l) ltac:(lia)) Q2); [lia|]. destruct (Hp1 (depth_all l) ltac:(lia)) as (_ & _ & _ & G & _). exact G. }
    rewrite E3. cbn [obind fst snd].
    assert (Q : if_post s1 (flat_map assigned t ++ flat_map assigned l) (Z.max (depth_all t) (depth_all l)) s3).
    { destruct Q2 as (a1 & a1b & a2 & a3 & a4), Q3 as (b1 & b1b & b2 & b3 & b4). split; [lia|]. split; [lia|]. split; [lia|]. split; [intros i Hi; rewrite b3 by lia; apply a3, Hi|].
      intros S0 Hl0 Ea Ia. destruct (a4 S0 Hl0 Ea Ia) as (S1 & F3 & I3 & J3). destruct (b4 S1 ltac:(lia) ltac:(now rewrite a2) I3) as (S2 & F4 & I4 & J4).
      rewrite a2 in F4. exists S2. split; [exact F4|]. split; [exact I4|]. intros i. rewrite J4, J3, in_app_iff. intuition. }
    destruct (if_leave s s1 s3 _ _ Hp ltac:(lia) (ex_intro _ vs (conj Ep eq_refl)) Q) as (af' & vs2 & T1 & T2 & T3 & T4).
    rewrite T1. cbn [obind]. rewrite T3. cbn [obind]. eexists _, _. split; [reflexivity|]. split; [exact T4|].
    cbn [unmarked marked assigned option_map]. rewrite U2, A2, U3, A3, !F_iff. auto.
  - change (if_stmt (SCollect l) s) with (do p <- if_all l s; Ok (fst p, SCollect (snd p))). destruct (if_all_from l Hl s Hp) as (s' & l' & E & Q & U & M & A).
    rewrite E. cbn [obind fst snd]. eexists _, _. split; [reflexivity|]. split; [exact Q|]. cbn [unmarked marked assigned]. rewrite U, A, F_iff. auto.
Qed.
Lemma if_all_ok l s : if_pre s (depth_all l) -> exists s' l', if_all l s = Ok (s', l') /\ all_post l s s' l'.
Proof. apply if_all_from. apply Forall_forall. intros x _. apply if_stmt_ok. Qed.
Lemma depth_events_nonneg l : 0 <= depth_events l.
Proof. unfold depth_events. induction l as [|x l IH]; cbn [fold_right]; lia. Qed.
Lemma if_events_ok l : forall s, if_pre s (depth_events l) -> level s = 0 ->
  exists s' l', if_events l s = Ok (s', l') /\ level s' = 0 /\ max_level s' = Z.max (max_level s) (depth_events l) /\
    map (map unmarked) l' = map (map unmarked) l /\ Forall (Forall marked) l' /\ map (flat_map assigned) l' = map (flat_map assigned) l.
Proof.
  induction l as [|x l IH]; intros s Hp Hl.
  - exists s, []. split; [reflexivity|]. split; [exact Hl|]. destruct Hp as (P1 & P2 & _). split; [cbn; lia|]. cbn; auto.
  - unfold depth_events in Hp. cbn [fold_right] in Hp. fold (depth_events l) in Hp. pose proof (depth_all_nonneg x). pose proof (depth_events_nonneg l).
    assert (Hp1 : if_pre s (depth_all x)) by (destruct Hp as (P1 & P1b & P2 & P3 & P4); repeat split; auto; lia).
    destruct (if_all_ok x s Hp1) as (s1 & x' & E1 & Q1 & U1 & M1 & A1). pose proof Q1 as (a1 & a1b & _).
    destruct (IH s1) as (s2 & l' & E2 & L2 & X2 & U2 & M2 & A2); [|lia|].
    { apply (if_post_pre s (flat_map assigned x) (depth_all x) (depth_events l) s1); [|exact Q1|lia|]; destruct Hp as (P1 & P1b & P2 & P3 & P4); [repeat split; auto; lia|lia]. }
    exists s2, (x' :: l'). cbn [if_events]. rewrite E1. cbn [obind fst]. rewrite E2. cbn [obind fst snd]. split; [reflexivity|]. split; [exact L2|].
    split; [unfold depth_events; cbn [fold_right]; fold (depth_events l); lia|]. cbn [map]. rewrite U1, U2, A1, A2. auto.
Qed.

(** * An execution changes only assigned variables *)
Lemma exec_others past smp nv consts s : forall env i, wf_stmt nv consts s -> Z.of_nat (length env) = nv -> 0 <= i -> ~ In i (assigned s) ->
  lookup (exec past smp s env) i = lookup env i.
Proof.
  assert (HF : forall l, Forall (fun s => forall env i, wf_stmt nv consts s -> Z.of_nat (length env) = nv -> 0 <= i -> ~ In i (assigned s) -> lookup (exec past smp s env) i = lookup env i) l ->
     Forall (wf_stmt nv consts) l -> forall env i, Z.of_nat (length env) = nv -> 0 <= i -> ~ In i (flat_map assigned l) -> lookup (fold_left (fun env s => exec past smp s env) l env) i = lookup env i).
  { induction 1 as [|x l Hx Hl IH]; intros Hw env i Hv Hi Hn; cbn [fold_left]; [reflexivity|]. apply Forall_cons_iff in Hw as [W1 W2]. cbn [flat_map] in Hn. rewrite in_app_iff in Hn.
    rewrite IH; [apply Hx; tauto|assumption| |assumption|tauto]. rewrite (exec_length past consts smp nv); auto. }
  induction s as [v e|v e|f af c t Ht|f af c t l Ht Hl|l Hl] using stmt_ind'; intros env i Hwf Hnv Hi Hn; cbn [exec wf_stmt assigned] in *.
  - destruct Hwf as [W _]. destruct v; cbn [wf_lhs lhs_index target In] in *; [|destruct W]. rewrite lookup_store by lia. destruct (i =? idx) eqn:E; [lia|reflexivity].
  - destruct Hwf as [W _]. destruct v; cbn [wf_lhs lhs_index target In] in *; [|destruct W]. destruct past; [reflexivity|]. rewrite lookup_store by lia. destruct (i =? idx) eqn:E; [lia|reflexivity].
  - destruct Hwf as (W1 & W2 & _). rewrite F_iff in W2. rewrite app_nil_r in Hn. destruct (truth past smp env c); [|reflexivity]. now apply HF.
  - destruct Hwf as (W1 & W2 & W3). rewrite F_iff in W2, W3. rewrite in_app_iff in Hn. destruct (truth past smp env c); apply HF; tauto.
  - rewrite F_iff in Hwf. now apply HF.
Qed.
End IfProc.

(** * The fuzzy evaluator *)
Section Fuzzy.
Context {N : Num} {F : FuzzyNum N}.
Lemma env_ext (a b : list num) : length a = length b -> (forall i, 0 <= i < Z.of_nat (length a) -> lookup a i = lookup b i) -> a = b.
Proof.
  intros H1 H2. apply (nth_ext _ _ n_zero n_zero); [exact H1|]. intros k Hk. specialize (H2 (Z.of_nat k) ltac:(lia)). unfold lookup in H2. rewrite Nat2Z.id in H2. exact H2.
Qed.
Lemma mix_length dt af e1 e0 : length (mix dt af e1 e0) = length e0.
Proof. unfold mix. rewrite map_length, seq_length. reflexivity. Qed.
Lemma mix_lookup dt af e1 e0 i : 0 <= i < Z.of_nat (length e0) ->
  lookup (mix dt af e1 e0) i = if existsb (Z.eqb i) af then n_add (n_mul dt (lookup e1 i)) (n_mul (n_sub n_one dt) (lookup e0 i)) else lookup e0 i.
Proof.
  intros Hi. unfold mix. set (g := fun k : nat => _). unfold lookup at 1. rewrite (nth_indep _ n_zero (g 0%nat)) by (rewrite map_length, seq_length; lia).
  rewrite map_nth, seq_nth by lia. subst g. cbn beta. cbn [Nat.add]. rewrite Z2Nat.id by lia. reflexivity.
Qed.
(** two-dimensional stores *)
Definition at2 (m : list (list num)) (a b : Z) : num := lookup (nth (Z.to_nat a) m []) b.
Definition shape (n rows : Z) (m : list (list num)) : Prop := Z.of_nat (length m) = rows /\ Forall (fun r => Z.of_nat (length r) = n) m.
Lemma shape_row n rows m a : shape n rows m -> 0 <= a < rows -> Z.of_nat (length (nth (Z.to_nat a) m [])) = n.
Proof. intros [H1 H2] Ha. rewrite Forall_forall in H2. apply H2, nth_In. lia. Qed.
Lemma get2_ok n rows m a b : shape n rows m -> 0 <= a < rows -> 0 <= b < n -> get2 m a b = Ok (at2 m a b).
Proof. intros S Ha Hb. unfold get2. rewrite (vget_ok m a []) by (destruct S; lia). cbn [obind]. rewrite (vget_ok _ b n_zero); [reflexivity|]. rewrite (shape_row n rows); auto. Qed.
Lemma upd_nat_spec {A} (l : list A) k v d j : (k < length l)%nat -> nth j (upd_nat l k v) d = if (j =? k)%nat then v else nth j l d.
Proof.
  revert k j. induction l as [|x l IH]; intros [|k] [|j] H; cbn [length upd_nat nth] in *; try lia; try reflexivity.
  rewrite IH by lia. reflexivity.
Qed.
Lemma upd_nat_length {A} (l : list A) k v : length (upd_nat l k v) = length l.
Proof. revert k. induction l as [|x l IH]; intros [|k]; cbn [length upd_nat]; auto. Qed.
Lemma put2_ok n rows m a b v : shape n rows m -> 0 <= a < rows -> 0 <= b < n ->
  exists m', put2 m a b v = Ok m' /\ shape n rows m' /\ forall a' b', 0 <= a' -> 0 <= b' -> at2 m' a' b' = if (a' =? a) && (b' =? b) then v else at2 m a' b'.
Proof.
  intros S Ha Hb. pose proof (shape_row _ _ _ _ S Ha) as Hr. pose proof S as [S1 S2]. unfold put2. rewrite (vget_ok m a []) by lia. cbn [obind]. rewrite vput_ok by lia. cbn [obind].
  unfold vput. replace ((0 <=? a) && (a <? Z.of_nat (length m))) with true by lia. eexists. split; [reflexivity|]. split.
  - split; [now rewrite upd_nat_length|]. apply Forall_forall. intros r Hin. apply (In_nth _ _ []) in Hin as (k & Hk & <-). rewrite upd_nat_length in Hk. rewrite upd_nat_spec by lia.
    destruct (k =? Z.to_nat a)%nat eqn:E; [rewrite store_length; lia|]. rewrite Forall_forall in S2. apply S2, nth_In, Hk.
  - intros a' b' Ha' Hb'. unfold at2. rewrite upd_nat_spec by lia. destruct (a' =? a) eqn:E; cbn [andb].
    + assert (a' = a) by lia. subst a'. rewrite Nat.eqb_refl. apply lookup_store; lia.
    + replace (Z.to_nat a' =? Z.to_nat a)%nat with false by lia. reflexivity.
Qed.
Definition same_below (k : Z) (m m' : list (list num)) : Prop := forall a b, 0 <= a < k -> 0 <= b -> at2 m' a b = at2 m a b.
Lemma same_below_refl k m : same_below k m m. Proof. intros a b _ _. reflexivity. Qed.
Lemma same_below_trans k m1 m2 m3 : same_below k m1 m2 -> same_below k m2 m3 -> same_below k m1 m3.
Proof. intros H1 H2 a b Ha Hb. rewrite H2, H1; auto. Qed.
Lemma same_below_le k k' m m' : k' <= k -> same_below k m m' -> same_below k' m m'.
Proof. intros H H1 a b Ha Hb. apply H1; lia. Qed.

Section Visit.
Variables (consts : list num) (defEps : num) (smp : sample) (nv rows : Z).
Lemma fneed_pos c : 1 <= fneed c.
Proof. induction c; cbn [fneed]; lia. Qed.
Lemma fvisit_cond_ok c : forall s, wf_cond nv consts c -> no_not_cond c -> Z.of_nat (length (vars (base s))) = nv -> -1 <= sp (dst (base s)) ->
  sp (dst (base s)) + cneed c < 128 -> -1 <= sp (fz s) -> sp (fz s) + fneed c < 128 ->
  exists d z, fvisit_cond consts defEps smp c s = Ok (FState (EState (vars (base s)) d (bst (base s))) z (store0 s) (store1 s) (lvl s)) /\
    keeps (dst (base s)) d /\ pushes (fz s) (degree defEps smp (vars (base s)) c) z.
Proof.
  assert (Two : forall a b, (forall s, wf_cond nv consts a -> no_not_cond a -> Z.of_nat (length (vars (base s))) = nv -> -1 <= sp (dst (base s)) ->
      sp (dst (base s)) + cneed a < 128 -> -1 <= sp (fz s) -> sp (fz s) + fneed a < 128 ->
      exists d z, fvisit_cond consts defEps smp a s = Ok (FState (EState (vars (base s)) d (bst (base s))) z (store0 s) (store1 s) (lvl s)) /\
        keeps (dst (base s)) d /\ pushes (fz s) (degree defEps smp (vars (base s)) a) z) ->
    (forall s, wf_cond nv consts b -> no_not_cond b -> Z.of_nat (length (vars (base s))) = nv -> -1 <= sp (dst (base s)) ->
      sp (dst (base s)) + cneed b < 128 -> -1 <= sp (fz s) -> sp (fz s) + fneed b < 128 ->
      exists d z, fvisit_cond consts defEps smp b s = Ok (FState (EState (vars (base s)) d (bst (base s))) z (store0 s) (store1 s) (lvl s)) /\
        keeps (dst (base s)) d /\ pushes (fz s) (degree defEps smp (vars (base s)) b) z) ->
    forall (g : num -> num -> num) s, wf_cond nv consts a /\ wf_cond nv consts b -> no_not_cond a /\ no_not_cond b -> Z.of_nat (length (vars (base s))) = nv -> -1 <= sp (dst (base s)) ->
      sp (dst (base s)) + Z.max (cneed a) (cneed b) < 128 -> -1 <= sp (fz s) -> sp (fz s) + Z.max (fneed a) (1 + fneed b) < 128 ->
      exists d z, (do s1 <- fvisit_cond consts defEps smp a s; do s2 <- fvisit_cond consts defEps smp b s1;
        do p <- top_and_pop 0 (fz s2); do q <- top_and_pop 0 (snd p); do z1 <- push 0 (g (fst p) (fst q)) (snd q); Ok (with_fz s2 z1)) =
        Ok (FState (EState (vars (base s)) d (bst (base s))) z (store0 s) (store1 s) (lvl s)) /\
      keeps (dst (base s)) d /\ pushes (fz s) (g (degree defEps smp (vars (base s)) b) (degree defEps smp (vars (base s)) a)) z).
  { intros a b IHa IHb g s [W1 W2] [N1 N2] Hnv Hd Hn Hf Hfn. pose proof (fneed_pos a). pose proof (fneed_pos b).
    destruct (IHa s W1 N1 Hnv Hd ltac:(lia) Hf ltac:(lia)) as (d1 & z1 & E1 & K1 & P1). rewrite E1. cbn [obind].
    pose proof K1 as [K1a _]. pose proof P1 as [P1a _].
    destruct (IHb (FState (EState (vars (base s)) d1 (bst (base s))) z1 (store0 s) (store1 s) (lvl s)) W2 N2 Hnv) as (d2 & z2 & E2 & K2 & P2); cbn [base vars dst fz]; try lia.
    rewrite E2. cbn [obind fz base vars dst bst store0 store1 lvl] in *.
    destruct (top_and_pop_ok 0 _ _ _ P2 ltac:(lia)) as [E3 K3]. rewrite E3. cbn [obind fst snd]. pose proof K3 as [K3a K3b].
    assert (P1' : pushes (fz s) (degree defEps smp (vars (base s)) a) (pop z2)).
    { destruct P1 as (p1 & p2 & p3). split; [lia|]. split; [rewrite K3a, K3b by lia; exact p2|]. intros i Hi. rewrite K3b by lia. apply p3, Hi. }
    destruct (top_and_pop_ok 0 _ _ _ P1' ltac:(lia)) as [E4 K4]. rewrite E4. cbn [obind fst snd]. pose proof K4 as [K4a K4b].
    destruct (push_ok 0 (g (degree defEps smp (vars (base s)) b) (degree defEps smp (vars (base s)) a)) (pop (pop z2)) ltac:(lia)) as (z3 & E5 & P5). rewrite E5. cbn [obind].
    exists d2, z3. split; [reflexivity|]. split; [eapply keeps_trans; eassumption|]. eapply keeps_pushes; eassumption. }
  induction c as [f op z e|f a IHa b IHb|f a IHa b IHb|f a IHa| |]; intros s Hwf Hnn Hnv Hd Hn Hf Hfn; cbn [fvisit_cond degree cneed fneed wf_cond no_not_cond] in *.
  - pose proof (need_pos e). destruct (visit_expr_ok false consts smp nv e (base s) Hwf Hnv Hd Hn) as (d & E & P). rewrite E. cbn [obind with_d dst bst vars].
    destruct (top_and_pop_ok 0 _ _ _ P ltac:(lia)) as [E1 K]. rewrite E1. cbn [obind fst snd].
    destruct (push_ok 0 (degree_cmp defEps op z (meaning false smp (vars (base s)) e)) (fz s) ltac:(lia)) as (z1 & E2 & P2). rewrite E2. cbn [obind]. eauto 6.
  - exact (Two a b IHa IHb n_mul s Hwf Hnn Hnv Hd Hn Hf Hfn).
  - exact (Two a b IHa IHb (fun x y => n_sub (n_add x y) (n_mul x y)) s Hwf Hnn Hnv Hd Hn Hf Hfn).
  - destruct Hnn.
  - destruct (push_ok 0 n_one (fz s) ltac:(lia)) as (b & E2 & P2). rewrite E2. cbn [obind]. exists (dst (base s)), b. split; [destruct s as [[? ? ?] ? ? ? ?]; reflexivity|]. auto using keeps_refl.
  - destruct (push_ok 0 n_zero (fz s) ltac:(lia)) as (b & E2 & P2). rewrite E2. cbn [obind]. exists (dst (base s)), b. split; [destruct s as [[? ? ?] ? ? ? ?]; reflexivity|]. auto using keeps_refl.
Qed.

(** the three loops over the affected variables *)
Definition good (s : fstate) : Prop := Z.of_nat (length (vars (base s))) = nv /\ shape nv rows (store0 s) /\ shape nv rows (store1 s) /\ 0 <= lvl s /\
  sp (dst (base s)) = -1 /\ sp (bst (base s)) = -1 /\ sp (fz s) = -1.
Lemma existsb_in i l : existsb (Z.eqb i) l = true <-> In i l.
Proof. rewrite existsb_exists. split; [intros (x & H1 & H2); assert (i = x) by lia; now subst|]. intros H. exists i. split; [exact H|lia]. Qed.
Lemma save0_ok af : forall s, good s -> 1 <= lvl s <= rows -> (forall i, In i af -> 0 <= i < nv) ->
  exists m, save0 af s = Ok (FState (base s) (fz s) m (store1 s) (lvl s)) /\ shape nv rows m /\
    forall a b, 0 <= a -> 0 <= b -> at2 m a b = if (a =? lvl s - 1) && existsb (Z.eqb b) af then lookup (vars (base s)) b else at2 (store0 s) a b.
Proof.
  induction af as [|i af IH]; intros s G Hl Ha; cbn [save0].
  - exists (store0 s). split; [destruct s; reflexivity|]. split; [apply G|]. intros a b _ _. cbn [existsb]. now rewrite andb_false_r.
  - pose proof G as (G1 & G2 & G3 & G4 & G5). assert (Hi : 0 <= i < nv) by (apply Ha; now left). rewrite (vget_ok _ _ n_zero) by lia. cbn [obind].
    destruct (put2_ok nv rows (store0 s) (lvl s - 1) i (nth (Z.to_nat i) (vars (base s)) n_zero) G2 ltac:(lia) Hi) as (m & E & S & A). rewrite E. cbn [obind].
    destruct (IH (FState (base s) (fz s) m (store1 s) (lvl s))) as (m2 & E2 & S2 & A2); [split; [exact G1|]; split; [exact S|]; split; [exact G3|]; split; assumption|exact Hl|intros; apply Ha; now right|].
    exists m2. rewrite E2. split; [reflexivity|]. split; [exact S2|]. cbn [lvl base store0] in A2. intros a b Ha' Hb'. rewrite A2, A by assumption. cbn [existsb].
    destruct (a =? lvl s - 1) eqn:Ea; cbn [andb]; [|reflexivity]. destruct (b =? i) eqn:Eb; cbn [orb]; [|reflexivity].
    assert (b = i) by lia. subst b. destruct (existsb (Z.eqb i) af); reflexivity.
Qed.
Lemma swap1_ok af : NoDup af -> forall s, good s -> 1 <= lvl s <= rows -> (forall i, In i af -> 0 <= i < nv) ->
  exists m vs, swap1 af s = Ok (FState (EState vs (dst (base s)) (bst (base s))) (fz s) (store0 s) m (lvl s)) /\ shape nv rows m /\ Z.of_nat (length vs) = nv /\
    (forall a b, 0 <= a -> 0 <= b -> at2 m a b = if (a =? lvl s - 1) && existsb (Z.eqb b) af then lookup (vars (base s)) b else at2 (store1 s) a b) /\
    (forall i, 0 <= i < nv -> lookup vs i = if existsb (Z.eqb i) af then at2 (store0 s) (lvl s - 1) i else lookup (vars (base s)) i).
Proof.
  induction 1 as [|i af Hni Hnd IH]; intros s G Hl Ha; cbn [swap1].
  - exists (store1 s), (vars (base s)). split; [destruct s as [[? ? ?] ? ? ? ?]; reflexivity|]. split; [apply G|]. split; [apply G|]. split; [|reflexivity]. intros a b _ _. cbn [existsb]. now rewrite andb_false_r.
  - pose proof G as (G1 & G2 & G3 & G4 & G5). assert (Hi : 0 <= i < nv) by (apply Ha; now left). rewrite (vget_ok _ _ n_zero) by lia. cbn [obind].
    destruct (put2_ok nv rows (store1 s) (lvl s - 1) i (nth (Z.to_nat i) (vars (base s)) n_zero) G3 ltac:(lia) Hi) as (m & E & S & A). rewrite E. cbn [obind].
    rewrite (get2_ok nv rows) by (assumption || lia). cbn [obind]. rewrite vput_ok by lia. cbn [obind].
    set (vs0 := store (vars (base s)) i _).
    assert (Hl0 : Z.of_nat (length vs0) = nv) by (unfold vs0; rewrite store_length; lia).
    destruct (IH (FState (EState vs0 (dst (base s)) (bst (base s))) (fz s) (store0 s) m (lvl s))) as (m2 & vs & E2 & S2 & L2 & A2 & B2).
    { split; [exact Hl0|]. split; [exact G2|]. split; [exact S|]. split; assumption. } { exact Hl. } { intros; apply Ha; now right. }
    cbn [lvl base store0 store1 vars dst bst fz] in *. exists m2, vs. split; [exact E2|]. split; [exact S2|]. split; [exact L2|].
    assert (Hn : existsb (Z.eqb i) af = false) by (destruct (existsb (Z.eqb i) af) eqn:Ex; [apply existsb_in in Ex; tauto|reflexivity]).
    split.
    + intros a b Ha' Hb'. rewrite A2, A by assumption. cbn [existsb]. destruct (a =? lvl s - 1) eqn:Ea; cbn [andb]; [|reflexivity].
      destruct (b =? i) eqn:Eb; cbn [orb]; [assert (b = i) by lia; subst b; rewrite Hn; reflexivity|]. destruct (existsb (Z.eqb b) af); [|reflexivity].
      unfold vs0. rewrite lookup_store by lia. now rewrite Eb.
    + intros j Hj. rewrite B2 by assumption. cbn [existsb]. destruct (j =? i) eqn:Ej; cbn [orb].
      * assert (j = i) by lia. subst j. rewrite Hn. unfold vs0. rewrite lookup_store by lia. now rewrite Z.eqb_refl.
      * destruct (existsb (Z.eqb j) af); [reflexivity|]. unfold vs0. rewrite lookup_store by lia. now rewrite Ej.
Qed.
Lemma blend_ok dt af : NoDup af -> forall s, good s -> 1 <= lvl s <= rows -> (forall i, In i af -> 0 <= i < nv) ->
  exists vs, blend dt af s = Ok (with_base s (EState vs (dst (base s)) (bst (base s)))) /\ Z.of_nat (length vs) = nv /\
    (forall i, 0 <= i < nv -> lookup vs i = if existsb (Z.eqb i) af then n_add (n_mul dt (at2 (store1 s) (lvl s - 1) i)) (n_mul (n_sub n_one dt) (lookup (vars (base s)) i)) else lookup (vars (base s)) i).
Proof.
  induction 1 as [|i af Hni Hnd IH]; intros s G Hl Ha; cbn [blend].
  - exists (vars (base s)). split; [destruct s as [[? ? ?] ? ? ? ?]; reflexivity|]. split; [apply G|]. reflexivity.
  - pose proof G as (G1 & G2 & G3 & G4 & G5). assert (Hi : 0 <= i < nv) by (apply Ha; now left). rewrite (get2_ok nv rows) by (assumption || lia). cbn [obind].
    rewrite (vget_ok _ _ n_zero) by lia. cbn [obind]. rewrite vput_ok by lia. cbn [obind]. set (vs0 := store (vars (base s)) i _).
    assert (Hl0 : Z.of_nat (length vs0) = nv) by (unfold vs0; rewrite store_length; lia).
    destruct (IH (with_base s (EState vs0 (dst (base s)) (bst (base s))))) as (vs & E2 & L2 & B2).
    { split; [exact Hl0|]. split; [exact G2|]. split; [exact G3|]. split; assumption. } { exact Hl. } { intros; apply Ha; now right. }
    unfold with_base in *. cbn [lvl base store0 store1 vars dst bst fz] in *. exists vs. split; [exact E2|]. split; [exact L2|].
    assert (Hn : existsb (Z.eqb i) af = false) by (destruct (existsb (Z.eqb i) af) eqn:Ex; [apply existsb_in in Ex; tauto|reflexivity]).
    intros j Hj. rewrite B2 by assumption. cbn [existsb]. destruct (j =? i) eqn:Ej; cbn [orb].
    + assert (j = i) by lia. subst j. rewrite Hn. unfold vs0. rewrite lookup_store by lia. rewrite Z.eqb_refl. reflexivity.
    + destruct (existsb (Z.eqb j) af); unfold vs0; rewrite lookup_store by lia; now rewrite Ej.
Qed.

(** * fexec changes only assigned variables, and keeps their number *)
Lemma fexec_facts s : forall env, wf_stmt nv consts s -> Z.of_nat (length env) = nv ->
  length (fexec defEps smp s env) = length env /\ forall i, 0 <= i < nv -> ~ In i (assigned s) -> lookup (fexec defEps smp s env) i = lookup env i.
Proof.
  assert (HF : forall l, Forall (fun s => forall env, wf_stmt nv consts s -> Z.of_nat (length env) = nv ->
      length (fexec defEps smp s env) = length env /\ forall i, 0 <= i < nv -> ~ In i (assigned s) -> lookup (fexec defEps smp s env) i = lookup env i) l ->
     Forall (wf_stmt nv consts) l -> forall env, Z.of_nat (length env) = nv ->
     length (fold_left (fun env s => fexec defEps smp s env) l env) = length env /\
     forall i, 0 <= i < nv -> ~ In i (flat_map assigned l) -> lookup (fold_left (fun env s => fexec defEps smp s env) l env) i = lookup env i).
  { induction 1 as [|x l Hx Hl IH]; intros Hw env Hv; cbn [fold_left]; [auto|]. apply Forall_cons_iff in Hw as [W1 W2]. destruct (Hx env W1 Hv) as [X1 X2].
    destruct (IH W2 (fexec defEps smp x env) ltac:(rewrite X1; exact Hv)) as [Y1 Y2]. split; [now rewrite Y1, X1|]. intros i Hi Hn. cbn [flat_map] in Hn. rewrite in_app_iff in Hn. rewrite Y2, X2; tauto. }
  induction s as [v e|v e|f af c t Ht|f af c t l Ht Hl|l Hl] using stmt_ind'; intros env Hwf Hnv.
  - cbn [fexec]. split; [apply (exec_length false consts smp nv); assumption|]. intros i Hi Hn. apply (exec_others false smp nv consts); auto; lia.
  - cbn [fexec]. split; [apply (exec_length false consts smp nv); assumption|]. intros i Hi Hn. apply (exec_others false smp nv consts); auto; lia.
  - cbn [fexec wf_stmt assigned] in *. destruct Hwf as (W1 & W2 & _). rewrite F_iff in W2. rewrite app_nil_r. destruct (HF t Ht W2 env Hnv) as [T1 T2].
    destruct (surely _); [auto|]. destruct (never _); [auto|]. split; [apply mix_length|]. intros i Hi Hn. rewrite mix_lookup by lia. rewrite <- existsb_in in Hn. now destruct (existsb _ _).
  - cbn [fexec wf_stmt assigned] in *. destruct Hwf as (W1 & W2 & W3). rewrite F_iff in W2, W3. destruct (HF t Ht W2 env Hnv) as [T1 T2]. destruct (HF l Hl W3 env Hnv) as [L1 L2].
    destruct (surely _); [split; [auto|]; intros i Hi Hn; rewrite in_app_iff in Hn; apply T2; tauto|]. destruct (never _); [split; [auto|]; intros i Hi Hn; rewrite in_app_iff in Hn; apply L2; tauto|].
    split; [now rewrite mix_length|]. intros i Hi Hn. rewrite mix_lookup by lia. pose proof Hn as Hn'. rewrite <- existsb_in in Hn. destruct (existsb _ _); [tauto|]. apply L2; [exact Hi|]. rewrite in_app_iff in Hn'. tauto.
  - cbn [fexec wf_stmt assigned] in *. rewrite F_iff in Hwf. now apply HF.
Qed.
Lemma assigned_range s i : wf_stmt nv consts s -> In i (assigned s) -> 0 <= i < nv.
Proof.
  assert (HF : forall l, Forall (fun s => wf_stmt nv consts s -> In i (assigned s) -> 0 <= i < nv) l -> Forall (wf_stmt nv consts) l -> In i (flat_map assigned l) -> 0 <= i < nv).
  { induction 1 as [|x l Hx Hl IH]; intros Hw Hin; [destruct Hin|]. apply Forall_cons_iff in Hw as [W1 W2]. cbn [flat_map] in Hin. apply in_app_iff in Hin as [|]; auto. }
  induction s as [v e|v e|f af c t Ht|f af c t l Ht Hl|l Hl] using stmt_ind'; intros Hwf Hin; cbn [wf_stmt assigned] in *.
  - destruct Hwf as [W _]. destruct v; cbn [target In wf_lhs] in *; [|tauto]. destruct Hin as [<-|[]]; lia.
  - destruct Hwf as [W _]. destruct v; cbn [target In wf_lhs] in *; [|tauto]. destruct Hin as [<-|[]]; lia.
  - destruct Hwf as (W1 & W2 & _). rewrite F_iff in W2. rewrite app_nil_r in Hin. eauto.
  - destruct Hwf as (W1 & W2 & W3). rewrite F_iff in W2, W3. apply in_app_iff in Hin as [|]; eauto.
  - rewrite F_iff in Hwf. eauto.
Qed.

(** * Statements *)
Definition fpost (s : fstate) (env : list num) (s' : fstate) : Prop :=
  good s' /\ vars (base s') = env /\ lvl s' = lvl s /\ same_below (lvl s) (store0 s) (store0 s') /\ same_below (lvl s) (store1 s) (store1 s').
Definition fpre (s : fstate) (d : Z) : Prop := good s /\ lvl s + d <= rows.
Definition stmt_cond (st : stmt) : Prop := wf_stmt nv consts st /\ no_not st /\ ffits st /\ marked st.
Definition f_ok (st : stmt) : Prop := forall s, stmt_cond st -> fpre s (depth st) ->
  exists s', fvisit_stmt consts defEps smp st s = Ok s' /\ fpost s (fexec defEps smp st (vars (base s))) s'.
Lemma fvisit_all_from l : Forall f_ok l -> forall s, Forall stmt_cond l -> fpre s (depth_all l) ->
  exists s', fvisit_all consts defEps smp l s = Ok s' /\ fpost s (fexec_all defEps smp l (vars (base s))) s'.
Proof.
  induction 1 as [|x l Hx Hl IH]; intros s Hc [G Hd]; cbn [fvisit_all].
  - exists s. split; [reflexivity|]. split; [exact G|]. split; [reflexivity|]. split; [reflexivity|]. split; apply same_below_refl.
  - apply Forall_cons_iff in Hc as [C1 C2]. unfold depth_all in Hd. cbn [fold_right] in Hd. fold (depth_all l) in Hd.
    destruct (Hx s C1) as (s1 & E1 & G1 & V1 & L1 & S1 & S1'); [split; [exact G|lia]|]. rewrite E1. cbn [obind].
    destruct (IH s1 C2) as (s2 & E2 & G2 & V2 & L2 & S2 & S2'); [split; [exact G1|lia]|]. exists s2. split; [exact E2|]. split; [exact G2|]. split; [rewrite V2, V1; reflexivity|]. split; [lia|].
    rewrite L1 in S2, S2'. split; eapply same_below_trans; eassumption.
Qed.
Lemma visit_base st s : stmt_cond st -> match st with SAssign _ _ | SPays _ _ => True | _ => False end -> fpre s (depth st) ->
  exists s', (do b <- visit_stmt false consts smp st (base s); Ok (with_base s b)) = Ok s' /\ fpost s (exec false smp st (vars (base s))) s'.
Proof.
  intros (W & _ & Ft & _) Hs [G Hd]. pose proof G as (G1 & G2 & G3 & G4 & G5 & G6 & G7).
  destruct (visit_stmt_ok false consts smp nv 128 st (base s)) as (b & E & V & B & D); auto; try lia.
  { destruct st; try destruct Hs; exact Ft. } { unfold leak. lia. } unfold leak in D. rewrite E. cbn [obind]. exists (with_base s b). split; [reflexivity|]. unfold fpost, good, with_base. cbn [base fz store0 store1 lvl]. 
  split; [split; [rewrite V, (exec_length false consts smp nv); auto|]; split; [exact G2|]; split; [exact G3|]; split; [exact G4|]; split; [lia|]; split; [exact B|exact G7]|].
  split; [exact V|]. split; [reflexivity|]. split; apply same_below_refl.
Qed.
Lemma fvisit_if f af c t e dt_ : forall s, Forall f_ok t -> Forall f_ok (match e with None => [] | Some l => l end) -> stmt_cond (SIf f af c t e) -> fpre s (depth (SIf f af c t e)) -> dt_ = degree defEps smp (vars (base s)) c ->
  exists s', (do s1 <- fvisit_cond consts defEps smp c (with_lvl s (lvl s + 1)); do p <- top_and_pop 0 (fz s1);
        do s6 <- (if surely (fst p) then fvisit_all consts defEps smp t (with_fz s1 (snd p))
                  else if never (fst p) then match e with None => Ok (with_fz s1 (snd p)) | Some l => fvisit_all consts defEps smp l (with_fz s1 (snd p)) end
                  else do s3 <- save0 af (with_fz s1 (snd p)); do s4 <- fvisit_all consts defEps smp t s3; do s5 <- swap1 af s4;
                       do s6 <- match e with None => Ok s5 | Some l => fvisit_all consts defEps smp l s5 end; blend (fst p) af s6);
        Ok (with_lvl s6 (lvl s6 - 1))) = Ok s' /\ fpost s (fexec defEps smp (SIf f af c t e) (vars (base s))) s'.
Proof.
  intros s Ht Hl (W & Nn & Ft & Mk) [G Hd] ->.
  set (l := match e with None => [] | Some l => l end) in *.
  assert (He : forall st, match e with None => Ok st | Some l => fvisit_all consts defEps smp l st end = fvisit_all consts defEps smp l st) by (intros; unfold l; destruct e; reflexivity).
  assert (Hx : match e with None => vars (base s) | Some l => fold_left (fun env s => fexec defEps smp s env) l (vars (base s)) end = fexec_all defEps smp l (vars (base s))) by (unfold l, fexec_all; destruct e; reflexivity).
  assert (Has : assigned (SIf f af c t e) = flat_map assigned t ++ flat_map assigned l) by (unfold l; destruct e; reflexivity).
  cbn [fexec]. rewrite Hx, Has. fold (fexec_all defEps smp t (vars (base s))).
  assert (Hdp : depth (SIf f af c t e) = 1 + Z.max (depth_all t) (depth_all l)) by (unfold l; destruct e; reflexivity). rewrite Hdp in Hd.
  pose proof (assigned_range (SIf f af c t e)) as Hrange. rewrite Has in Hrange.
  assert (Haf : set_of af (flat_map assigned t ++ flat_map assigned l)) by (unfold l; cbn [marked] in Mk; destruct e; apply Mk).
  assert (Hc : Forall stmt_cond t /\ Forall stmt_cond l).
  { cbn [wf_stmt no_not ffits marked] in *. destruct W as (_ & W2 & W3), Nn as (_ & N2 & N3), Ft as (_ & _ & F2 & F3), Mk as (_ & M2 & M3). rewrite F_iff in W2, N2, F2, M2.
    rewrite Forall_forall in W2, N2, F2, M2. split; [apply Forall_forall; intros x Hin; repeat split; auto|]. unfold l. destruct e; [|constructor]. rewrite F_iff in W3, N3, F3, M3.
    rewrite Forall_forall in W3, N3, F3, M3. apply Forall_forall; intros x Hin; repeat split; auto. }
  destruct Hc as [Ct Cl].
  assert (Hwt : Forall (wf_stmt nv consts) t /\ Forall (wf_stmt nv consts) l) by (split; eapply Forall_impl; [|exact Ct| |exact Cl]; cbn; intros x Hx0; apply Hx0). destruct Hwt as [Wt Wl].
  pose proof G as (G1 & G2 & G3 & G4 & G5 & G6 & G7). pose proof (depth_all_nonneg t). pose proof (depth_all_nonneg l).
  specialize (Hrange). assert (Haf2 : forall i, In i af -> 0 <= i < nv) by (intros i Hi; apply Hrange; [exact W|]; now apply Haf).
  cbn [wf_stmt no_not ffits] in W, Nn, Ft. pose proof (fneed_pos c). pose proof (cneed_nonneg c).
  destruct (fvisit_cond_ok c (with_lvl s (lvl s + 1))) as (d & z & E & K & P); unfold with_lvl; cbn [base fz store0 store1 lvl]; try tauto; try lia.
  unfold with_lvl in *; cbn [base fz store0 store1 lvl] in *. rewrite E. cbn [obind fz]. destruct (top_and_pop_ok 0 _ _ _ P ltac:(lia)) as [E1 K1]. rewrite E1. cbn [obind fst snd].
  unfold with_fz. cbn [base fz store0 store1 lvl]. set (dt := degree defEps smp (vars (base s)) c). clearbody dt. destruct K as [Ka _]. destruct K1 as [K1a _].
  set (s2 := FState (EState (vars (base s)) d (bst (base s))) (pop z) (store0 s) (store1 s) (lvl s + 1)).
  assert (Gs2 : good s2) by (unfold s2, good; cbn [base vars dst bst fz store0 store1 lvl]; repeat split; try apply G2; try apply G3; lia).
  assert (Leave : forall s6 env, fpost s2 env s6 -> fpost s env (FState (base s6) (fz s6) (store0 s6) (store1 s6) (lvl s6 - 1))).
  { intros s6 env ((g1 & g2 & g3 & g4 & g5 & g6 & g7) & V & L & S & S'). unfold s2 in L, S, S'. cbn [lvl store0 store1] in L, S, S'. unfold fpost, good. cbn [base fz store0 store1 lvl].
    split; [repeat split; try apply g2; try apply g3; auto; lia|]. split; [exact V|]. split; [lia|]. split; (eapply same_below_le; [|eassumption]; lia). }
  destruct (surely dt).
  { destruct (fvisit_all_from t Ht s2 Ct) as (s6 & E6 & P6); [split; [exact Gs2|unfold s2; cbn [lvl]; lia]|]. rewrite E6. cbn [obind]. eexists. split; [reflexivity|]. apply Leave. exact P6. }
  destruct (never dt).
  { rewrite He. destruct (fvisit_all_from l Hl s2 Cl) as (s6 & E6 & P6); [split; [exact Gs2|unfold s2; cbn [lvl]; lia]|]. rewrite E6. cbn [obind]. eexists. split; [reflexivity|]. apply Leave. exact P6. }
  destruct Haf as [Hinc Hin]. pose proof (increasing_nodup _ Hinc) as Hnd.
  destruct (save0_ok af s2 Gs2) as (m0 & E3 & Sm0 & A0); [unfold s2; cbn [lvl]; lia|exact Haf2|]. rewrite E3. cbn [obind].
  unfold s2 in A0, E3 |- *. cbn [base fz store0 store1 lvl vars dst bst] in *. set (s3 := FState (EState (vars (base s)) d (bst (base s))) (pop z) m0 (store1 s) (lvl s + 1)).
  assert (Gs3 : good s3) by (unfold s3, good; cbn [base vars dst bst fz store0 store1 lvl]; repeat split; try apply Sm0; try apply G3; lia).
  destruct (fvisit_all_from t Ht s3 Ct) as (s4 & E4 & Gs4 & V4 & L4 & S4 & S4'); [split; [exact Gs3|unfold s3; cbn [lvl]; lia]|]. rewrite E4. cbn [obind].
  unfold s3 in V4, L4, S4, S4'. cbn [base vars lvl store0 store1] in V4, L4, S4, S4'.
  destruct (swap1_ok af Hnd s4 Gs4) as (m1 & vs5 & E5 & Sm1 & Lv5 & A1 & B5); [lia|exact Haf2|]. rewrite E5. cbn [obind]. rewrite He.
  destruct Gs4 as (g1 & g2 & g3 & g4 & g5 & g6 & g7). set (s5 := FState (EState vs5 (dst (base s4)) (bst (base s4))) (fz s4) (store0 s4) m1 (lvl s4)).
  assert (Gs5 : good s5) by (unfold s5, good; cbn [base vars dst bst fz store0 store1 lvl]; repeat split; try apply Sm1; try apply g2; lia).
  assert (V5 : vs5 = vars (base s)).
  { apply env_ext; [lia|]. intros i Hi. rewrite Lv5 in Hi. rewrite B5 by exact Hi. destruct (existsb (Z.eqb i) af) eqn:Ex.
    - rewrite S4 by lia. rewrite A0 by lia. rewrite Ex. replace (lvl s4 - 1 =? lvl s + 1 - 1) with true by lia. reflexivity.
    - rewrite V4. unfold fexec_all. assert (Hni : ~ In i (flat_map assigned t)).
      { intros Hc. assert (In i af) by (apply Hin, in_app_iff; now left). apply existsb_in in H3. congruence. }
      exact (proj2 (fexec_facts (SCollect t) (vars (base s)) (proj2 (F_iff _ _) Wt) G1) i Hi Hni). }
  destruct (fvisit_all_from l Hl s5 Cl) as (s6 & E6 & Gs6 & V6 & L6 & S6 & S6'); [split; [exact Gs5|unfold s5; cbn [lvl]; lia]|]. rewrite E6. cbn [obind].
  unfold s5 in V6, L6, S6, S6'. cbn [base vars lvl store0 store1] in V6, L6, S6, S6'. rewrite V5 in V6.
  destruct (blend_ok dt af Hnd s6 Gs6) as (vs7 & E7 & Lv7 & B7); [lia|exact Haf2|]. rewrite E7. cbn [obind]. eexists. split; [reflexivity|].
  unfold with_base. cbn [base fz store0 store1 lvl]. destruct Gs6 as (h1 & h2 & h3 & h4 & h5 & h6 & h7).
  assert (Bel0 : same_below (lvl s) (store0 s) (store0 s6)).
  { intros a b Ha Hb. rewrite S6 by lia. rewrite S4 by lia. rewrite A0 by lia. replace (a =? lvl s + 1 - 1) with false by lia. reflexivity. }
  assert (Bel1 : same_below (lvl s) (store1 s) (store1 s6)).
  { intros a b Ha Hb. rewrite S6' by lia. rewrite A1 by lia. replace (a =? lvl s4 - 1) with false by lia. cbn [andb]. apply S4'; lia. }
  assert (Vfin : vs7 = mix dt (flat_map assigned t ++ flat_map assigned l) (fexec_all defEps smp t (vars (base s))) (fexec_all defEps smp l (vars (base s)))).
  { assert (Ll : Z.of_nat (length (fexec_all defEps smp l (vars (base s)))) = nv) by (pose proof (proj1 (fexec_facts (SCollect l) (vars (base s)) (proj2 (F_iff _ _) Wl) G1)) as HL; cbn [fexec] in HL; unfold fexec_all; lia).
    apply env_ext; [rewrite mix_length; lia|]. intros i Hi. rewrite Lv7 in Hi. rewrite mix_lookup by lia. rewrite B7 by exact Hi.
    replace (existsb (Z.eqb i) (flat_map assigned t ++ flat_map assigned l)) with (existsb (Z.eqb i) af) by (apply eq_iff_eq_true; rewrite !existsb_in; apply Hin).
    rewrite V6. destruct (existsb (Z.eqb i) af) eqn:Ex; [|reflexivity]. f_equal. f_equal. rewrite S6' by lia. rewrite A1 by lia. rewrite Ex. replace (lvl s6 - 1 =? lvl s4 - 1) with true by lia.
    cbn [andb]. now rewrite V4. }
  unfold fpost, good. cbn [base fz store0 store1 lvl vars dst bst]. split; [repeat split; try apply h2; try apply h3; auto; lia|]. split; [exact Vfin|]. split; [lia|]. split; assumption.
Qed.
Lemma fvisit_stmt_ok st : f_ok st.
Proof.
  induction st as [v e|v e|f af c t Ht|f af c t l Ht Hl|l Hl] using stmt_ind'; intros s Hc Hp.
  - exact (visit_base (SAssign v e) s Hc I Hp).
  - exact (visit_base (SPays v e) s Hc I Hp).
  - exact (fvisit_if f af c t None _ s Ht (Forall_nil _) Hc Hp eq_refl).
  - exact (fvisit_if f af c t (Some l) _ s Ht Hl Hc Hp eq_refl).
  - change (fvisit_stmt consts defEps smp (SCollect l) s) with (fvisit_all consts defEps smp l s). apply (fvisit_all_from l Hl); [|exact Hp].
    destruct Hc as (W & Nn & Ft & Mk). cbn [wf_stmt no_not ffits marked] in *. rewrite F_iff in W, Nn, Ft, Mk. rewrite Forall_forall in *. intros x Hin. repeat split; auto.
Qed.
Lemma fvisit_all_ok l s : Forall stmt_cond l -> fpre s (depth_all l) ->
  exists s', fvisit_all consts defEps smp l s = Ok s' /\ fpost s (fexec_all defEps smp l (vars (base s))) s'.
Proof. apply fvisit_all_from. apply Forall_forall. intros x _. apply fvisit_stmt_ok. Qed.
End Visit.

Lemma fvisit_events_ok consts defEps nv rows events : forall scenario pre s, Forall (Forall (stmt_cond consts nv)) events -> depth_events events <= rows ->
  good nv rows s -> lvl s = 0 -> (length events <= length scenario)%nat ->
  exists s', fvisit_events consts defEps (pre ++ scenario) (length pre) events s = Ok s' /\ good nv rows s' /\ lvl s' = 0 /\ vars (base s') = fexec_events defEps events scenario (vars (base s)).
Proof.
  induction events as [|evt r IH]; intros scenario pre s Hc Hd G Hl Hlen; cbn [fvisit_events fexec_events]; [exists s; auto|].
  destruct scenario as [|smp scenario]; cbn [length] in Hlen; [lia|]. apply Forall_cons_iff in Hc as [C1 C2]. unfold depth_events in Hd. cbn [fold_right] in Hd. fold (depth_events r) in Hd.
  assert (Hnth : nth_error (pre ++ smp :: scenario) (length pre) = Some smp) by (rewrite nth_error_app2, Nat.sub_diag by lia; reflexivity).
  destruct (fvisit_all_ok consts defEps smp nv rows evt s C1) as (s1 & E1 & G1 & V1 & L1 & _); [split; [exact G|lia]|].
  assert (Hgo : exists s', fvisit_events consts defEps (pre ++ smp :: scenario) (S (length pre)) r s1 = Ok s' /\ good nv rows s' /\ lvl s' = 0 /\ vars (base s') = fexec_events defEps r scenario (vars (base s1))).
  { destruct (IH scenario (pre ++ [smp]) s1 C2 ltac:(lia) G1 ltac:(lia) ltac:(lia)) as (s2 & E2 & Q2). rewrite <- app_assoc, app_length in E2. cbn [app length] in E2. rewrite Nat.add_1_r in E2. eauto. }
  destruct Hgo as (s2 & E2 & G2 & L2 & V2). exists s2. rewrite V2, V1. destruct evt as [|st evt].
  - cbn [fvisit_all] in E1. injection E1 as <-. auto.
  - rewrite Hnth, E1. cbn [obind]. auto.
Qed.
End Fuzzy.
