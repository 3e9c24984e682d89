(** Proofs about the tree evaluator. *)
From Coq Require Import ZArith List Bool Lia ZifyBool.
From Verif Require Import Base StringModel ScriptModel ScriptSpec.
Import ListNotations.
Open Scope Z_scope.

Lemma F_iff {A} (P : A -> Prop) l : fold_right (fun x Q => P x /\ Q) True l <-> Forall P l.
Proof. induction l as [|x l IH]; cbn [fold_right]; [split; auto|]. rewrite IH. split; [intros []; auto|]. intros H; inversion H; auto. Qed.

Section Eval.
Context {N : Num}.
(** * Induction principles *)
Lemma expr_ind' (P : expr -> Prop) :
  (forall a op l r x, P l -> P r -> Forall P x -> P (EBin a op l r x)) -> (forall a op x, P x -> P (EUn a op x)) ->
  (forall a, P (ESpot a)) -> (forall v, P (EConst v)) -> (forall a n i, P (EVar a n i)) -> (forall n i v, P (EConstVar n i v)) ->
  forall e, P e.
Proof.
  intros H1 H2 H3 H4 H5 H6. fix IH 1. intros [a op l r x|a op x|a|v|a n i|n i v]; [|apply H2, IH|apply H3|apply H4|apply H5|apply H6].
  apply H1; [apply IH|apply IH|]. induction x as [|y x IHx]; constructor; [apply IH|exact IHx].
Qed.
Lemma stmt_ind' (P : stmt -> Prop) :
  (forall v e, P (SAssign v e)) -> (forall v e, P (SPays v e)) ->
  (forall f af c t, Forall P t -> P (SIf f af c t None)) -> (forall f af c t l, Forall P t -> Forall P l -> P (SIf f af c t (Some l))) ->
  (forall l, Forall P l -> P (SCollect l)) -> forall s, P s.
Proof.
  intros H1 H2 H3 H4 H5. fix IH 1.
  assert (HF : forall l : list stmt, Forall P l) by (fix IHl 1; intros [|x l]; constructor; [apply IH|apply IHl]).
  intros [v e|v e|f af c t [l|]|l]; [apply H1|apply H2|apply H4; apply HF|apply H3; apply HF|apply H5; apply HF].
Qed.

(** * Vectors *)
Lemma vget_ok {A} (l : list A) i d : 0 <= i < Z.of_nat (length l) -> vget l i = Ok (nth (Z.to_nat i) l d).
Proof.
  intros H. unfold vget. replace (i <? 0) with false by lia. rewrite (nth_error_nth' l d) by lia. reflexivity.
Qed.
Lemma upd_nat_store {A} (l : list A) n v : (n < length l)%nat -> upd_nat l n v = firstn n l ++ v :: skipn (S n) l.
Proof.
  revert n. induction l as [|x l IH]; intros [|n] H; cbn [length] in H; try lia; [reflexivity|].
  cbn [upd_nat firstn skipn app]. f_equal. rewrite IH by lia. reflexivity.
Qed.
Lemma vput_ok (l : list num) i v : 0 <= i < Z.of_nat (length l) -> vput l i v = Ok (store l i v).
Proof.
  intros H. unfold vput. replace ((0 <=? i) && (i <? Z.of_nat (length l))) with true by lia.
  unfold store. rewrite upd_nat_store by lia. reflexivity.
Qed.
Lemma store_length env i (v : num) : 0 <= i < Z.of_nat (length env) -> length (store env i v) = length env.
Proof. intros H. unfold store. rewrite app_length, firstn_length. cbn [length]. rewrite skipn_length. lia. Qed.
Lemma lookup_store env i j (v : num) : 0 <= i < Z.of_nat (length env) -> 0 <= j ->
  lookup (store env i v) j = if j =? i then v else lookup env j.
Proof.
  intros Hi Hj. unfold lookup, store. destruct (j =? i) eqn:E.
  - assert (j = i) by lia. subst j. rewrite app_nth2; rewrite firstn_length; [|lia]. replace (_ - _)%nat with 0%nat by lia. reflexivity.
  - assert (Hd : (Z.to_nat j < Z.to_nat i)%nat \/ (Z.to_nat i < Z.to_nat j)%nat) by lia. destruct Hd as [L|L].
    + rewrite app_nth1 by (rewrite firstn_length; lia). rewrite <- (firstn_skipn (Z.to_nat i) env) at 2. rewrite app_nth1 by (rewrite firstn_length; lia). reflexivity.
    + rewrite app_nth2 by (rewrite firstn_length; lia). rewrite firstn_length. replace (Nat.min _ _) with (Z.to_nat i) by lia.
      replace (Z.to_nat j - Z.to_nat i)%nat with (S (Z.to_nat j - S (Z.to_nat i)))%nat by lia. cbn [nth].
      rewrite <- (firstn_skipn (S (Z.to_nat i)) env) at 2. rewrite app_nth2; rewrite firstn_length; [|lia].
      replace (Nat.min _ _) with (S (Z.to_nat i)) by lia. reflexivity.
Qed.

(** * Stacks *)
Definition pushes {A} (s : stack A) (v : A) (d : stack A) : Prop :=
  sp d = sp s + 1 /\ data d (sp d) = Some v /\ forall i, i <= sp s -> data d i = data s i.
Definition keeps {A} (s d : stack A) : Prop := sp d = sp s /\ forall i, i <= sp s -> data d i = data s i.
Lemma keeps_refl {A} (s : stack A) : keeps s s. Proof. split; auto. Qed.
Lemma keeps_trans {A} (a b c : stack A) : keeps a b -> keeps b c -> keeps a c.
Proof. intros [H1 H2] [H3 H4]. split; [congruence|]. intros i Hi. rewrite H4 by lia. apply H2, Hi. Qed.
Lemma keeps_pushes {A} (a b c : stack A) v : keeps a b -> pushes b v c -> pushes a v c.
Proof. intros [H1 H2] (H3 & H4 & H5). repeat split; [lia|assumption|]. intros i Hi. rewrite H5 by lia. apply H2, Hi. Qed.
Lemma pop_pushes {A} (s d : stack A) v : pushes s v d -> keeps s (pop d).
Proof. intros (H1 & _ & H2). split; [cbn; lia|]. exact H2. Qed.
Lemma push_ok {A} lo (v : A) s : lo <= sp s + 1 < 128 -> exists d, push lo v s = Ok d /\ pushes s v d.
Proof.
  intros H. unfold push, sput. cbn [sp data]. replace (in_stack lo (sp s + 1)) with true by (unfold in_stack, stack_size; lia).
  eexists. split; [reflexivity|]. unfold pushes. cbn [sp data]. repeat split; [now rewrite Z.eqb_refl|].
  intros i Hi. now replace (i =? sp s + 1) with false by lia.
Qed.
Lemma top_ok {A} lo (v : A) s d : pushes s v d -> lo <= sp s + 1 < 128 -> top lo d = Ok v.
Proof.
  intros (H1 & H2 & _) H. unfold top, sget. rewrite H2. now replace (in_stack lo (sp d)) with true by (unfold in_stack, stack_size; lia).
Qed.
Lemma top_and_pop_ok {A} lo (v : A) s d : pushes s v d -> lo <= sp s + 1 < 128 -> top_and_pop lo d = Ok (v, pop d) /\ keeps s (pop d).
Proof. intros H1 H2. unfold top_and_pop. rewrite (top_ok lo v s) by assumption. split; [reflexivity|]. now apply (pop_pushes s d v). Qed.
Lemma set_top_ok {A} lo (v w : A) s d : pushes s v d -> lo <= sp s + 1 < 128 -> exists d', set_top lo d w = Ok d' /\ pushes s w d'.
Proof.
  intros (H1 & H2 & H3) H. unfold set_top, sput. replace (in_stack lo (sp d)) with true by (unfold in_stack, stack_size; lia).
  eexists. split; [reflexivity|]. unfold pushes. cbn [sp data]. repeat split; [assumption|now rewrite Z.eqb_refl|].
  intros i Hi. replace (i =? sp d) with false by lia. apply H3, Hi.
Qed.
Lemma two_ok {A} lo (x y z : A) s d1 d2 : pushes s x d1 -> pushes d1 y d2 -> lo <= sp s + 1 -> sp s + 2 < 128 ->
  second lo d2 = Ok x /\ top lo d2 = Ok y /\ exists d3, set_second lo d2 z = Ok d3 /\ pushes s z (pop d3).
Proof.
  intros (H1 & H2 & H3) (H4 & H5 & H6) Hlo Hhi. split; [|split].
  - unfold second, sget. replace (in_stack lo (sp d2 - 1)) with true by (unfold in_stack, stack_size; lia).
    replace (sp d2 - 1) with (sp d1) by lia. rewrite H6 by lia. now rewrite H2.
  - apply (top_ok lo y d1 d2); [repeat split; assumption|lia].
  - unfold set_second, sput. replace (in_stack lo (sp d2 - 1)) with true by (unfold in_stack, stack_size; lia).
    eexists. split; [reflexivity|]. unfold pushes, pop. cbn [sp data]. repeat split; [lia|now rewrite Z.eqb_refl|].
    intros i Hi. replace (i =? sp d2 - 1) with false by lia. rewrite H6 by lia. apply H3, Hi.
Qed.

(** * Expressions *)
Lemma need_pos e : 1 <= need e.
Proof. induction e as [a op l r x Hl Hr Hx|a op x IH|a|v|a n i|n i v] using expr_ind'; cbn [need]; lia. Qed.
Lemma cneed_nonneg c : 0 <= cneed c.
Proof. induction c; cbn [cneed]; try lia. pose proof (need_pos e). lia. Qed.
Lemma bneed_pos c : 1 <= bneed c.
Proof. induction c; cbn [bneed]; lia. Qed.

Section Visit.
Variables (past : bool) (consts : list num) (smp : sample).
Lemma visit_expr_ok nv e : forall s, wf_expr nv consts e -> Z.of_nat (length (vars s)) = nv -> -1 <= sp (dst s) ->
  sp (dst s) + need e < 128 ->
  exists d, visit_expr past consts smp e s = Ok (with_d s d) /\ pushes (dst s) (meaning past smp (vars s) e) d.
Proof.
  induction e as [a op l r x Hl Hr Hx|a op x IH|a|v|a n i|n i v] using expr_ind'; intros s Hwf Hnv Hsp Hn; cbn [visit_expr meaning need wf_expr] in *.
  - destruct Hwf as (W1 & W2 & _). pose proof (need_pos l). pose proof (need_pos r).
    destruct (Hl s W1 Hnv Hsp ltac:(lia)) as (d1 & E1 & P1). rewrite E1. cbn [obind].
    assert (Hsp1 : sp d1 = sp (dst s) + 1) by (destruct P1; assumption).
    destruct (Hr (with_d s d1) W2 Hnv ltac:(cbn; lia) ltac:(cbn; lia)) as (d2 & E2 & P2). rewrite E2. cbn [obind with_d dst vars] in *.
    destruct (two_ok 0 _ _ (bin op (meaning past smp (vars s) l) (meaning past smp (vars s) r)) _ _ _ P1 P2 ltac:(lia) ltac:(lia)) as (T1 & T2 & d3 & T3 & T4).
    rewrite T1. cbn [obind]. rewrite T2. cbn [obind]. rewrite T3. cbn [obind]. eexists. split; [reflexivity|]. exact T4.
  - destruct (IH s Hwf Hnv Hsp Hn) as (d1 & E1 & P1). pose proof (need_pos x). rewrite E1. cbn [obind with_d dst].
    rewrite (top_ok 0 _ _ _ P1) by lia. cbn [obind]. destruct (set_top_ok 0 _ (un op (meaning past smp (vars s) x)) _ _ P1 ltac:(lia)) as (d2 & E2 & P2).
    rewrite E2. cbn [obind]. eexists. split; [reflexivity|]. exact P2.
  - destruct (push_ok 0 (if past then n_thirty else spot smp) (dst s) ltac:(lia)) as (d & E & P). rewrite E. cbn [obind]. eauto.
  - destruct (push_ok 0 v (dst s) ltac:(lia)) as (d & E & P). rewrite E. cbn [obind]. eauto.
  - rewrite (vget_ok _ _ n_zero) by lia. cbn [obind]. destruct (push_ok 0 (nth (Z.to_nat i) (vars s) n_zero) (dst s) ltac:(lia)) as (d & E & P).
    rewrite E. cbn [obind]. exists d. split; [reflexivity|exact P].
  - destruct Hwf as [W1 W2]. unfold vget. replace (i <? 0) with false by lia. rewrite W2. cbn [obind].
    destruct (push_ok 0 v (dst s) ltac:(lia)) as (d & E & P). rewrite E. cbn [obind]. eauto.
Qed.
Lemma visit_cond_ok nv c : forall s, wf_cond nv consts c -> Z.of_nat (length (vars s)) = nv -> -1 <= sp (dst s) ->
  sp (dst s) + cneed c < 128 -> -1 <= sp (bst s) -> sp (bst s) + bneed c < 128 ->
  exists d b, visit_cond past consts smp c s = Ok (EState (vars s) d b) /\ keeps (dst s) d /\ pushes (bst s) (truth past smp (vars s) c) b.
Proof.
  induction c as [f op z e|f a IHa b IHb|f a IHa b IHb|f a IHa| |]; intros s Hwf Hnv Hd Hn Hb Hbn; cbn [visit_cond truth cneed bneed wf_cond] in *.
  - pose proof (need_pos e). destruct (visit_expr_ok nv e s Hwf Hnv Hd Hn) as (d & E & P). rewrite E. cbn [obind with_d dst bst vars].
    destruct (top_and_pop_ok 0 _ _ _ P ltac:(lia)) as [E1 K]. rewrite E1. cbn [obind fst snd].
    destruct (push_ok 0 (test op (meaning past smp (vars s) e)) (bst s) ltac:(lia)) as (b & E2 & P2). rewrite E2. cbn [obind]. eauto 6.
  - destruct Hwf as [W1 W2]. pose proof (bneed_pos a). pose proof (bneed_pos b). pose proof (cneed_nonneg b).
    destruct (IHa s W1 Hnv Hd ltac:(lia) Hb ltac:(lia)) as (d1 & b1 & E1 & K1 & P1). rewrite E1. cbn [obind with_b bst vars dst].
    rewrite (top_ok 0 _ _ _ P1) by lia. cbn [obind]. destruct (truth past smp (vars s) a); [|eauto 6].
    pose proof (pop_pushes _ _ _ P1) as K2. destruct K1 as [K1a K1b].
    destruct (IHb (EState (vars s) d1 (pop b1)) W2 Hnv) as (d2 & b2 & E2 & K3 & P2); cbn [dst bst vars]; [lia|lia|cbn [pop sp]; destruct P1; lia|cbn [pop sp]; destruct P1; lia|].
    unfold with_b; cbn [vars dst bst]. rewrite E2. cbn [vars dst bst andb] in *. exists d2, b2. split; [reflexivity|]. split; [|eapply keeps_pushes; eassumption].
    eapply keeps_trans; [|exact K3]. split; assumption.
  - destruct Hwf as [W1 W2]. pose proof (bneed_pos a). pose proof (bneed_pos b). pose proof (cneed_nonneg b).
    destruct (IHa s W1 Hnv Hd ltac:(lia) Hb ltac:(lia)) as (d1 & b1 & E1 & K1 & P1). rewrite E1. cbn [obind with_b bst vars dst].
    rewrite (top_ok 0 _ _ _ P1) by lia. cbn [obind]. destruct (truth past smp (vars s) a); cbn [negb]; [eauto 6|].
    pose proof (pop_pushes _ _ _ P1) as K2. destruct K1 as [K1a K1b].
    destruct (IHb (EState (vars s) d1 (pop b1)) W2 Hnv) as (d2 & b2 & E2 & K3 & P2); cbn [dst bst vars]; [lia|lia|cbn [pop sp]; destruct P1; lia|cbn [pop sp]; destruct P1; lia|].
    unfold with_b; cbn [vars dst bst]. rewrite E2. cbn [vars dst bst orb] in *. exists d2, b2. split; [reflexivity|]. split; [|eapply keeps_pushes; eassumption].
    eapply keeps_trans; [|exact K3]. split; assumption.
  - pose proof (bneed_pos a). destruct (IHa s Hwf Hnv Hd Hn Hb Hbn) as (d1 & b1 & E1 & K1 & P1). rewrite E1. cbn [obind with_b bst vars dst].
    rewrite (top_ok 0 _ _ _ P1) by lia. cbn [obind]. destruct (set_top_ok 0 _ (negb (truth past smp (vars s) a)) _ _ P1 ltac:(lia)) as (b2 & E2 & P2).
    rewrite E2. cbn [obind]. exists d1, b2. auto.
  - destruct (push_ok 0 true (bst s) ltac:(lia)) as (b & E2 & P2). rewrite E2. cbn [obind]. exists (dst s), b. auto using keeps_refl.
  - destruct (push_ok 0 false (bst s) ltac:(lia)) as (b & E2 & P2). rewrite E2. cbn [obind]. exists (dst s), b. auto using keeps_refl.
Qed.

(** * Statements *)
Definition leak (s : stmt) : Z := if past then payments s else 0.
Lemma payments_nonneg s : 0 <= payments s.
Proof.
  assert (HF : forall l, Forall (fun s => 0 <= payments s) l -> 0 <= fold_right (fun s n => payments s + n) 0 l)
    by (induction 1; cbn [fold_right]; lia).
  induction s as [v e|v e|f af c t Ht|f af c t l Ht Hl|l Hl] using stmt_ind'; cbn [payments]; try lia; try (pose proof (HF _ Ht)); try (pose proof (HF _ Hl)); lia.
Qed.
Lemma payments_all_nonneg l : 0 <= payments_all l.
Proof. unfold payments_all. induction l as [|s l IH]; cbn [fold_right]; [lia|]. pose proof (payments_nonneg s). lia. Qed.
Lemma exec_length nv s : forall env, wf_stmt nv consts s -> Z.of_nat (length env) = nv -> length (exec past smp s env) = length env.
Proof.
  assert (HF : forall l, Forall (fun s => forall env, wf_stmt nv consts s -> Z.of_nat (length env) = nv -> length (exec past smp s env) = length env) l ->
     Forall (wf_stmt nv consts) l -> forall env, Z.of_nat (length env) = nv -> length (fold_left (fun env s => exec past smp s env) l env) = length env).
  { induction l as [|s0 l IHl]; intros Hx Hw env Hv; cbn [fold_left]; [reflexivity|]. inversion Hx; inversion Hw; subst.
    assert (Hlen : length (exec past smp s0 env) = length env) by auto. rewrite IHl; [exact Hlen|assumption|assumption|]. now rewrite Hlen. }
  induction s as [v e|v e|f af c t Ht|f af c t l Ht Hl|l Hl] using stmt_ind'; intros env Hwf Hnv; cbn [exec wf_stmt] in *.
  - destruct Hwf as [W _]. destruct v; cbn [wf_lhs lhs_index] in *; [|destruct W]. apply store_length. lia.
  - destruct Hwf as [W _]. destruct v; cbn [wf_lhs lhs_index] in *; [|destruct W]. destruct past; [reflexivity|]. apply store_length. lia.
  - destruct Hwf as (W1 & W2 & _). rewrite F_iff in W2. destruct (truth past smp env c); [|reflexivity]. apply HF; assumption.
  - destruct Hwf as (W1 & W2 & W3). rewrite F_iff in W2, W3. destruct (truth past smp env c); apply HF; assumption.
  - rewrite F_iff in Hwf. apply HF; assumption.
Qed.
Lemma exec_all_length nv l env : wf_all nv consts l -> Z.of_nat (length env) = nv -> length (exec_all past smp l env) = length env.
Proof.
  intros Hw. revert env. unfold exec_all. induction Hw as [|s l Hs Hl IH]; intros env Hv; cbn [fold_left]; [reflexivity|].
  pose proof (exec_length nv s env Hs Hv) as E. rewrite IH; [exact E|]. now rewrite E.
Qed.

Definition stmt_ok nv dmax (st : stmt) : Prop := forall s, wf_stmt nv consts st -> fits dmax st -> Z.of_nat (length (vars s)) = nv ->
  -1 <= sp (dst s) -> sp (dst s) + leak st + dmax < 128 -> sp (bst s) = -1 ->
  exists s', visit_stmt past consts smp st s = Ok s' /\ vars s' = exec past smp st (vars s) /\ sp (bst s') = -1 /\
    sp (dst s) <= sp (dst s') <= sp (dst s) + leak st.
Lemma visit_all_from nv dmax l : Forall (stmt_ok nv dmax) l -> forall s, wf_all nv consts l -> fits_all dmax l -> Z.of_nat (length (vars s)) = nv ->
  -1 <= sp (dst s) -> sp (dst s) + (if past then payments_all l else 0) + dmax < 128 -> sp (bst s) = -1 ->
  exists s', visit_all past consts smp l s = Ok s' /\ vars s' = exec_all past smp l (vars s) /\ sp (bst s') = -1 /\
    sp (dst s) <= sp (dst s') <= sp (dst s) + (if past then payments_all l else 0).
Proof.
  induction 1 as [|x l Hx Hl IH]; intros s Hw Hf Hnv Hd Hn Hb.
  - exists s. cbn [visit_all]. unfold payments_all, exec_all. cbn [fold_right fold_left]. repeat split; auto; destruct past; lia.
  - inversion Hw; inversion Hf; subst. unfold payments_all in Hn. cbn [fold_right] in Hn. fold (payments_all l) in Hn.
    pose proof (payments_nonneg x). pose proof (payments_all_nonneg l).
    destruct (Hx s) as (s1 & E1 & V1 & B1 & D1); auto; [unfold leak; destruct past; lia|].
    destruct (IH s1) as (s2 & E2 & V2 & B2 & D2); auto.
    { rewrite V1, exec_length with (nv := Z.of_nat (length (vars s))); auto. }
    { lia. } { unfold leak in *. destruct past; lia. }
    exists s2. cbn [visit_all]. rewrite E1. cbn [obind]. rewrite E2. split; [reflexivity|]. split.
    { rewrite V2, V1. reflexivity. }
    split; [assumption|]. unfold payments_all. cbn [fold_right]. fold (payments_all l). unfold leak in *. destruct past; lia.
Qed.
Lemma visit_stmt_ok nv dmax st : stmt_ok nv dmax st.
Proof.
  induction st as [v e|v e|f af c t Ht|f af c t l Ht Hl|l Hl] using stmt_ind'; intros s Hwf Hfit Hnv Hd Hn Hb; cbn [wf_stmt fits] in *.
  - destruct Hwf as [W1 W2]. destruct v as [a n i|]; cbn [wf_lhs] in W1; [|destruct W1]. pose proof (need_pos e). pose proof (payments_nonneg (SAssign (LVar a n i) e)).
    assert (Hl : leak (SAssign (LVar a n i) e) = 0) by (unfold leak; cbn; destruct past; reflexivity). rewrite Hl in *.
    destruct (visit_expr_ok nv e s W2 Hnv Hd ltac:(lia)) as (d & E & P). cbn [visit_stmt]. rewrite E. cbn [obind with_d dst vars bst].
    destruct (top_and_pop_ok 0 _ _ _ P ltac:(lia)) as [E1 K]. rewrite E1. cbn [obind fst snd]. rewrite vput_ok by lia. cbn [obind].
    eexists. split; [reflexivity|]. cbn [vars dst bst exec lhs_index]. destruct K as [K _]. repeat split; auto; lia.
  - destruct Hwf as [W1 W2]. destruct v as [a n i|]; cbn [wf_lhs] in W1; [|destruct W1]. pose proof (need_pos e).
    unfold leak in *. cbn [payments] in *. cbn [visit_stmt exec lhs_index].
    destruct (visit_expr_ok nv e s W2 Hnv Hd ltac:(destruct past; lia)) as (d & E & P). rewrite E. cbn [obind with_d dst vars bst].
    destruct past eqn:Ep.
    + eexists. split; [reflexivity|]. cbn [with_d vars dst bst]. destruct P as [P _]. repeat split; auto; lia.
    + destruct (top_and_pop_ok 0 _ _ _ P ltac:(lia)) as [E1 K]. rewrite E1. cbn [obind fst snd]. rewrite (vget_ok _ _ n_zero) by lia. cbn [obind].
      rewrite vput_ok by lia. cbn [obind]. eexists. split; [reflexivity|]. cbn [vars dst bst]. destruct K as [K _]. repeat split; auto; lia.
  - destruct Hwf as (W1 & W2 & _). destruct Hfit as (F1 & F2 & F3 & _). rewrite F_iff in W2, F3. pose proof (payments_nonneg (SIf f af c t None)). pose proof (cneed_nonneg c).
    assert (Hlk : 0 <= leak (SIf f af c t None)) by (unfold leak; destruct past; lia).
    change (visit_stmt past consts smp (SIf f af c t None) s) with
      (do s1 <- visit_cond past consts smp c s; do p <- top_and_pop 0 (bst s1);
       if (fst p : bool) then visit_all past consts smp t (with_b s1 (snd p)) else Ok (with_b s1 (snd p))).
    destruct (visit_cond_ok nv c s W1 Hnv Hd ltac:(lia) ltac:(lia) ltac:(lia)) as (d & b & E & K & P). rewrite E. cbn [obind bst].
    destruct (top_and_pop_ok 0 _ _ _ P ltac:(lia)) as [E1 K1]. rewrite E1. cbn [obind fst snd with_b vars dst]. cbn [exec].
    destruct K as [K _]. destruct K1 as [K1 _].
    assert (Hlk' : leak (SIf f af c t None) = if past then payments_all t else 0) by (unfold leak, payments_all; cbn [payments]; destruct past; lia).
    rewrite Hlk' in *. destruct (truth past smp (vars s) c).
    + destruct (visit_all_from nv dmax t Ht (EState (vars s) d (pop b))) as (s' & E2 & V & B & D); cbn [vars dst bst]; auto; try lia.
      exists s'. unfold with_b; cbn [vars dst bst]. rewrite E2. cbn [vars dst] in *. repeat split; auto; lia.
    + eexists. split; [reflexivity|]. unfold with_b. cbn [vars dst bst]. repeat split; auto; lia.
  - destruct Hwf as (W1 & W2 & W3). destruct Hfit as (F1 & F2 & F3 & F4). rewrite F_iff in W2, W3, F3, F4. pose proof (cneed_nonneg c).
    pose proof (payments_all_nonneg t). pose proof (payments_all_nonneg l).
    assert (Hlk : leak (SIf f af c t (Some l)) = if past then payments_all t + payments_all l else 0) by (unfold leak, payments_all; cbn [payments]; destruct past; lia).
    rewrite Hlk in *.
    change (visit_stmt past consts smp (SIf f af c t (Some l)) s) with
      (do s1 <- visit_cond past consts smp c s; do p <- top_and_pop 0 (bst s1);
       if (fst p : bool) then visit_all past consts smp t (with_b s1 (snd p)) else visit_all past consts smp l (with_b s1 (snd p))).
    destruct (visit_cond_ok nv c s W1 Hnv Hd ltac:(destruct past; lia) ltac:(lia) ltac:(lia)) as (d & b & E & K & P). rewrite E. cbn [obind bst].
    destruct (top_and_pop_ok 0 _ _ _ P ltac:(lia)) as [E1 K1]. rewrite E1. cbn [obind fst snd with_b vars dst]. cbn [exec].
    destruct K as [K _]. destruct K1 as [K1 _]. destruct (truth past smp (vars s) c).
    + destruct (visit_all_from nv dmax t Ht (EState (vars s) d (pop b))) as (s' & E2 & V & B & D); cbn [vars dst bst]; auto; try (destruct past; lia).
      exists s'. unfold with_b; cbn [vars dst bst]. rewrite E2. cbn [vars dst] in *. repeat split; auto; destruct past; lia.
    + destruct (visit_all_from nv dmax l Hl (EState (vars s) d (pop b))) as (s' & E2 & V & B & D); cbn [vars dst bst]; auto; try (destruct past; lia).
      exists s'. unfold with_b; cbn [vars dst bst]. rewrite E2. cbn [vars dst] in *. repeat split; auto; destruct past; lia.
  - rewrite F_iff in Hwf, Hfit. change (visit_stmt past consts smp (SCollect l) s) with (visit_all past consts smp l s).
    assert (Hlk : leak (SCollect l) = if past then payments_all l else 0) by reflexivity. rewrite Hlk in *.
    destruct (visit_all_from nv dmax l Hl s) as (s' & E & V & B & D); auto. exists s'. repeat split; auto; lia.
Qed.
Lemma visit_all_ok nv dmax l s : wf_all nv consts l -> fits_all dmax l -> Z.of_nat (length (vars s)) = nv ->
  -1 <= sp (dst s) -> sp (dst s) + (if past then payments_all l else 0) + dmax < 128 -> sp (bst s) = -1 ->
  exists s', visit_all past consts smp l s = Ok s' /\ vars s' = exec_all past smp l (vars s) /\ sp (bst s') = -1 /\
    sp (dst s) <= sp (dst s') <= sp (dst s) + (if past then payments_all l else 0).
Proof. apply visit_all_from. apply Forall_forall. intros x _. apply visit_stmt_ok. Qed.
End Visit.

(** * Products *)
Lemma visit_events_ok consts nv dmax events : forall scenario pre s, Forall (wf_all nv consts) events -> Forall (fits_all dmax) events -> dmax <= 128 ->
  Z.of_nat (length (vars s)) = nv -> sp (dst s) = -1 -> sp (bst s) = -1 -> (length events <= length scenario)%nat ->
  exists s', visit_events consts (pre ++ scenario) (length pre) events s = Ok s' /\ vars s' = exec_events events scenario (vars s).
Proof.
  induction events as [|evt r IH]; intros scenario pre s Hw Hf Hd Hnv Hs Hb Hlen; cbn [visit_events exec_events]; [eauto|].
  destruct scenario as [|smp scenario]; cbn [length] in Hlen; [lia|]. inversion Hw; inversion Hf; subst.
  assert (Hnth : nth_error (pre ++ smp :: scenario) (length pre) = Some smp) by (rewrite nth_error_app2, Nat.sub_diag by lia; reflexivity).
  destruct (visit_all_ok false consts smp _ dmax evt s H1 ltac:(assumption) eq_refl ltac:(lia) ltac:(lia) Hb) as (s1 & E1 & V1 & B1 & D1).
  assert (Hgo : exists s', visit_events consts (pre ++ smp :: scenario) (S (length pre)) r s1 = Ok s' /\ vars s' = exec_events r scenario (vars s1)).
  { destruct (IH scenario (pre ++ [smp]) s1) as (s2 & E2 & V2); auto; try lia.
    { rewrite V1. rewrite (exec_all_length false consts smp (Z.of_nat (length (vars s)))); auto. }
    rewrite <- app_assoc, app_length in E2. cbn [app length] in E2. rewrite Nat.add_1_r in E2. eauto. }
  destruct Hgo as (s2 & E2 & V2). destruct evt as [|st evt].
  - cbn [visit_all] in E1. injection E1 as <-. exists s2. split; [exact E2|exact V2].
  - rewrite Hnth, E1. cbn [obind]. exists s2. split; [exact E2|]. now rewrite V2, V1.
Qed.
Lemma evaluate_ok consts init scenario events dmax s : Forall (wf_all (Z.of_nat (length init)) consts) events -> Forall (fits_all dmax) events -> dmax <= 128 ->
  (length events <= length scenario)%nat ->
  exists s', evaluate consts init scenario events s = Ok s' /\ vars s' = exec_events events scenario init.
Proof.
  intros Hw Hf Hd Hl. unfold evaluate.
  apply (visit_events_ok consts _ dmax events scenario [] (EState init (reset (dst s)) (reset (bst s))) Hw Hf Hd eq_refl eq_refl eq_refl Hl).
Qed.
Definition payments_events (events : list (list stmt)) : Z := fold_right (fun e n => payments_all e + n) 0 events.
Lemma visit_past_ok consts nv dmax events : forall s, Forall (wf_all nv consts) events -> Forall (fits_all dmax) events ->
  Z.of_nat (length (vars s)) = nv -> -1 <= sp (dst s) -> sp (dst s) + payments_events events + dmax < 128 -> sp (bst s) = -1 ->
  exists s', visit_past consts events s = Ok s' /\ vars s' = exec_past events (vars s).
Proof.
  induction events as [|evt r IH]; intros s Hw Hf Hnv Hs Hd Hb; cbn [visit_past]; [exists s; auto|].
  inversion Hw; inversion Hf; subst. cbn [payments_events fold_right] in Hd. fold (payments_events r) in Hd.
  assert (Hp : 0 <= payments_events r) by (clear; unfold payments_events; induction r as [|e r IH]; cbn [fold_right]; [lia|]; pose proof (payments_all_nonneg e); lia).
  destruct (visit_all_ok true consts (Sample n_zero n_zero) _ dmax evt s H1 ltac:(assumption) eq_refl ltac:(lia) ltac:(lia) Hb) as (s1 & E1 & V1 & B1 & D1).
  rewrite E1. cbn [obind]. destruct (IH s1) as (s2 & E2 & V2); auto; try lia.
  { rewrite V1. rewrite (exec_all_length true consts _ (Z.of_nat (length (vars s)))); auto. }
  exists s2. split; [assumption|]. rewrite V2, V1. reflexivity.
Qed.
Lemma past_evaluate_ok consts nvars events dmax : Forall (wf_all (Z.of_nat nvars) consts) events -> Forall (fits_all dmax) events ->
  payments_events events + dmax <= 128 -> past_evaluate consts nvars events = Ok (exec_past events (repeat n_zero nvars)).
Proof.
  intros Hw Hf Hd. unfold past_evaluate.
  destruct (visit_past_ok consts (Z.of_nat nvars) dmax events (EState (repeat n_zero nvars) empty_stack empty_stack)) as (s & E & V); cbn [vars dst bst empty_stack sp]; auto; try lia.
  { now rewrite repeat_length. }
  rewrite E. cbn [obind]. now rewrite V.
Qed.
End Eval.
