(** Compiled streams compute what the tree means. *)
From Coq Require Import ZArith List Bool Lia ZifyBool.
From Verif Require Import Base StringModel ScriptModel ScriptSpec ScriptEval ScriptCompile.
Import ListNotations.
Open Scope Z_scope.

Section Machine.
Context {N : Num}.
Variables (lo : Z) (NS : list Z) (CS : list num) (smp : sample).
Notation run := (run lo NS CS smp).
Notation m_step := (m_step lo NS CS smp).

Lemma obind_ok {A B} (o : outcome A) (f : A -> outcome B) r : obind o f = Ok r -> exists a, o = Ok a /\ f a = Ok r.
Proof. destruct o; cbn [obind]; intros H; try discriminate. eauto. Qed.
Lemma run_more f : forall f' i n s r, run f i n s = Ok r -> (f <= f')%nat -> run f' i n s = Ok r.
Proof.
  induction f as [|f IH]; intros f' i n s r; cbn [ScriptModel.run]; [discriminate|]. intros H Hf. destruct f' as [|f']; [lia|]. cbn [ScriptModel.run].
  destruct (n <=? i); [exact H|]. apply obind_ok in H as (c & Hc & H). rewrite Hc. cbn [obind].
  destruct (m_step c i s) as [o|].
  - apply obind_ok in H as (p & -> & H). cbn [obind]. apply IH; [exact H|lia].
  - destruct (c =? 24).
    + apply obind_ok in H as (t & -> & H). cbn [obind]. destruct t; [apply IH; [exact H|lia]|].
      apply obind_ok in H as (j & -> & H). cbn [obind]. apply IH; [exact H|lia].
    + destruct (c =? 25); [|apply IH; [exact H|lia]].
      apply obind_ok in H as (t & -> & H). cbn [obind]. destruct t.
      * apply obind_ok in H as (la & -> & H). cbn [obind]. apply obind_ok in H as (j & -> & H). cbn [obind].
        apply obind_ok in H as (s' & Hs & H). rewrite (IH f' _ _ _ s' Hs) by lia. cbn [obind]. apply IH; [exact H|lia].
      * apply obind_ok in H as (j & -> & H). cbn [obind]. apply IH; [exact H|lia].
Qed.
(** running to [n] from (i, s) is running to [n] from (j, s') *)
Definition goes (n i : Z) (s : estate) (j : Z) (s' : estate) : Prop :=
  i <= j /\ forall f r, run f j n s' = Ok r -> forall f', (f + Z.to_nat (j - i) <= f')%nat -> run f' i n s = Ok r.
Lemma goes_refl n i s : goes n i s i s.
Proof. split; [lia|]. intros f r H f' Hf. apply (run_more f); [exact H|lia]. Qed.
Lemma goes_trans n i s j s' k s'' : goes n i s j s' -> goes n j s' k s'' -> goes n i s k s''.
Proof.
  intros [L1 H1] [L2 H2]. split; [lia|]. intros f r H f' Hf. apply (H1 (f + Z.to_nat (k - j))%nat); [|lia]. apply (H2 f); [exact H|lia].
Qed.
Lemma goes_step n i s c s' j : i < n -> vget NS i = Ok c -> m_step c i s = Some (Ok (s', j)) -> i < j -> goes n i s j s'.
Proof.
  intros Hn Hc Hs Hj. split; [lia|]. intros f r H f' Hf. destruct f' as [|f']; [lia|]. cbn [ScriptModel.run].
  replace (n <=? i) with false by lia. rewrite Hc. cbn [obind]. rewrite Hs. cbn [obind fst snd]. apply (run_more f); [exact H|lia].
Qed.

(** * Single instructions *)
Lemma const_at_ok i k v : vget NS i = Ok k -> vget CS k = Ok v -> const_at NS CS i = Ok v.
Proof. intros H1 H2. unfold const_at. rewrite H1. cbn [obind]. exact H2. Qed.
Ltac step := unfold ScriptModel.m_step; cbn [op_bin op_const_left op_const_right op_un op_cmp Z.eqb Pos.eqb orb].
Lemma step_bin op i s x y d : second lo (dst s) = Ok x -> top lo (dst s) = Ok y -> set_second lo (dst s) (bin op x y) = Ok d ->
  m_step (op_bin op) i s = Some (Ok (with_d s (pop d), i + 1)).
Proof.
  intros H1 H2 H3. assert (H : m_bin lo op s = Ok (with_d s (pop d))) by (unfold m_bin; rewrite H1; cbn [obind]; rewrite H2; cbn [obind]; rewrite H3; reflexivity).
  destruct op; step; rewrite H; reflexivity.
Qed.
Lemma m_un_ok f s x d : top lo (dst s) = Ok x -> set_top lo (dst s) (f x) = Ok d -> m_un lo f s = Ok (with_d s d).
Proof. intros H1 H2. unfold m_un. rewrite H1. cbn [obind]. rewrite H2. reflexivity. Qed.
Lemma step_left op i s c x d : laws -> const_at NS CS (i + 1) = Ok c -> top lo (dst s) = Ok x -> set_top lo (dst s) (bin op c x) = Ok d ->
  m_step (op_const_left op) i s = Some (Ok (with_d s d, i + 2)).
Proof.
  intros [L1 L2 L3 L4 _] Hc Hx Hd.
  destruct op; step; rewrite Hc; cbn [obind]; rewrite (m_un_ok _ s x d Hx); try reflexivity; rewrite <- Hd; f_equal; cbn [bin]; auto.
  - symmetry. apply (L3 c x).
  - symmetry. apply (L4 c x).
Qed.
Lemma step_right op i s c x d : const_at NS CS (i + 1) = Ok c -> top lo (dst s) = Ok x -> set_top lo (dst s) (bin op x c) = Ok d ->
  m_step (op_const_right op) i s = Some (Ok (with_d s d, i + 2)).
Proof.
  intros Hc Hx Hd. destruct op; step; rewrite Hc; cbn [obind]; rewrite (m_un_ok _ s x d Hx); try reflexivity; rewrite <- Hd; reflexivity.
Qed.
Lemma step_un op i s x d : op <> UPlus -> top lo (dst s) = Ok x -> set_top lo (dst s) (un op x) = Ok d ->
  m_step (op_un op) i s = Some (Ok (with_d s d, i + 1)).
Proof. intros Hop Hx Hd. destruct op; [congruence|..]; step; (rewrite (m_un_ok _ s x d Hx); [reflexivity|exact Hd]). Qed.
Lemma step_spot i s d : push lo (spot smp) (dst s) = Ok d -> m_step 17 i s = Some (Ok (with_d s d, i + 1)).
Proof. intros H. step. unfold m_push. rewrite H. reflexivity. Qed.
Lemma step_var i s j v d : vget NS (i + 1) = Ok j -> vget (vars s) j = Ok v -> push lo v (dst s) = Ok d -> m_step 18 i s = Some (Ok (with_d s d, i + 2)).
Proof. intros H1 H2 H3. step. rewrite H1. cbn [obind]. rewrite H2. cbn [obind]. unfold m_push. rewrite H3. reflexivity. Qed.
Lemma step_const q i s c d : q = 19 \/ q = 39 -> const_at NS CS (i + 1) = Ok c -> push lo c (dst s) = Ok d -> m_step q i s = Some (Ok (with_d s d, i + 2)).
Proof. intros [-> | ->] H1 H2; step; rewrite H1; cbn [obind]; unfold m_push; rewrite H2; reflexivity. Qed.
Lemma step_cmp op i s x b d : top_and_pop lo (dst s) = Ok (x, d) -> push lo (test op x) (bst s) = Ok b ->
  m_step (op_cmp op) i s = Some (Ok (EState (vars s) d b, i + 1)).
Proof.
  intros H1 H2. assert (H : m_test lo op s = Ok (EState (vars s) d b)) by (unfold m_test; rewrite H1; cbn [obind fst snd]; rewrite H2; reflexivity).
  destruct op; step; rewrite H; reflexivity.
Qed.
Lemma step_bool (v : bool) i s b : push lo v (bst s) = Ok b -> m_step (if v then 37 else 38) i s = Some (Ok (with_b s b, i + 1)).
Proof. intros H. destruct v; step; unfold m_bool; rewrite H; reflexivity. Qed.

(** * Expressions *)
Lemma mark_value past env e v : marks_expr past smp env e -> ann_of e = Some v -> meaning past smp env e = v.
Proof. destruct e; cbn [marks_expr ann_of]; intros [H _] E; try discriminate; try rewrite E in H; try assumption; injection E as <-; exact H. Qed.
Variable nv : Z.
Variable consts : list num.
Hypothesis L : laws.
Lemma run_expr n e : forall k i s, at_ NS i (fst (xcode k e)) -> at_ CS k (snd (xcode k e)) -> i + zlen (fst (xcode k e)) <= n ->
  wf_expr nv consts e -> Z.of_nat (length (vars s)) = nv -> marks_expr false smp (vars s) e ->
  lo <= sp (dst s) + 1 -> sp (dst s) + need e < 128 ->
  exists d, goes n i s (i + zlen (fst (xcode k e))) (with_d s d) /\ pushes (dst s) (meaning false smp (vars s) e) d.
Proof.
  assert (Hconst : forall q v k i s, q = 19 \/ q = 39 -> at_ NS i [q; k] -> at_ CS k [v] -> i + zlen [q; k] <= n -> lo <= sp (dst s) + 1 < 128 ->
    exists d, goes n i s (i + zlen [q; k]) (with_d s d) /\ pushes (dst s) v d).
  { intros q v k i s Hq HN HC Hi Hd. apply at_cons in HN as [HN1 HN2]. apply at_cons in HN2 as [HN2 _]. apply at_cons in HC as [HC _].
    destruct (push_ok lo v (dst s) Hd) as (d & E & P). exists d. split; [|exact P]. rewrite !zlen_cons, zlen_nil in *.
    replace (i + (1 + (1 + 0))) with (i + 2) by lia.
    apply (goes_step n i s q); [lia|assumption| |lia]. apply (step_const q i s v); auto. eapply const_at_ok; eassumption. }
  induction e as [an op l r x Hl Hr Hx|an op x IH|an|v|an m j|m j v] using expr_ind'; intros k i s HN HC Hi Hwf Hnv Hm Hlo Hn.
  - cbn [wf_expr need marks_expr meaning ann_of] in *. destruct Hwf as (W1 & W2 & _). destruct Hm as (M0 & M1 & M2).
    pose proof (need_pos l). pose proof (need_pos r). cbn [xcode] in *.
    destruct an as [v|]; [subst v; apply Hconst; auto; lia|].
    destruct (ann_of l) as [v|] eqn:Al; [|destruct (ann_of r) as [v|] eqn:Ar].
    + cbn [fst snd] in *. apply at_app in HN as [HN1 HN2]. apply at_app in HC as [HC1 HC2]. rewrite zlen_app, !zlen_cons, zlen_nil in *.
      destruct (Hr k i s HN1 HC1 ltac:(lia) W2 Hnv M2 Hlo ltac:(lia)) as (d & G & P).
      assert (Hv : meaning false smp (vars s) l = v) by exact (mark_value _ _ _ _ M1 Al). 
      apply at_cons in HN2 as [HN2 HN3]. apply at_cons in HN3 as [HN3 _]. apply at_cons in HC2 as [HC2 _].
      destruct (set_top_ok lo _ (bin op v (meaning false smp (vars s) r)) _ _ P ltac:(lia)) as (d2 & E2 & P2).
      exists d2. split; [|rewrite Hv; exact P2]. eapply goes_trans; [exact G|].
      replace (i + (zlen (fst (xcode k r)) + (1 + (1 + 0)))) with (i + zlen (fst (xcode k r)) + 2) by lia.
      change (with_d s d2) with (with_d (with_d s d) d2).
      eapply goes_step; [|exact HN2| |lia]; [lia|]. eapply step_left; [exact L|eapply const_at_ok; eassumption|apply (top_ok lo _ _ _ P); lia|exact E2].
    + cbn [fst snd] in *. apply at_app in HN as [HN1 HN2]. apply at_app in HC as [HC1 HC2]. rewrite zlen_app, !zlen_cons, zlen_nil in *.
      destruct (Hl k i s HN1 HC1 ltac:(lia) W1 Hnv M1 Hlo ltac:(lia)) as (d & G & P).
      assert (Hv : meaning false smp (vars s) r = v) by exact (mark_value _ _ _ _ M2 Ar). 
      apply at_cons in HN2 as [HN2 HN3]. apply at_cons in HN3 as [HN3 _]. apply at_cons in HC2 as [HC2 _].
      destruct (set_top_ok lo _ (bin op (meaning false smp (vars s) l) v) _ _ P ltac:(lia)) as (d2 & E2 & P2).
      exists d2. split; [|rewrite Hv; exact P2]. eapply goes_trans; [exact G|].
      replace (i + (zlen (fst (xcode k l)) + (1 + (1 + 0)))) with (i + zlen (fst (xcode k l)) + 2) by lia.
      change (with_d s d2) with (with_d (with_d s d) d2).
      eapply goes_step; [|exact HN2| |lia]; [lia|]. eapply step_right; [eapply const_at_ok; eassumption|apply (top_ok lo _ _ _ P); lia|exact E2].
    + cbn [fst snd] in *. apply at_app in HN as [HN1 HN2]. apply at_app in HN2 as [HN2 HN3]. apply at_app in HC as [HC1 HC2]. rewrite !zlen_app, !zlen_cons, zlen_nil in *.
      pose proof (zlen_nonneg (fst (xcode (k + zlen (snd (xcode k l))) r))).
      destruct (Hl k i s HN1 HC1 ltac:(lia) W1 Hnv M1 Hlo ltac:(lia)) as (d & G & P). pose proof P as [Pd _].
      destruct (Hr _ _ (with_d s d) HN2 HC2 ltac:(lia) W2 Hnv M2 ltac:(cbn [with_d dst]; lia) ltac:(cbn [with_d dst]; lia)) as (d2 & G2 & P2).
      cbn [with_d dst vars] in *. apply at_cons in HN3 as [HN3 _].
      destruct (two_ok lo _ _ (bin op (meaning false smp (vars s) l) (meaning false smp (vars s) r)) _ _ _ P P2 ltac:(lia) ltac:(lia)) as (T1 & T2 & d3 & T3 & T4).
      exists (pop d3). split; [|exact T4]. eapply goes_trans; [exact G|]. eapply goes_trans; [exact G2|].
      set (c2 := xcode (k + zlen (snd (xcode k l))) r) in *.
      replace (i + (zlen (fst (xcode k l)) + (zlen (fst c2) + (1 + 0)))) with (i + zlen (fst (xcode k l)) + zlen (fst c2) + 1) by lia.
      change (with_d s (pop d3)) with (with_d (with_d s d2) (pop d3)).
      eapply goes_step; [|exact HN3| |lia]; [lia|]. eapply step_bin; [exact T1|exact T2|exact T3].
  - cbn [wf_expr need marks_expr meaning ann_of] in *. destruct Hm as [M0 M1]. pose proof (need_pos x).
    assert (Hgen : op <> UPlus -> an = None -> at_ NS i (fst (xcode k x) ++ [op_un op]) -> at_ CS k (snd (xcode k x)) -> i + zlen (fst (xcode k x) ++ [op_un op]) <= n ->
      exists d, goes n i s (i + zlen (fst (xcode k x) ++ [op_un op])) (with_d s d) /\ pushes (dst s) (un op (meaning false smp (vars s) x)) d).
    { clear HN HC Hi. intros Hop _ HN HC Hi. apply at_app in HN as [HN1 HN2]. rewrite zlen_app, !zlen_cons, zlen_nil in *.
      destruct (IH k i s HN1 HC ltac:(lia) Hwf Hnv M1 Hlo Hn) as (d & G & P). apply at_cons in HN2 as [HN2 _].
      destruct (set_top_ok lo _ (un op (meaning false smp (vars s) x)) _ _ P ltac:(lia)) as (d2 & E2 & P2).
      exists d2. split; [|exact P2]. eapply goes_trans; [exact G|].
      replace (i + (zlen (fst (xcode k x)) + (1 + 0))) with (i + zlen (fst (xcode k x)) + 1) by lia.
      change (with_d s d2) with (with_d (with_d s d) d2).
      eapply goes_step; [|exact HN2| |lia]; [lia|]. eapply step_un; [exact Hop|apply (top_ok lo _ _ _ P); lia|exact E2]. }
    destruct op; [destruct an; cbn [xcode] in *; apply IH; assumption|..];
      (destruct an as [v|]; cbn [xcode] in *; [subst v; apply Hconst; auto; lia|apply Hgen; auto; discriminate]).
  - cbn [xcode fst snd need meaning] in *. destruct (push_ok lo (spot smp) (dst s) ltac:(lia)) as (d & E & P). exists d. split; [|exact P].
    apply at_cons in HN as [HN _]. rewrite zlen_cons, zlen_nil in *. eapply goes_step; [|exact HN| |lia]; [lia|]. rewrite (step_spot i s d E). do 3 f_equal; lia.
  - cbn [xcode fst snd need meaning] in *. apply Hconst; auto; lia.
  - cbn [xcode fst snd need meaning wf_expr] in *. unfold lookup. destruct (push_ok lo (nth (Z.to_nat j) (vars s) n_zero) (dst s) ltac:(lia)) as (d & E & P).
    exists d. split; [|exact P]. apply at_cons in HN as [HN HN2]. apply at_cons in HN2 as [HN2 _]. rewrite !zlen_cons, zlen_nil in *.
    eapply goes_step; [|exact HN| |lia]; [lia|].
    rewrite (step_var i s j (nth (Z.to_nat j) (vars s) n_zero) d); [do 3 f_equal; lia|exact HN2|apply vget_ok; lia|exact E].
  - cbn [xcode fst snd need meaning] in *. apply Hconst; auto; lia.
Qed.

(** * Conditions *)
Lemma const_test_ok op v : const_test op v = test op v.
Proof. destruct op; cbn [const_test test]; try reflexivity. apply L. Qed.
Lemma run_cond n q : forall k i s, at_ NS i (fst (ccode k q)) -> at_ CS k (snd (ccode k q)) -> i + zlen (fst (ccode k q)) <= n ->
  wf_cond nv consts q -> Z.of_nat (length (vars s)) = nv -> marks_cond false smp (vars s) q ->
  lo <= sp (dst s) + 1 -> sp (dst s) + cneed q < 128 -> lo <= sp (bst s) + 1 -> sp (bst s) + bneed q < 128 ->
  exists d b, goes n i s (i + zlen (fst (ccode k q))) (EState (vars s) d b) /\ keeps (dst s) d /\ pushes (bst s) (truth false smp (vars s) q) b.
Proof.
  assert (Hbool : forall (v : bool) q i s, q = (if v then 37 else 38) -> at_ NS i [q] -> i + zlen [q] <= n -> lo <= sp (bst s) + 1 < 128 ->
    exists d b, goes n i s (i + zlen [q]) (EState (vars s) d b) /\ keeps (dst s) d /\ pushes (bst s) v b).
  { intros v q0 i s -> HN Hi Hb. destruct (push_ok lo v (bst s) Hb) as (b & E & P). exists (dst s), b. split; [|split; [apply keeps_refl|exact P]].
    apply at_cons in HN as [HN _]. rewrite zlen_cons, zlen_nil in *. eapply goes_step; [|exact HN| |lia]; [lia|]. rewrite (step_bool v i s b E). unfold with_b. do 3 f_equal; lia. }
  induction q as [f op z e|f x IHa y IHb|f x IHa y IHb|f x IHa| |]; intros k i s HN HC Hi Hwf Hnv Hm Hlo Hn Hblo Hbn;
    cbn [wf_cond marks_cond cneed bneed truth] in *.
  - pose proof (need_pos e). cbn [ccode] in *. destruct (ann_of e) as [v|] eqn:Ae.
    + assert (Hv : meaning false smp (vars s) e = v) by exact (mark_value _ _ _ _ Hm Ae).
      rewrite Hv. apply (Hbool _ (if const_test op v then 37 else 38)); [now rewrite const_test_ok|assumption|assumption|lia].
    + cbn [fst snd] in *. apply at_app in HN as [HN1 HN2]. rewrite zlen_app, zlen_cons, zlen_nil in *. apply at_cons in HN2 as [HN2 _].
      destruct (run_expr n e k i s HN1 HC ltac:(lia) Hwf Hnv Hm Hlo Hn) as (d & G & P). 
      destruct (top_and_pop_ok lo _ _ _ P ltac:(lia)) as [E1 K]. destruct (push_ok lo (test op (meaning false smp (vars s) e)) (bst s) ltac:(lia)) as (b & E2 & P2).
      exists (pop d), b. split; [|split; assumption]. eapply goes_trans; [exact G|]. eapply goes_step; [|exact HN2| |lia]; [lia|].
      rewrite (step_cmp op _ (with_d s d) _ b (pop d) E1 E2). do 3 f_equal; lia.
  - destruct Hwf as [W1 W2]. destruct Hm as [M1 M2]. pose proof (bneed_pos x). pose proof (bneed_pos y). pose proof (cneed_nonneg y).
    cbn [ccode fst snd] in *. apply at_app in HN as [HN1 HN2]. apply at_app in HN2 as [HN2 HN3]. apply at_app in HC as [HC1 HC2]. rewrite !zlen_app, !zlen_cons, zlen_nil in *.
    set (c2 := ccode (k + zlen (snd (ccode k x))) y) in *. pose proof (zlen_nonneg (fst c2)).
    destruct (IHa k i s HN1 HC1 ltac:(lia) W1 Hnv M1 Hlo ltac:(lia) Hblo ltac:(lia)) as (d1 & b1 & G1 & K1 & P1). pose proof P1 as [Q1 _]. pose proof K1 as [J1 _].
    destruct (IHb _ _ (EState (vars s) d1 b1) HN2 HC2 ltac:(unfold c2 in *; lia) W2 Hnv M2 ltac:(cbn; lia) ltac:(cbn; lia) ltac:(cbn; lia) ltac:(cbn; lia)) as (d2 & b2 & G2 & K2 & P2).
    cbn [dst bst vars] in *. apply at_cons in HN3 as [HN3 _].
    destruct (two_ok lo _ _ (truth false smp (vars s) y) _ _ _ P1 P2 ltac:(lia) ltac:(lia)) as (T1 & T2 & b3 & T3 & T4).
    set (b4 := if truth false smp (vars s) x then b3 else b2).
    exists d2, (pop b4). split; [|split; [eapply keeps_trans; eassumption|]].
    + eapply goes_trans; [exact G1|]. eapply goes_trans; [exact G2|]. fold c2. eapply goes_step; [|exact HN3| |lia]; [lia|].
      unfold ScriptModel.m_step. cbn [Z.eqb Pos.eqb orb bst]. rewrite T1. cbn [obind]. unfold b4. destruct (truth false smp (vars s) x).
      * rewrite T2. cbn [obind]. rewrite T3. cbn [obind]. unfold with_b. cbn [vars dst]. do 3 f_equal; lia.
      * cbn [obind]. unfold with_b. cbn [vars dst]. do 3 f_equal; lia.
    + unfold b4. destruct (truth false smp (vars s) x); [exact T4|]. cbn [andb]. destruct P2 as (Z1 & _ & Z2). destruct P1 as (Y1 & Y2 & Y3).
      split; [cbn; lia|]. split; [cbn [pop sp data]; rewrite Z2 by lia; replace (sp b2 - 1) with (sp b1) by lia; exact Y2|].
      intros w Hw. cbn [pop data]. rewrite Z2 by lia. apply Y3, Hw.
  - destruct Hwf as [W1 W2]. destruct Hm as [M1 M2]. pose proof (bneed_pos x). pose proof (bneed_pos y). pose proof (cneed_nonneg y).
    cbn [ccode fst snd] in *. apply at_app in HN as [HN1 HN2]. apply at_app in HN2 as [HN2 HN3]. apply at_app in HC as [HC1 HC2]. rewrite !zlen_app, !zlen_cons, zlen_nil in *.
    set (c2 := ccode (k + zlen (snd (ccode k x))) y) in *. pose proof (zlen_nonneg (fst c2)).
    destruct (IHa k i s HN1 HC1 ltac:(lia) W1 Hnv M1 Hlo ltac:(lia) Hblo ltac:(lia)) as (d1 & b1 & G1 & K1 & P1). pose proof P1 as [Q1 _]. pose proof K1 as [J1 _].
    destruct (IHb _ _ (EState (vars s) d1 b1) HN2 HC2 ltac:(unfold c2 in *; lia) W2 Hnv M2 ltac:(cbn; lia) ltac:(cbn; lia) ltac:(cbn; lia) ltac:(cbn; lia)) as (d2 & b2 & G2 & K2 & P2).
    cbn [dst bst vars] in *. apply at_cons in HN3 as [HN3 _].
    destruct (two_ok lo _ _ (truth false smp (vars s) y) _ _ _ P1 P2 ltac:(lia) ltac:(lia)) as (T1 & T2 & b3 & T3 & T4).
    set (b4 := if truth false smp (vars s) x then b2 else b3).
    exists d2, (pop b4). split; [|split; [eapply keeps_trans; eassumption|]].
    + eapply goes_trans; [exact G1|]. eapply goes_trans; [exact G2|]. fold c2. eapply goes_step; [|exact HN3| |lia]; [lia|].
      unfold ScriptModel.m_step. cbn [Z.eqb Pos.eqb orb bst]. rewrite T1. cbn [obind]. unfold b4. destruct (truth false smp (vars s) x); cbn [negb].
      * cbn [obind]. unfold with_b. cbn [vars dst]. do 3 f_equal; lia.
      * rewrite T2. cbn [obind]. rewrite T3. cbn [obind]. unfold with_b. cbn [vars dst]. do 3 f_equal; lia.
    + unfold b4. destruct (truth false smp (vars s) x); [|exact T4]. cbn [orb]. destruct P2 as (Z1 & _ & Z2). destruct P1 as (Y1 & Y2 & Y3).
      split; [cbn; lia|]. split; [cbn [pop sp data]; rewrite Z2 by lia; replace (sp b2 - 1) with (sp b1) by lia; exact Y2|].
      intros w Hw. cbn [pop data]. rewrite Z2 by lia. apply Y3, Hw.
  - pose proof (bneed_pos x). cbn [ccode fst snd] in *. apply at_app in HN as [HN1 HN2]. rewrite zlen_app, zlen_cons, zlen_nil in *. apply at_cons in HN2 as [HN2 _].
    destruct (IHa k i s HN1 HC ltac:(lia) Hwf Hnv Hm Hlo Hn Hblo Hbn) as (d1 & b1 & G1 & K1 & P1).
    destruct (set_top_ok lo _ (negb (truth false smp (vars s) x)) _ _ P1 ltac:(lia)) as (b2 & E2 & P2).
    exists d1, b2. split; [|split; assumption]. eapply goes_trans; [exact G1|]. eapply goes_step; [|exact HN2| |lia]; [lia|].
    unfold ScriptModel.m_step. cbn [Z.eqb Pos.eqb orb bst]. rewrite (top_ok lo _ _ _ P1) by lia. cbn [obind]. rewrite E2. cbn [obind]. unfold with_b. cbn [vars dst]. do 3 f_equal; lia.
  - apply (Hbool true); auto; lia.
  - apply (Hbool false); auto; lia.
Qed.

(** * Statements *)
Definition runs (n : Z) (st : stmt) : Prop := forall k i s est est', at_ NS i (fst (scode i k st)) -> at_ CS k (snd (scode i k st)) ->
  i + zlen (fst (scode i k st)) <= n -> wf_stmt nv consts st -> fits 128 st -> Z.of_nat (length (vars s)) = nv -> marks_stmt false smp (vars s) st ->
  low lo est st = Some est' -> est <= sp (bst s) <= -1 -> sp (dst s) = -1 ->
  exists d b, goes n i s (i + zlen (fst (scode i k st))) (EState (exec false smp st (vars s)) d b) /\ est' <= sp b <= -1 /\ sp d = -1.
Hypothesis Hlo : lo <= 0.
Lemma run_all_from n l : Forall (runs n) l -> forall k i s est est', at_ NS i (fst (acode i k l)) -> at_ CS k (snd (acode i k l)) ->
  i + zlen (fst (acode i k l)) <= n -> wf_all nv consts l -> fits_all 128 l -> Z.of_nat (length (vars s)) = nv -> marks_all false smp (vars s) l ->
  low_all lo est l = Some est' -> est <= sp (bst s) <= -1 -> sp (dst s) = -1 ->
  exists d b, goes n i s (i + zlen (fst (acode i k l))) (EState (exec_all false smp l (vars s)) d b) /\ est' <= sp b <= -1 /\ sp d = -1.
Proof.
  induction 1 as [|x l Hx Hl IH]; intros k i s est est' HN HC Hi Hw Hf Hnv Hm Hlow Hb Hd; cbn [acode marks_all low_all] in *.
  - injection Hlow as <-. exists (dst s), (bst s). cbn [fst]. rewrite zlen_nil, Z.add_0_r. split; [|auto]. destruct s. apply goes_refl.
  - inversion Hw; inversion Hf; subst. destruct Hm as [M1 M2]. cbn [fst snd] in *. apply at_app in HN as [HN1 HN2]. apply at_app in HC as [HC1 HC2]. rewrite !zlen_app in *.
    destruct (low lo est x) as [e1|] eqn:E1; [|discriminate].
    set (d2 := acode (i + zlen (fst (scode i k x))) (k + zlen (snd (scode i k x))) l) in *. pose proof (zlen_nonneg (fst d2)).
    destruct (Hx k i s est e1 HN1 HC1 ltac:(lia)) as (d1 & b1 & G1 & B1 & D1); auto.
    destruct (IH _ _ (EState (exec false smp x (vars s)) d1 b1) e1 est' HN2 HC2 ltac:(unfold d2 in *; lia)) as (d3 & b3 & G3 & B3 & D3); auto.
    { cbn [vars]. erewrite exec_length; eauto. }
    exists d3, b3. split; [|auto]. eapply goes_trans; [exact G1|]. fold d2 in G3. replace (i + (zlen (fst (scode i k x)) + zlen (fst d2))) with (i + zlen (fst (scode i k x)) + zlen (fst d2)) by lia. exact G3.
Qed.
Lemma run_stmt st : forall n, runs n st.
Proof.
  induction st as [v e|v e|f af c t Ht|f af c t l Ht Hl|l Hl] using stmt_ind'; intros n k i s est est' HN HC Hi Hwf Hfit Hnv Hm Hlow Hb Hd.
  - cbn [wf_stmt fits marks_stmt low scode exec] in *. injection Hlow as <-. destruct Hwf as [W1 W2]. pose proof (need_pos e).
    destruct v as [a m j|]; cbn [wf_lhs lhs_index] in *; [|destruct W1].
    destruct (ann_of e) as [v|] eqn:Ae.
    + assert (Hv : meaning false smp (vars s) e = v) by exact (mark_value _ _ _ _ Hm Ae). rewrite Hv.
      cbn [fst snd] in *. apply at_cons in HN as [HN1 HN2]. apply at_cons in HN2 as [HN2 HN3]. apply at_cons in HN3 as [HN3 _]. apply at_cons in HC as [HC _].
      rewrite !zlen_cons, zlen_nil in *. exists (dst s), (bst s). split; [|auto]. eapply goes_step; [|exact HN1| |lia]; [lia|].
      unfold ScriptModel.m_step. cbn [Z.eqb Pos.eqb orb]. rewrite (const_at_ok _ _ _ HN2 HC). cbn [obind]. replace (i + 2) with (i + 1 + 1) by lia. rewrite HN3. cbn [obind].
      rewrite vput_ok by lia. cbn [obind]. do 3 f_equal; lia.
    + cbn [fst snd] in *. apply at_app in HN as [HN1 HN2]. rewrite zlen_app, !zlen_cons, zlen_nil in *. apply at_cons in HN2 as [HN2 HN3]. apply at_cons in HN3 as [HN3 _].
      destruct (run_expr n e k i s HN1 HC ltac:(lia) W2 Hnv Hm ltac:(lia) ltac:(lia)) as (d & G & P).
      destruct (top_and_pop_ok lo _ _ _ P ltac:(lia)) as [E1 [K _]]. exists (pop d), (bst s). split; [|split; [assumption|lia]]. eapply goes_trans; [exact G|].
      eapply goes_step; [|exact HN2| |lia]; [lia|]. unfold ScriptModel.m_step. cbn [Z.eqb Pos.eqb orb with_d dst vars bst]. rewrite HN3. cbn [obind]. rewrite E1. cbn [obind fst snd].
      rewrite vput_ok by lia. cbn [obind]. do 3 f_equal; lia.
  - cbn [wf_stmt fits marks_stmt low scode exec] in *. injection Hlow as <-. destruct Hwf as [W1 W2]. pose proof (need_pos e).
    destruct v as [a m j|]; cbn [wf_lhs lhs_index] in *; [|destruct W1].
    destruct (ann_of e) as [v|] eqn:Ae.
    + assert (Hv : meaning false smp (vars s) e = v) by exact (mark_value _ _ _ _ Hm Ae). rewrite Hv.
      cbn [fst snd] in *. apply at_cons in HN as [HN1 HN2]. apply at_cons in HN2 as [HN2 HN3]. apply at_cons in HN3 as [HN3 _]. apply at_cons in HC as [HC _].
      rewrite !zlen_cons, zlen_nil in *. exists (dst s), (bst s). split; [|auto]. eapply goes_step; [|exact HN1| |lia]; [lia|].
      unfold ScriptModel.m_step. cbn [Z.eqb Pos.eqb orb]. rewrite (const_at_ok _ _ _ HN2 HC). cbn [obind]. replace (i + 2) with (i + 1 + 1) by lia. rewrite HN3. cbn [obind].
      rewrite (vget_ok _ _ n_zero) by lia. cbn [obind]. rewrite vput_ok by lia. cbn [obind]. do 3 f_equal; lia.
    + cbn [fst snd] in *. apply at_app in HN as [HN1 HN2]. rewrite zlen_app, !zlen_cons, zlen_nil in *. apply at_cons in HN2 as [HN2 HN3]. apply at_cons in HN3 as [HN3 _].
      destruct (run_expr n e k i s HN1 HC ltac:(lia) W2 Hnv Hm ltac:(lia) ltac:(lia)) as (d & G & P).
      destruct (top_and_pop_ok lo _ _ _ P ltac:(lia)) as [E1 [K _]]. exists (pop d), (bst s). split; [|split; [assumption|lia]]. eapply goes_trans; [exact G|].
      eapply goes_step; [|exact HN2| |lia]; [lia|]. unfold ScriptModel.m_step. cbn [Z.eqb Pos.eqb orb with_d dst vars bst]. rewrite HN3. cbn [obind]. rewrite E1. cbn [obind fst snd].
      rewrite (vget_ok _ _ n_zero) by lia. cbn [obind]. rewrite vput_ok by lia. cbn [obind]. do 3 f_equal; lia.
  - cbn [wf_stmt fits] in Hwf, Hfit. destruct Hwf as (W1 & W2 & _). destruct Hfit as (F1 & F2 & F3 & _). rewrite F_iff in W2, F3.
    change (low lo est (SIf f af c t None)) with (if lo <=? est + 1 then match low_all lo est t with None => None | Some e => Some (Z.min est e) end else None) in Hlow.
    change (marks_stmt false smp (vars s) (SIf f af c t None)) with (marks_cond false smp (vars s) c /\ if truth false smp (vars s) c then marks_all false smp (vars s) t else True) in Hm.
    change (scode i k (SIf f af c t None)) with
      (let x := ccode k c in let i1 := i + zlen (fst x) + 2 in let y := acode i1 (k + zlen (snd x)) t in
       (fst x ++ [24; i1 + zlen (fst y)] ++ fst y, snd x ++ snd y)) in *.
    destruct (lo <=? est + 1) eqn:El; [|discriminate]. destruct (low_all lo est t) as [e1|] eqn:Et; [|discriminate]. injection Hlow as <-. destruct Hm as [M1 M2].
    cbv zeta in *. set (x := ccode k c) in *. set (y := acode (i + zlen (fst x) + 2) (k + zlen (snd x)) t) in *. cbn [fst snd] in *.
    apply at_app in HN as [HN1 HN2]. cbn [app] in HN2. apply at_cons in HN2 as [HN2 HN3]. apply at_cons in HN3 as [HN3 HN4]. apply at_app in HC as [HC1 HC2].
    rewrite !zlen_app, !zlen_cons, zlen_nil in *. pose proof (zlen_nonneg (fst y)). pose proof (zlen_nonneg (fst x)). pose proof (cneed_nonneg c). pose proof (bneed_pos c).
    destruct (run_cond n c k i s HN1 HC1 ltac:(unfold x in *; lia) W1 Hnv M1 ltac:(lia) ltac:(lia) ltac:(lia) ltac:(lia)) as (d1 & b1 & G1 & [K1 _] & P1). fold x in G1.
    pose proof (pop_pushes _ _ _ P1) as [K2 _].
    assert (Htop : top lo b1 = Ok (truth false smp (vars s) c)) by (apply (top_ok lo _ _ _ P1); lia).
    cbn [exec]. fold (exec_all false smp t (vars s)). destruct (truth false smp (vars s) c) eqn:Tc.
    + destruct (run_all_from n t ltac:(eapply Forall_impl; [|exact Ht]; intros a Ha; apply Ha) _ _ (EState (vars s) d1 (pop b1)) est e1
        ltac:(replace (i + zlen (fst x) + 1 + 1) with (i + zlen (fst x) + 2) in HN4 by lia; exact HN4) HC2) as (d2 & b2 & G2 & B2 & D2); auto.
      { fold y. lia. } { cbn [bst]. lia. } { cbn [dst]. lia. }
      exists d2, b2. split; [|split; [lia|assumption]]. eapply goes_trans; [exact G1|]. fold y in G2.
      replace (i + (zlen (fst x) + (1 + (1 + 0) + zlen (fst y)))) with (i + zlen (fst x) + 2 + zlen (fst y)) by lia.
      eapply goes_trans; [|exact G2]. split; [lia|]. intros fu r Hr fu' Hfu. destruct fu' as [|fu']; [lia|]. cbn [ScriptModel.run].
      replace (n <=? i + zlen (fst x)) with false by lia. rewrite HN2. cbn [obind]. unfold ScriptModel.m_step. cbn [Z.eqb Pos.eqb orb bst]. rewrite Htop. cbn [obind].
      apply (run_more fu); [|lia]. exact Hr.
    + exists d1, (pop b1). split; [|split; lia]. eapply goes_trans; [exact G1|].
      replace (i + (zlen (fst x) + (1 + (1 + 0) + zlen (fst y)))) with (i + zlen (fst x) + 2 + zlen (fst y)) by lia.
      split; [lia|]. intros fu r Hr fu' Hfu. destruct fu' as [|fu']; [lia|]. cbn [ScriptModel.run].
      replace (n <=? i + zlen (fst x)) with false by lia. rewrite HN2. cbn [obind]. unfold ScriptModel.m_step. cbn [Z.eqb Pos.eqb orb bst]. rewrite Htop. cbn [obind].
      rewrite HN3. cbn [obind]. apply (run_more fu); [|lia]. exact Hr.
  - cbn [wf_stmt fits] in Hwf, Hfit. destruct Hwf as (W1 & W2 & W3). destruct Hfit as (F1 & F2 & F3 & F4). rewrite F_iff in W2, F3, W3, F4.
    change (low lo est (SIf f af c t (Some l))) with (if lo <=? est + 1 then
        match low_all lo (-1) t, low_all lo est l with Some a, Some b => Some (Z.min (a - 1) b) | _, _ => None end else None) in Hlow.
    change (marks_stmt false smp (vars s) (SIf f af c t (Some l))) with
      (marks_cond false smp (vars s) c /\ if truth false smp (vars s) c then marks_all false smp (vars s) t else marks_all false smp (vars s) l) in Hm.
    change (scode i k (SIf f af c t (Some l))) with
      (let x := ccode k c in let i1 := i + zlen (fst x) + 3 in let y := acode i1 (k + zlen (snd x)) t in
       let z := acode (i1 + zlen (fst y)) (k + zlen (snd x) + zlen (snd y)) l in
       (fst x ++ [25; i1 + zlen (fst y); i1 + zlen (fst y) + zlen (fst z)] ++ fst y ++ fst z, snd x ++ snd y ++ snd z)) in *.
    destruct (lo <=? est + 1) eqn:El; [|discriminate]. destruct (low_all lo (-1) t) as [e1|] eqn:Et; [|discriminate]. destruct (low_all lo est l) as [e2|] eqn:E2; [|discriminate].
    injection Hlow as <-. destruct Hm as [M1 M2].
    cbv zeta in *. set (x := ccode k c) in *. set (y := acode (i + zlen (fst x) + 3) (k + zlen (snd x)) t) in *.
    set (z := acode (i + zlen (fst x) + 3 + zlen (fst y)) (k + zlen (snd x) + zlen (snd y)) l) in *. cbn [fst snd] in *.
    apply at_app in HN as [HN1 HN2]. cbn [app] in HN2. apply at_cons in HN2 as [HN2 HN3]. apply at_cons in HN3 as [HN3 HN4]. apply at_cons in HN4 as [HN4 HN5]. apply at_app in HN5 as [HN5 HN6].
    apply at_app in HC as [HC1 HC2]. apply at_app in HC2 as [HC2 HC3].
    rewrite ?zlen_app, ?zlen_cons, ?zlen_nil in *. pose proof (zlen_nonneg (fst y)). pose proof (zlen_nonneg (fst x)). pose proof (zlen_nonneg (fst z)). pose proof (cneed_nonneg c). pose proof (bneed_pos c).
    pose proof (at_bound _ _ _ HN1) as [Hi0 _].
    destruct (run_cond n c k i s HN1 HC1 ltac:(unfold x in *; lia) W1 Hnv M1 ltac:(lia) ltac:(lia) ltac:(lia) ltac:(lia)) as (d1 & b1 & G1 & [K1 _] & P1). fold x in G1.
    pose proof (pop_pushes _ _ _ P1) as [K2 _].
    assert (Htop : top lo b1 = Ok (truth false smp (vars s) c)) by (apply (top_ok lo _ _ _ P1); lia).
    replace (i + zlen (fst x) + 1 + 1 + 1) with (i + zlen (fst x) + 3) in HN5, HN6 by lia.
    replace (i + zlen (fst x) + 1 + 1) with (i + zlen (fst x) + 2) in HN4 by lia.
    set (i1 := i + zlen (fst x) + 3) in *. replace (i + (zlen (fst x) + (1 + (1 + (1 + 0)) + (zlen (fst y) + zlen (fst z))))) with (i1 + zlen (fst y) + zlen (fst z)) in * by lia.
    cbn [exec]. fold (exec_all false smp t (vars s)). fold (exec_all false smp l (vars s)). destruct (truth false smp (vars s) c) eqn:Tc.
    + destruct (run_all_from (i1 + zlen (fst y)) t ltac:(eapply Forall_impl; [|exact Ht]; intros a Ha; apply Ha) _ _ (EState (vars s) (reset d1) (reset b1)) (-1) e1 HN5 HC2) as (d2 & b2 & G2 & B2 & D2); auto.
      { fold y. lia. } { cbn [bst reset sp]. lia. }
      fold y in G2. exists d2, (pop b2). split; [|split; [cbn [pop sp]; lia|assumption]]. eapply goes_trans; [exact G1|].
      split; [lia|]. intros fu r Hr fu' Hfu. destruct fu' as [|fu']; [lia|]. cbn [ScriptModel.run].
      replace (n <=? i + zlen (fst x)) with false by lia. rewrite HN2. cbn [obind]. unfold ScriptModel.m_step. cbn [Z.eqb Pos.eqb orb bst]. rewrite Htop. cbn [obind].
      rewrite HN3. cbn [obind]. rewrite HN4. cbn [obind]. replace (i1 + zlen (fst y) =? 0) with false by lia. replace (i + zlen (fst x) + 3) with i1 by reflexivity.
      destruct G2 as [G2a G2b]. cbn [vars dst] in *. rewrite (G2b 1%nat (EState (exec_all false smp t (vars s)) d2 b2)).
      * cbn [obind bst with_b vars dst]. apply (run_more fu); [|lia]. exact Hr.
      * cbn [ScriptModel.run]. now replace (i1 + zlen (fst y) <=? i1 + zlen (fst y)) with true by lia.
      * lia.
    + destruct (run_all_from n l ltac:(eapply Forall_impl; [|exact Hl]; intros a Ha; apply Ha) _ _ (EState (vars s) d1 (pop b1)) est e2 HN6 HC3) as (d2 & b2 & G2 & B2 & D2); auto.
      { cbn [bst]. lia. } { cbn [dst]. lia. }
      fold z in G2. exists d2, b2. split; [|split; [lia|assumption]]. eapply goes_trans; [exact G1|]. eapply goes_trans; [|exact G2].
      split; [lia|]. intros fu r Hr fu' Hfu. destruct fu' as [|fu']; [lia|]. cbn [ScriptModel.run].
      replace (n <=? i + zlen (fst x)) with false by lia. rewrite HN2. cbn [obind]. unfold ScriptModel.m_step. cbn [Z.eqb Pos.eqb orb bst]. rewrite Htop. cbn [obind].
      rewrite HN3. cbn [obind]. apply (run_more fu); [|lia]. exact Hr.
  - cbn [wf_stmt fits] in Hwf, Hfit. rewrite F_iff in Hwf, Hfit.
    apply (run_all_from n l ltac:(eapply Forall_impl; [|exact Hl]; intros a Ha; apply Ha) k i s est est'); assumption.
Qed.
Lemma run_all n l k i s est est' : at_ NS i (fst (acode i k l)) -> at_ CS k (snd (acode i k l)) ->
  i + zlen (fst (acode i k l)) <= n -> wf_all nv consts l -> fits_all 128 l -> Z.of_nat (length (vars s)) = nv -> marks_all false smp (vars s) l ->
  low_all lo est l = Some est' -> est <= sp (bst s) <= -1 -> sp (dst s) = -1 ->
  exists d b, goes n i s (i + zlen (fst (acode i k l))) (EState (exec_all false smp l (vars s)) d b) /\ est' <= sp b <= -1 /\ sp d = -1.
Proof. apply run_all_from. apply Forall_forall. intros x _. apply run_stmt. Qed.
End Machine.

Section Events.
Context {N : Num}.
Lemma eval_compiled_ok lo consts evt smp fuel s est : laws -> lo <= 0 -> wf_all (Z.of_nat (length (vars s))) consts evt -> fits_all 128 evt ->
  marks_all false smp (vars s) evt -> low_all lo (-1) evt = Some est ->
  (length (fst (comp_all evt ([], []))) < fuel)%nat ->
  exists s', eval_compiled lo (fst (comp_all evt ([], []))) (snd (comp_all evt ([], []))) smp fuel s = Ok s' /\ vars s' = exec_all false smp evt (vars s).
Proof.
  intros HL Hlo Hw Hf Hm Hlow Hfuel. rewrite (comp_all_code evt [] []) in *. cbn [app fst snd] in *.
  change (acode (zlen []) (zlen []) evt) with (acode 0 0 evt) in *. set (c := acode 0 0 evt) in *. unfold eval_compiled.
  destruct (run_all lo (fst c) (snd c) smp (Z.of_nat (length (vars s))) consts HL Hlo (zlen (fst c)) evt 0 0
     (EState (vars s) (reset (dst s)) (reset (bst s))) (-1) est) as (d & b & [_ G] & _); fold c; auto; try (cbn; lia).
  { exists [], []. rewrite app_nil_r. auto. } { exists [], []. rewrite app_nil_r. auto. }
  cbn [vars] in G. fold c in G. exists (EState (exec_all false smp evt (vars s)) d b). split; [|reflexivity].
  change (Z.of_nat (length (fst c))) with (zlen (fst c)). apply (G 1%nat).
  - cbn [ScriptModel.run]. now replace (zlen (fst c) <=? 0 + zlen (fst c)) with true by lia.
  - unfold zlen. lia.
Qed.
(** the marks along a product *)
Fixpoint marks_events (events : list (list stmt)) (scenario : list sample) (env : list num) : Prop :=
  match events, scenario with
  | evt :: r, smp :: ss => marks_all false smp env evt /\ marks_events r ss (exec_all false smp evt env)
  | _, _ => True
  end.
Lemma run_events_ok lo consts nv fuel events : forall scenario pre s, laws -> lo <= 0 -> Forall (wf_all nv consts) events -> Forall (fits_all 128) events ->
  Z.of_nat (length (vars s)) = nv -> marks_events events scenario (vars s) -> Forall (fun evt => low_all lo (-1) evt <> None) events ->
  Forall (fun evt => (length (fst (comp_all evt ([], []))) < fuel)%nat) events -> (length events <= length scenario)%nat ->
  exists s', run_events lo fuel (pre ++ scenario) (length pre) events s = Ok s' /\ vars s' = exec_events events scenario (vars s).
Proof.
  induction events as [|evt r IH]; intros scenario pre s HL Hlo Hw Hf Hnv Hm Hlow Hfu Hlen; cbn [run_events exec_events]; [eauto|].
  destruct scenario as [|smp scenario]; cbn [length] in Hlen; [lia|]. cbn [marks_events] in Hm. destruct Hm as [M1 M2].
  apply Forall_cons_iff in Hw as [Hw1 Hw2]. apply Forall_cons_iff in Hf as [Hf1 Hf2]. apply Forall_cons_iff in Hlow as [Ho1 Ho2]. apply Forall_cons_iff in Hfu as [Hu1 Hu2]. subst nv.
  destruct (low_all lo (-1) evt) as [est|] eqn:Eo; [|congruence].
  destruct (eval_compiled_ok lo consts evt smp fuel s est HL Hlo Hw1 Hf1 M1 Eo Hu1) as (s1 & E1 & V1).
  destruct (comp_all evt ([], [])) as [nodes cs]. cbn [fst snd] in *.
  assert (Hnth : nth_error (pre ++ smp :: scenario) (length pre) = Some smp) by (rewrite nth_error_app2, Nat.sub_diag by lia; reflexivity).
  rewrite Hnth, E1. cbn [obind].
  destruct (IH scenario (pre ++ [smp]) s1) as (s2 & E2 & V2); auto.
  { rewrite V1. erewrite exec_all_length; eauto. } { rewrite V1. exact M2. } { lia. }
  rewrite <- app_assoc, app_length in E2. cbn [app length] in E2. rewrite Nat.add_1_r in E2. exists s2. split; [exact E2|]. now rewrite V2, V1.
Qed.
End Events.

(** * How low the truth-value stack goes *)
Section Low.
Context {N : Num}.
Variable lo : Z.
Definition stays (s : stmt) : Prop := forall D est, else_depth s <= D -> lo <= - D -> -1 - D <= est -> exists e, low lo est s = Some e /\ -1 - D <= e.
Lemma depth_all_le l D : fold_right (fun s n => Z.max (else_depth s) n) 0 l <= D -> Forall (fun s => else_depth s <= D) l.
Proof. induction l as [|x l IH]; cbn [fold_right]; intros H; constructor; [lia|]. apply IH. lia. Qed.
Lemma stays_all l : Forall stays l -> forall D est, Forall (fun s => else_depth s <= D) l -> lo <= - D -> -1 - D <= est ->
  exists e, low_all lo est l = Some e /\ -1 - D <= e.
Proof.
  induction 1 as [|x l Hx _ IH]; intros D est Hd HD He; cbn [low_all]; [eauto|]. apply Forall_cons_iff in Hd as [H1 H2].
  destruct (Hx D est H1 HD He) as (e & -> & Hge). apply IH; assumption.
Qed.
Lemma depth_fold_nonneg l : 0 <= fold_right (fun s n => Z.max (else_depth s) n) 0 l.
Proof. induction l; cbn [fold_right]; lia. Qed.
Lemma stays_stmt s : stays s.
Proof.
  induction s as [v e|v e|f af c t Ht|f af c t l Ht Hl|l Hl] using stmt_ind'; intros D est Hd HD He; cbn [else_depth] in Hd.
  - exists est. auto.
  - exists est. auto.
  - change (low lo est (SIf f af c t None)) with (if lo <=? est + 1 then match low_all lo est t with None => None | Some e => Some (Z.min est e) end else None).
    replace (lo <=? est + 1) with true by lia. destruct (stays_all t Ht D est (depth_all_le _ _ Hd) HD He) as (e & -> & Hge). eexists. split; [reflexivity|]. lia.
  - change (low lo est (SIf f af c t (Some l))) with (if lo <=? est + 1 then
        match low_all lo (-1) t, low_all lo est l with Some a, Some b => Some (Z.min (a - 1) b) | _, _ => None end else None).
    replace (lo <=? est + 1) with true by lia. pose proof (depth_fold_nonneg t).
    set (dt := fold_right (fun s n => Z.max (else_depth s) n) 0 t) in *. set (dl := fold_right (fun s n => Z.max (else_depth s) n) 0 l) in *.
    destruct (stays_all t Ht dt (-1) (depth_all_le t dt ltac:(lia)) ltac:(lia) ltac:(lia)) as (a & -> & Ha).
    destruct (stays_all l Hl D est (depth_all_le l D ltac:(unfold dl in *; lia)) HD He) as (b & -> & Hb). eexists. split; [reflexivity|]. lia.
  - apply (stays_all l Hl D est (depth_all_le _ _ Hd) HD He).
Qed.
Lemma low_deep l : Forall (fun s => lo <= - else_depth s) l -> lo <= 0 -> low_all lo (-1) l <> None.
Proof.
  intros H Hlo. destruct (stays_all l ltac:(apply Forall_forall; intros; apply stays_stmt) (- lo) (-1)) as (e & -> & _); try lia; [|discriminate].
  eapply Forall_impl; [|exact H]. cbn. intros; lia.
Qed.
Lemma no_else_depth s : no_else s = true -> else_depth s = 0.
Proof.
  assert (HF : forall l, Forall (fun s => no_else s = true -> else_depth s = 0) l -> forallb no_else l = true -> fold_right (fun s n => Z.max (else_depth s) n) 0 l = 0).
  { induction 1 as [|x l Hx _ IH]; cbn [forallb fold_right]; [reflexivity|]. intros H. apply andb_true_iff in H as [H1 H2]. rewrite Hx, IH by assumption. reflexivity. }
  induction s as [v e|v e|f af c t Ht|f af c t l Ht Hl|l Hl] using stmt_ind'; cbn [no_else else_depth]; intros H; try reflexivity; try discriminate; apply HF; assumption.
Qed.
End Low.
