(** The constant processor only writes marks, and the marks it writes are right. *)
From Coq Require Import ZArith List Bool Lia ZifyBool.
From Verif Require Import Base StringModel ScriptModel ScriptSpec ScriptEval ScriptCompile ScriptMachine.
Import ListNotations.
Open Scope Z_scope.

Section Const.
Context {N : Num}.
(** * Trees without their marks *)
Fixpoint bare_expr (e : expr) : expr :=
  match e with
  | EBin _ op l r x => EBin None op (bare_expr l) (bare_expr r) (map bare_expr x)
  | EUn _ op x => EUn None op (bare_expr x)
  | ESpot _ => ESpot None
  | EConst v => EConst v
  | EVar _ n i => EVar None n i
  | EConstVar n i v => EConstVar n i v
  end.
Fixpoint bare_cond (c : cond) : cond :=
  match c with
  | CCmp f op z e => CCmp f op z (bare_expr e)
  | CAnd f a b => CAnd f (bare_cond a) (bare_cond b)
  | COr f a b => COr f (bare_cond a) (bare_cond b)
  | CNot f a => CNot f (bare_cond a)
  | CTrue => CTrue
  | CFalse => CFalse
  end.
Fixpoint bare_stmt (s : stmt) : stmt :=
  match s with
  | SAssign v e => SAssign v (bare_expr e)
  | SPays v e => SPays v (bare_expr e)
  | SIf f af c t e => SIf f af (bare_cond c) (map bare_stmt t) (option_map (map bare_stmt) e)
  | SCollect l => SCollect (map bare_stmt l)
  end.
Lemma map_id_Forall {A B} (f g : A -> B) l : Forall (fun x => f x = g x) l -> map f l = map g l.
Proof. induction 1; cbn [map]; congruence. Qed.

Section Inv.
Variables (past : bool) (smp : sample).
Lemma bare_meaning env e : meaning past smp env (bare_expr e) = meaning past smp env e.
Proof. induction e using expr_ind'; cbn [bare_expr meaning]; congruence. Qed.
Lemma bare_truth env c : truth past smp env (bare_cond c) = truth past smp env c.
Proof. induction c; cbn [bare_cond truth]; rewrite ?bare_meaning; congruence. Qed.
Lemma fold_map_exec l : Forall (fun s => forall env, exec past smp (bare_stmt s) env = exec past smp s env) l ->
  forall env, fold_left (fun env s => exec past smp s env) (map bare_stmt l) env = fold_left (fun env s => exec past smp s env) l env.
Proof. induction 1 as [|x l Hx _ IH]; intros env; cbn [map fold_left]; [reflexivity|]. now rewrite Hx, IH. Qed.
Lemma bare_exec s : forall env, exec past smp (bare_stmt s) env = exec past smp s env.
Proof.
  induction s as [v e|v e|f af c t Ht|f af c t l Ht Hl|l Hl] using stmt_ind'; intros env; cbn [bare_stmt exec option_map]; rewrite ?bare_meaning, ?bare_truth; auto.
  - rewrite fold_map_exec by assumption. reflexivity.
  - now rewrite !fold_map_exec by assumption.
  - now apply fold_map_exec.
Qed.
Lemma bare_exec_all l env : exec_all past smp (map bare_stmt l) env = exec_all past smp l env.
Proof. apply fold_map_exec. apply Forall_forall. intros x _. apply bare_exec. Qed.
End Inv.
Lemma bare_exec_events events : forall scenario env, exec_events (map (map bare_stmt) events) scenario env = exec_events events scenario env.
Proof. induction events as [|e r IH]; intros [|s ss] env; cbn [map exec_events]; auto. now rewrite bare_exec_all, IH. Qed.
Lemma F_map {A} (f : A -> A) (P Q : A -> Prop) l : Forall (fun x => P (f x) <-> Q x) l ->
  fold_right (fun x R => P x /\ R) True (map f l) <-> fold_right (fun x R => Q x /\ R) True l.
Proof. induction 1 as [|x l Hx _ IH]; cbn [map fold_right]; tauto. Qed.
Section Wf.
Variables (nv : Z) (consts : list num).
Lemma bare_wf_expr e : wf_expr nv consts (bare_expr e) <-> wf_expr nv consts e.
Proof.
  induction e using expr_ind'; cbn [bare_expr wf_expr]; try tauto.
  rewrite (F_map bare_expr (wf_expr nv consts) (wf_expr nv consts) x) by assumption. tauto.
Qed.
Lemma bare_wf_cond c : wf_cond nv consts (bare_cond c) <-> wf_cond nv consts c.
Proof. induction c; cbn [bare_cond wf_cond]; rewrite ?bare_wf_expr; tauto. Qed.
Lemma bare_wf s : wf_stmt nv consts (bare_stmt s) <-> wf_stmt nv consts s.
Proof.
  induction s as [v e|v e|f af c t Ht|f af c t l Ht Hl|l Hl] using stmt_ind'; cbn [bare_stmt wf_stmt option_map]; rewrite ?bare_wf_expr, ?bare_wf_cond; try tauto.
  - rewrite (F_map bare_stmt (wf_stmt nv consts) (wf_stmt nv consts) t) by assumption. tauto.
  - rewrite (F_map bare_stmt (wf_stmt nv consts) (wf_stmt nv consts) t), (F_map bare_stmt (wf_stmt nv consts) (wf_stmt nv consts) l) by assumption. tauto.
  - now apply F_map.
Qed.
End Wf.
Lemma bare_need e : need (bare_expr e) = need e.
Proof. induction e using expr_ind'; cbn [bare_expr need]; congruence. Qed.
Lemma bare_cneed c : cneed (bare_cond c) = cneed c.
Proof. induction c; cbn [bare_cond cneed]; rewrite ?bare_need; congruence. Qed.
Lemma bare_bneed c : bneed (bare_cond c) = bneed c.
Proof. induction c; cbn [bare_cond bneed]; congruence. Qed.
Lemma bare_fits d s : fits d (bare_stmt s) <-> fits d s.
Proof.
  induction s as [v e|v e|f af c t Ht|f af c t l Ht Hl|l Hl] using stmt_ind'; cbn [bare_stmt fits option_map]; rewrite ?bare_need, ?bare_cneed, ?bare_bneed; try tauto.
  - rewrite (F_map bare_stmt (fits d) (fits d) t) by assumption. tauto.
  - rewrite (F_map bare_stmt (fits d) (fits d) t), (F_map bare_stmt (fits d) (fits d) l) by assumption. tauto.
  - now apply F_map.
Qed.
Lemma bare_low_list lo l : Forall (fun s => forall est, low lo est (bare_stmt s) = low lo est s) l ->
  forall est, low_all lo est (map bare_stmt l) = low_all lo est l.
Proof. induction 1 as [|x l Hx _ IH]; intros est; cbn [map low_all]; [reflexivity|]. rewrite Hx. destruct (low lo est x); auto. Qed.
Lemma bare_low lo s : forall est, low lo est (bare_stmt s) = low lo est s.
Proof.
  induction s as [v e|v e|f af c t Ht|f af c t l Ht Hl|l Hl] using stmt_ind'; intros est; cbn [bare_stmt option_map].
  - reflexivity.
  - reflexivity.
  - change (low lo est (SIf f af c t None)) with (if lo <=? est + 1 then match low_all lo est t with None => None | Some e => Some (Z.min est e) end else None).
    change (low lo est (SIf f af (bare_cond c) (map bare_stmt t) None)) with (if lo <=? est + 1 then match low_all lo est (map bare_stmt t) with None => None | Some e => Some (Z.min est e) end else None).
    now rewrite bare_low_list.
  - change (low lo est (SIf f af c t (Some l))) with (if lo <=? est + 1 then
        match low_all lo (-1) t, low_all lo est l with Some a, Some b => Some (Z.min (a - 1) b) | _, _ => None end else None).
    change (low lo est (SIf f af (bare_cond c) (map bare_stmt t) (Some (map bare_stmt l)))) with (if lo <=? est + 1 then
        match low_all lo (-1) (map bare_stmt t), low_all lo est (map bare_stmt l) with Some a, Some b => Some (Z.min (a - 1) b) | _, _ => None end else None).
    now rewrite !bare_low_list by assumption.
  - exact (bare_low_list lo l Hl est).
Qed.
Lemma bare_low_all lo est l : low_all lo est (map bare_stmt l) = low_all lo est l.
Proof. apply bare_low_list. apply Forall_forall. intros x _. apply bare_low. Qed.

(** * Knowledge about variables *)
Definition holds (a : ann) (x : num) : Prop := match a with Some v => x = v | None => True end.
Definition agrees (k : known) (env : list num) : Prop := Forall2 holds k env.
Definition forgets (k' k : known) : Prop := Forall2 (fun a' a => a' = None \/ a' = a) k' k.
Lemma agrees_forget k' k env : forgets k' k -> agrees k env -> agrees k' env.
Proof.
  intros H. revert env. induction H as [|a' a k' k Ha _ IH]; intros env He; inversion He; subst; constructor; [|now apply IH].
  destruct Ha as [-> | ->]; [exact I|assumption].
Qed.
Lemma forgets_refl k : forgets k k. Proof. induction k; constructor; auto. Qed.
Lemma forgets_trans a b c : forgets a b -> forgets b c -> forgets a c.
Proof.
  intros H. revert c. induction H as [|x y a b Hx _ IH]; intros c Hc; inversion Hc as [|? z ? ? Hy ?]; subst; constructor; [|now apply IH].
  destruct Hx as [-> | ->]; auto.
Qed.
Lemma Forall2_upd {A B} (P : A -> B -> Prop) k l n x y : Forall2 P k l -> P x y -> Forall2 P (upd_nat k n x) (upd_nat l n y).
Proof. intros H. revert n. induction H as [|a b k l Ha Hk IH]; intros [|n] Hx; cbn [upd_nat]; constructor; auto. Qed.
Lemma Forall2_nth {A B} (P : A -> B -> Prop) k l n da db : Forall2 P k l -> (n < length k)%nat -> P (nth n k da) (nth n l db).
Proof. intros H. revert n. induction H as [|a b k l Ha _ IH]; intros [|n] Hn; cbn [length nth] in *; auto; try lia. apply IH. lia. Qed.
Lemma agrees_len k env : agrees k env -> length k = length env. Proof. induction 1; cbn [length]; congruence. Qed.
Lemma vput_upd {A} (l : list A) i v : 0 <= i < zlen l -> vput l i v = Ok (upd_nat l (Z.to_nat i) v).
Proof. unfold zlen. intros H. unfold vput. now replace ((0 <=? i) && (i <? Z.of_nat (length l))) with true by lia. Qed.
Lemma upd_length {A} (l : list A) n v : length (upd_nat l n v) = length l.
Proof. revert n. induction l as [|x l IH]; intros [|n]; cbn [upd_nat length]; auto. Qed.
Lemma forgets_upd k n : forgets (upd_nat k n None) k.
Proof. revert n. induction k as [|x k IH]; intros [|n]; cbn [upd_nat]; constructor; auto; [apply forgets_refl|apply IH]. Qed.

(** * Expressions *)
Definition const_list (k : known) : list expr -> outcome (list expr) := fix go (x : list expr) : outcome (list expr) :=
  match x with [] => Ok [] | y :: ys => do y' <- const_expr k y; do ys' <- go ys; Ok (y' :: ys') end.
Section K.
Variables (nv : Z) (consts : list num).
Lemma const_expr_ok k e : zlen k = nv -> wf_expr nv consts e -> exists e', const_expr k e = Ok e' /\ bare_expr e' = bare_expr e /\
  (fresh_expr e -> forall past smp env, agrees k env -> marks_expr past smp env e').
Proof.
  intros Hk. induction e as [an op l r x Hl Hr Hx|an op x IH|an|v|an n i|n i v] using expr_ind'; intros Hwf; cbn [wf_expr const_expr] in *.
  - destruct Hwf as (W1 & W2 & W3). rewrite F_iff in W3. destruct (Hl W1) as (l' & El & Bl & Ml). destruct (Hr W2) as (r' & Er & Br & Mr). rewrite El. cbn [obind]. rewrite Er. cbn [obind].
    assert (Hxs : exists x', const_list k x = Ok x' /\ map bare_expr x' = map bare_expr x).
    { clear - Hx W3. induction W3 as [|y x Hy Hxx IH]; [exists []; auto|]. apply Forall_cons_iff in Hx as [Hy1 Hx1]. destruct (Hy1 Hy) as (y' & Ey & By & _).
      destruct (IH Hx1) as (x' & Ex & Bx). exists (y' :: x'). cbn [const_list]. rewrite Ey. cbn [obind]. fold (const_list k). rewrite Ex. cbn [obind map]. split; [reflexivity|congruence]. }
    destruct Hxs as (x' & Ex & Bx). fold (const_list k). rewrite Ex. cbn [obind]. eexists. split; [reflexivity|]. split; [cbn [bare_expr]; congruence|].
    cbn [fresh_expr]. intros (-> & F1 & F2 & _) past smp env He. cbn [marks_expr ann_of meaning]. specialize (Ml F1 past smp env He). specialize (Mr F2 past smp env He).
    split; [|split; assumption]. destruct (ann_of l') as [u|] eqn:Au; [|exact I]. destruct (ann_of r') as [v|] eqn:Av; [|exact I].
    destruct (forallb _ x'); [|exact I]. now rewrite (mark_value smp past env l' u Ml Au), (mark_value smp past env r' v Mr Av).
  - destruct (IH Hwf) as (x' & Ex & Bx & Mx). rewrite Ex. cbn [obind]. eexists. split; [reflexivity|]. split; [cbn [bare_expr]; congruence|].
    cbn [fresh_expr]. intros (-> & F) past smp env He. cbn [marks_expr ann_of meaning]. specialize (Mx F past smp env He). split; [|assumption].
    destruct (ann_of x') as [u|] eqn:Au; [|exact I]. now rewrite (mark_value smp past env x' u Mx Au).
  - eexists. split; [reflexivity|]. split; [reflexivity|]. intros F past smp env _. cbn [fresh_expr] in F. subst an. cbn [marks_expr ann_of]. auto.
  - eexists. split; [reflexivity|]. split; [reflexivity|]. intros _ past smp env _. cbn [marks_expr ann_of meaning]. auto.
  - unfold kget. rewrite (vget_ok k i None) by (unfold zlen in Hk; lia). cbn [obind]. eexists. split; [reflexivity|]. split; [reflexivity|].
    intros _ past smp env He. cbn [marks_expr ann_of meaning]. split; [|exact I].
    pose proof (Forall2_nth holds k env (Z.to_nat i) None n_zero He ltac:(unfold zlen in Hk; lia)) as H.
    unfold lookup. unfold holds in H. destruct (nth (Z.to_nat i) k None); auto.
  - eexists. split; [reflexivity|]. split; [reflexivity|]. intros _ past smp env _. cbn [marks_expr ann_of meaning]. auto.
Qed.
Lemma const_cond_ok k c : zlen k = nv -> wf_cond nv consts c -> exists c', const_cond k c = Ok c' /\ bare_cond c' = bare_cond c /\
  (fresh_cond c -> forall past smp env, agrees k env -> marks_cond past smp env c').
Proof.
  intros Hk. induction c as [f op z e|f a IHa b IHb|f a IHa b IHb|f a IHa| |]; intros Hwf; cbn [wf_cond const_cond fresh_cond] in *.
  - destruct (const_expr_ok k e Hk Hwf) as (e' & E & B & M). rewrite E. cbn [obind]. eexists. split; [reflexivity|]. split; [cbn [bare_cond]; congruence|exact M].
  - destruct Hwf as [W1 W2]. destruct (IHa W1) as (a' & Ea & Ba & Ma). destruct (IHb W2) as (b' & Eb & Bb & Mb). rewrite Ea. cbn [obind]. rewrite Eb. cbn [obind].
    eexists. split; [reflexivity|]. split; [cbn [bare_cond]; congruence|]. intros [F1 F2] past smp env He. split; eauto.
  - destruct Hwf as [W1 W2]. destruct (IHa W1) as (a' & Ea & Ba & Ma). destruct (IHb W2) as (b' & Eb & Bb & Mb). rewrite Ea. cbn [obind]. rewrite Eb. cbn [obind].
    eexists. split; [reflexivity|]. split; [cbn [bare_cond]; congruence|]. intros [F1 F2] past smp env He. split; eauto.
  - destruct (IHa Hwf) as (a' & Ea & Ba & Ma). rewrite Ea. cbn [obind]. eexists. split; [reflexivity|]. split; [cbn [bare_cond]; congruence|]. exact Ma.
  - eexists. split; [reflexivity|]. split; [reflexivity|]. cbn. auto.
  - eexists. split; [reflexivity|]. split; [reflexivity|]. cbn. auto.
Qed.

(** * Statements *)
Definition const_good (s : stmt) : Prop := forall inc k, zlen k = nv -> wf_stmt nv consts s -> exists k' s', const_stmt inc s k = Ok (k', s') /\
  bare_stmt s' = bare_stmt s /\ zlen k' = nv /\ (inc = true -> forgets k' k) /\
  (fresh_stmt s -> forall past smp env, agrees k env -> agrees k' (exec past smp s' env) /\ marks_stmt past smp env s').
Lemma const_all_from l : Forall const_good l -> forall inc k, zlen k = nv -> wf_all nv consts l -> exists k' l', const_all inc l k = Ok (k', l') /\
  map bare_stmt l' = map bare_stmt l /\ zlen k' = nv /\ (inc = true -> forgets k' k) /\
  (Forall fresh_stmt l -> forall past smp env, agrees k env -> agrees k' (exec_all past smp l' env) /\ marks_all past smp env l').
Proof.
  induction 1 as [|s l Hs Hl IH]; intros inc k Hk Hw; cbn [const_all].
  - exists k, []. split; [reflexivity|]. split; [reflexivity|]. split; [assumption|]. split; [intros _; apply forgets_refl|]. intros _ past smp env He. split; [exact He|exact I].
  - apply Forall_cons_iff in Hw as [W1 W2]. destruct (Hs inc k Hk W1) as (k1 & s1 & E1 & B1 & L1 & G1 & M1). rewrite E1. cbn [obind fst snd].
    destruct (IH inc k1 L1 W2) as (k2 & l2 & E2 & B2 & L2 & G2 & M2). rewrite E2. cbn [obind fst snd]. exists k2, (s1 :: l2).
    split; [reflexivity|]. split; [cbn [map]; congruence|]. split; [assumption|]. split; [intros Hi; eapply forgets_trans; eauto|].
    intros F past smp env He. apply Forall_cons_iff in F as [F1 F2]. destruct (M1 F1 past smp env He) as [A1 Q1]. destruct (M2 F2 past smp _ A1) as [A2 Q2].
    split; [exact A2|]. cbn [marks_all]. auto.
Qed.
Lemma store_upd env i (v : num) : 0 <= i < zlen env -> store env i v = upd_nat env (Z.to_nat i) v.
Proof. unfold zlen. intros H. unfold store. rewrite upd_nat_store by lia. reflexivity. Qed.
Lemma const_stmt_ok s : const_good s.
Proof.
  induction s as [v e|v e|f af c t Ht|f af c t l Ht Hl|l Hl] using stmt_ind'; intros inc k Hk Hwf.
  - cbn [wf_stmt] in Hwf. destruct Hwf as [W1 W2]. destruct v as [a n i|]; cbn [wf_lhs] in W1; [|destruct W1]. cbn [const_stmt fresh_stmt].
    destruct (const_expr_ok k e Hk W2) as (e' & E & B & M). rewrite E. cbn [obind]. rewrite vput_upd by lia. cbn [obind].
    eexists. eexists. split; [reflexivity|]. split; [cbn [bare_stmt]; congruence|]. split; [unfold zlen in *; now rewrite upd_length|].
    split; [intros ->; apply forgets_upd|]. intros F past smp env He. specialize (M F past smp env He). split; [|exact M].
    cbn [exec lhs_index]. pose proof (agrees_len _ _ He) as Hlen. rewrite store_upd by (unfold zlen in *; lia). apply Forall2_upd; [exact He|].
    destruct inc; [exact I|]. unfold holds. destruct (ann_of e') as [v|] eqn:Av; [|exact I]. exact (mark_value smp past env e' v M Av).
  - cbn [wf_stmt] in Hwf. destruct Hwf as [W1 W2]. destruct v as [a n i|]; cbn [wf_lhs] in W1; [|destruct W1]. cbn [const_stmt fresh_stmt].
    rewrite vput_upd by lia. cbn [obind]. destruct (const_expr_ok (upd_nat k (Z.to_nat i) None) e) as (e' & E & B & M); [unfold zlen in *; now rewrite upd_length|exact W2|].
    rewrite E. cbn [obind]. eexists. eexists. split; [reflexivity|]. split; [cbn [bare_stmt]; congruence|]. split; [unfold zlen in *; now rewrite upd_length|].
    split; [intros _; apply forgets_upd|]. intros F past smp env He. assert (He' : agrees (upd_nat k (Z.to_nat i) None) env) by (eapply agrees_forget; [apply forgets_upd|exact He]).
    specialize (M F past smp env He'). split; [|exact M].
    cbn [exec lhs_index]. pose proof (agrees_len _ _ He) as Hlen. destruct past; [exact He'|]. rewrite store_upd by (unfold zlen in *; lia). apply Forall2_upd; [exact He|exact I].
  - cbn [wf_stmt] in Hwf. destruct Hwf as (W1 & W2 & _). rewrite F_iff in W2.
    change (const_stmt inc (SIf f af c t None) k) with (do c' <- const_cond k c; do p <- const_all true t k; Ok (fst p, SIf f af c' (snd p) None)).
    destruct (const_cond_ok k c Hk W1) as (c' & Ec & Bc & Mc). rewrite Ec. cbn [obind].
    destruct (const_all_from t Ht true k Hk W2) as (k1 & t' & Et & Bt & Lt & Gt & Mt). rewrite Et. cbn [obind fst snd]. specialize (Gt eq_refl).
    eexists. eexists. split; [reflexivity|]. split; [cbn [bare_stmt option_map]; congruence|]. split; [assumption|]. split; [auto|].
    cbn [fresh_stmt]. intros (F1 & F2 & _) past smp env He. rewrite F_iff in F2. specialize (Mc F1 past smp env He). destruct (Mt F2 past smp env He) as [A1 Q1].
    change (marks_stmt past smp env (SIf f af c' t' None)) with (marks_cond past smp env c' /\ if truth past smp env c' then marks_all past smp env t' else True).
    cbn [exec]. fold (exec_all past smp t' env). destruct (truth past smp env c'); [auto|]. split; [|auto]. eapply agrees_forget; eassumption.
  - cbn [wf_stmt] in Hwf. destruct Hwf as (W1 & W2 & W3). rewrite F_iff in W2, W3.
    change (const_stmt inc (SIf f af c t (Some l)) k) with
      (do c' <- const_cond k c; do p <- const_all true t k; do q <- const_all true l (fst p); Ok (fst q, SIf f af c' (snd p) (Some (snd q)))).
    destruct (const_cond_ok k c Hk W1) as (c' & Ec & Bc & Mc). rewrite Ec. cbn [obind].
    destruct (const_all_from t Ht true k Hk W2) as (k1 & t' & Et & Bt & Lt & Gt & Mt). rewrite Et. cbn [obind fst snd]. specialize (Gt eq_refl).
    destruct (const_all_from l Hl true k1 Lt W3) as (k2 & l' & El & Bl & Ll & Gl & Ml). rewrite El. cbn [obind fst snd]. specialize (Gl eq_refl).
    eexists. eexists. split; [reflexivity|]. split; [cbn [bare_stmt option_map]; congruence|]. split; [assumption|]. split; [intros _; eapply forgets_trans; eassumption|].
    cbn [fresh_stmt]. intros (F1 & F2 & F3) past smp env He. rewrite F_iff in F2, F3. specialize (Mc F1 past smp env He). destruct (Mt F2 past smp env He) as [A1 Q1].
    destruct (Ml F3 past smp env (agrees_forget _ _ _ Gt He)) as [A2 Q2].
    change (marks_stmt past smp env (SIf f af c' t' (Some l'))) with
      (marks_cond past smp env c' /\ if truth past smp env c' then marks_all past smp env t' else marks_all past smp env l').
    cbn [exec]. fold (exec_all past smp t' env). fold (exec_all past smp l' env). destruct (truth past smp env c'); [|auto]. split; [|auto]. eapply agrees_forget; eassumption.
  - cbn [wf_stmt] in Hwf. rewrite F_iff in Hwf. change (const_stmt inc (SCollect l) k) with (do p <- const_all inc l k; Ok (fst p, SCollect (snd p))).
    destruct (const_all_from l Hl inc k Hk Hwf) as (k1 & t' & Et & Bt & Lt & Gt & Mt). rewrite Et. cbn [obind fst snd].
    eexists. eexists. split; [reflexivity|]. split; [cbn [bare_stmt option_map]; congruence|]. split; [assumption|]. split; [auto|].
    cbn [fresh_stmt]. intros F past smp env He. rewrite F_iff in F. exact (Mt F past smp env He).
Qed.
Lemma const_all_ok l inc k : zlen k = nv -> wf_all nv consts l -> exists k' l', const_all inc l k = Ok (k', l') /\
  map bare_stmt l' = map bare_stmt l /\ zlen k' = nv /\ (inc = true -> forgets k' k) /\
  (Forall fresh_stmt l -> forall past smp env, agrees k env -> agrees k' (exec_all past smp l' env) /\ marks_all past smp env l').
Proof. apply const_all_from. apply Forall_forall. intros x _. apply const_stmt_ok. Qed.
(** * Events *)
Lemma const_events_ok l : forall k, zlen k = nv -> Forall (wf_all nv consts) l -> exists k' l', const_events l k = Ok (k', l') /\
  map (map bare_stmt) l' = map (map bare_stmt) l /\ zlen k' = nv /\
  (Forall (Forall fresh_stmt) l -> forall env, agrees k env -> agrees k' (exec_past l' env) /\ forall scenario, marks_events l' scenario env).
Proof.
  induction l as [|e r IH]; intros k Hk Hw; cbn [const_events].
  - exists k, []. split; [reflexivity|]. split; [reflexivity|]. split; [assumption|]. intros _ env He. split; [exact He|]. intros; exact I.
  - apply Forall_cons_iff in Hw as [W1 W2]. destruct (const_all_ok e false k Hk W1) as (k1 & e1 & E1 & B1 & L1 & _ & M1). rewrite E1. cbn [obind fst snd].
    destruct (IH k1 L1 W2) as (k2 & r2 & E2 & B2 & L2 & M2). rewrite E2. cbn [obind fst snd]. exists k2, (e1 :: r2).
    split; [reflexivity|]. split; [cbn [map]; congruence|]. split; [assumption|]. intros F env He. apply Forall_cons_iff in F as [F1 F2].
    split.
    + destruct (M1 F1 true (Sample n_zero n_zero) env He) as [A _]. exact (proj1 (M2 F2 _ A)).
    + intros [|smp ss]; [exact I|]. cbn [marks_events]. destruct (M1 F1 false smp env He) as [A Q]. split; [exact Q|]. apply (M2 F2 _ A).
Qed.
End K.
Lemma agrees_init n : agrees (known_init n) (repeat n_zero n).
Proof. unfold known_init, agrees. induction n; cbn [repeat]; constructor; auto. reflexivity. Qed.
Lemma bare_exec_past l env : exec_past (map (map bare_stmt) l) env = exec_past l env.
Proof. unfold exec_past. revert env. induction l as [|e r IH]; intros env; cbn [map fold_left]; [reflexivity|]. now rewrite bare_exec_all, IH. Qed.
Lemma same_bare_Forall {A B} (f : A -> B) (P : A -> Prop) (Q : B -> Prop) l l' : (forall x, Q (f x) <-> P x) -> map f l = map f l' -> Forall P l -> Forall P l'.
Proof.
  intros HQ. revert l'. induction l as [|x l IH]; intros [|y l'] E H; cbn [map] in E; try discriminate; [constructor|]. injection E as E1 E2.
  apply Forall_cons_iff in H as [H1 H2]. constructor; [|now apply IH]. apply HQ. rewrite <- E1. now apply HQ.
Qed.

(** * Products *)
Lemma compiled_ok lo consts nvars pasts futures scenario fuel s :
  laws -> lo <= 0 ->
  Forall (wf_all (Z.of_nat nvars) consts) pasts -> Forall (wf_all (Z.of_nat nvars) consts) futures ->
  Forall (Forall fresh_stmt) pasts -> Forall (Forall fresh_stmt) futures ->
  Forall (fits_all 128) futures -> (length futures <= length scenario)%nat -> Forall (fun evt => low_all lo (-1) evt <> None) futures ->
  exists k pasts' k' futures', const_events pasts (known_init nvars) = Ok (k, pasts') /\ const_events futures k = Ok (k', futures') /\
    (Forall (fun evt => (length (fst (comp_all evt ([], []))) < fuel)%nat) futures' ->
     exists s', evaluate_compiled lo fuel (exec_past pasts (repeat n_zero nvars)) scenario futures' s = Ok s' /\
       vars s' = exec_events futures scenario (exec_past pasts (repeat n_zero nvars))).
Proof.
  intros HL Hlo Wp Wf Fp Ff Hfit Hlen Hlow.
  destruct (const_events_ok (Z.of_nat nvars) consts pasts (known_init nvars)) as (k & pasts' & E1 & B1 & L1 & M1); [unfold zlen, known_init; now rewrite repeat_length|assumption|].
  destruct (const_events_ok (Z.of_nat nvars) consts futures k L1 Wf) as (k' & futures' & E2 & B2 & L2 & M2).
  exists k, pasts', k', futures'. split; [exact E1|]. split; [exact E2|]. intros Hfuel.
  destruct (M1 Fp _ (agrees_init nvars)) as [A1 _].
  assert (Ex : exec_past pasts' (repeat n_zero nvars) = exec_past pasts (repeat n_zero nvars)) by (rewrite <- (bare_exec_past pasts'), B1; apply bare_exec_past).
  rewrite Ex in A1. set (env := exec_past pasts (repeat n_zero nvars)) in *. destruct (M2 Ff _ A1) as [_ Q]. specialize (Q scenario).
  assert (Hl : forall P : stmt -> Prop, (forall x, P (bare_stmt x) <-> P x) -> forall x, Forall P (map bare_stmt x) <-> Forall P x).
  { intros P HP x. rewrite Forall_map. rewrite !Forall_forall. split; intros H y Hy; [apply HP|apply HP]; auto. }
  pose proof (agrees_len _ _ A1) as Hlk. unfold zlen in L1.
  destruct (run_events_ok lo consts (Z.of_nat nvars) fuel futures' scenario [] (EState env (dst s) (bst s))) as (s' & E & V); auto.
  { eapply (same_bare_Forall (map bare_stmt) _ (wf_all (Z.of_nat nvars) consts)); [|symmetry; exact B2|exact Wf]. apply Hl. apply bare_wf. }
  { eapply (same_bare_Forall (map bare_stmt) _ (fits_all 128)); [|symmetry; exact B2|exact Hfit]. apply Hl. apply bare_fits. }
  { cbn [vars]. lia. }
  { eapply (same_bare_Forall (map bare_stmt) _ (fun evt => low_all lo (-1) evt <> None)); [|symmetry; exact B2|exact Hlow]. intros x. cbn beta. now rewrite bare_low_all. }
  { enough (length futures' = length futures) by lia. rewrite <- (map_length (map bare_stmt) futures), <- B2. now rewrite map_length. }
  exists s'. split; [exact E|]. rewrite V. cbn [vars]. rewrite <- (bare_exec_events futures'), B2. apply bare_exec_events.
Qed.
End Const.
