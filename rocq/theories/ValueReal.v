(** Proofs about valuing scripts on real numbers: paths that are safe as written are inside what the analysis of domains assumes. *)
From Coq Require Import ZArith List Bool Lia ZifyBool Reals.
From Verif Require Import Base Vec StringModel StringSpec ScriptEval ScriptIndex FuzzyModel FuzzySpec FuzzyProofs DomainModel DomainSpec ValueModel ValueSpec ValueProofs ValueTrees ScriptModel ScriptSpec.
Import ListNotations.
Open Scope Z_scope.

Section Real.
Variables (f_log f_sqrt f_exp : R -> R) (f_pow : R -> R -> R).
Local Notation RN := (RNum f_log f_sqrt f_exp f_pow).
#[local] Hint Extern 0 Num => exact (RNum f_log f_sqrt f_exp f_pow) : typeclass_instances.
Local Notation safe_expr := (safe_expr f_log f_sqrt f_exp f_pow).
Local Notation safe_cond := (safe_cond f_log f_sqrt f_exp f_pow).
Local Notation safe := (safe f_log f_sqrt f_exp f_pow).
Local Notation safe_all := (safe_all f_log f_sqrt f_exp f_pow).
Local Notation inside_expr := (inside_expr f_log f_sqrt f_exp f_pow).
Local Notation inside_cond := (inside_cond f_log f_sqrt f_exp f_pow).
Local Notation inside := (inside f_log f_sqrt f_exp f_pow).
Local Notation inside_all := (inside_all f_log f_sqrt f_exp f_pow).
(** ** indices do not matter to safety *)
Section Market.
Variable past : bool.
Variable smp : @sample RN.
Lemma safe_if f af c t e w : safe past smp (SIf f af c t e) w =
  (safe_cond past smp w c /\ if true_in past smp w c then safe_all past smp t w else match e with None => True | Some l => safe_all past smp l w end).
Proof. reflexivity. Qed.
Lemma safe_collect l w : safe past smp (SCollect l) w = safe_all past smp l w.
Proof. reflexivity. Qed.
Lemma inside_if f af c t e env : inside past smp (SIf f af c t e) env =
  (inside_cond past smp env c /\ if truth past smp env c then inside_all past smp t env else match e with None => True | Some l => inside_all past smp l env end).
Proof. reflexivity. Qed.
Lemma inside_collect l env : inside past smp (SCollect l) env = inside_all past smp l env.
Proof. reflexivity. Qed.
Lemma safe_expr_plain w e : safe_expr past smp w (plain_expr e) <-> safe_expr past smp w e.
Proof.
  induction e as [a op l r x IHl IHr IHx|a op x IH|a|v|a n i|n i v] using expr_ind'; cbn [plain_expr ValueSpec.safe_expr]; rewrite ?amount_plain, ?IHl, ?IHr, ?IH; try tauto.
  split; intros (A & B); (split; [|exact B]); destruct x; cbn [map] in *; congruence.
Qed.
Lemma safe_cond_plain w c : safe_cond past smp w (plain_cond c) <-> safe_cond past smp w c.
Proof. induction c as [f op z e|f a IHa b IHb|f a IHa b IHb|f a IHa| |]; cbn [plain_cond ValueSpec.safe_cond]; rewrite ?safe_expr_plain, ?true_plain, ?IHa, ?IHb; tauto. Qed.
Lemma safe_plain s : forall w, safe past smp (plain_stmt s) w <-> safe past smp s w.
Proof.
  assert (HF : forall l, Forall (fun s => forall w, safe past smp (plain_stmt s) w <-> safe past smp s w) l -> forall w, safe_all past smp (map plain_stmt l) w <-> safe_all past smp l w).
  { induction 1 as [|s0 l H0 _ IH]; intros w; cbn [map ValueSpec.safe_all]; [tauto|]. now rewrite H0, perform_plain, IH. }
  induction s as [v e|v e|f af c t Ht|f af c t l Ht Hl|l Hl] using stmt_ind'; intros w; cbn [plain_stmt option_map].
  - apply safe_expr_plain.
  - change (safe_expr past smp w (plain_expr e) /\ (past = false -> 0 < numeraire smp)%R <-> safe_expr past smp w e /\ (past = false -> 0 < numeraire smp)%R). now rewrite safe_expr_plain.
  - rewrite !safe_if, safe_cond_plain, true_plain. destruct (true_in past smp w c); [now rewrite (HF t)|tauto].
  - rewrite !safe_if, safe_cond_plain, true_plain. destruct (true_in past smp w c); [now rewrite (HF t)|now rewrite (HF l)].
  - rewrite !safe_collect. now apply HF.
Qed.
Lemma safe_all_plain l : forall l' w, map plain_stmt l = map plain_stmt l' -> safe_all past smp l w <-> safe_all past smp l' w.
Proof.
  induction l as [|s l IH]; intros [|s' l'] w H; try discriminate; [tauto|]. cbn [map ValueSpec.safe_all] in *. injection H as H1 H2.
  rewrite <- (safe_plain s w), <- (safe_plain s' w), <- (perform_plain past smp s w), <- (perform_plain past smp s' w), H1. now rewrite (IH l' _ H2).
Qed.
(** ** marks do not matter to being inside *)
Lemma inside_unmarked s : forall env, inside past smp (unmarked s) env <-> inside past smp s env.
Proof.
  assert (HF : forall l, Forall (fun s => forall env, inside past smp (unmarked s) env <-> inside past smp s env) l -> forall env, inside_all past smp (map unmarked l) env <-> inside_all past smp l env).
  { induction 1 as [|s0 l H0 _ IH]; intros env; cbn [map DomainSpec.inside_all]; [tauto|]. now rewrite H0, exec_unmarked, IH. }
  induction s as [v e|v e|f af c t Ht|f af c t l Ht Hl|l Hl] using stmt_ind'; intros env; cbn [unmarked option_map]; try tauto.
  - rewrite !inside_if. destruct (truth past smp env c); [now rewrite (HF t)|tauto].
  - rewrite !inside_if. destruct (truth past smp env c); [now rewrite (HF t)|now rewrite (HF l)].
  - rewrite !inside_collect. now apply HF.
Qed.
Lemma inside_all_unmarked l : forall l' env, map unmarked l = map unmarked l' -> inside_all past smp l env <-> inside_all past smp l' env.
Proof.
  induction l as [|s l IH]; intros [|s' l'] env H; try discriminate; [tauto|]. cbn [map DomainSpec.inside_all] in *. injection H as H1 H2.
  rewrite <- (inside_unmarked s env), <- (inside_unmarked s' env), <- (exec_unmarked past smp s env), <- (exec_unmarked past smp s' env), H1. now rewrite (IH l' _ H2).
Qed.
(** ** safe is inside *)
Section Names.
Variable names : list str.
Lemma safe_inside_expr env w e : agree names env w -> Forall (known_at names) (expr_vars e) -> safe_expr past smp w e -> inside_expr past smp env e.
Proof.
  intros A. induction e as [a op l r x IHl IHr IHx|a op x IH|a|v|a n i|n i v] using expr_ind'; cbn [ValueSpec.safe_expr DomainSpec.inside_expr expr_vars]; intros K S; auto.
  - rewrite !Forall_app in K. destruct K as (K1 & K2 & _). rewrite (amount_ok names past smp env w r A K2). intuition.
  - rewrite (amount_ok names past smp env w x A K). intuition.
Qed.
Lemma safe_inside_cond env w c : agree names env w -> Forall (known_at names) (cond_vars c) -> safe_cond past smp w c -> inside_cond past smp env c.
Proof.
  intros A. induction c as [f op z e|f a IHa b IHb|f a IHa b IHb|f a IHa| |]; cbn [ValueSpec.safe_cond DomainSpec.inside_cond cond_vars]; intros K S; auto.
  - now apply (safe_inside_expr env w).
  - rewrite Forall_app in K. destruct K as (K1 & K2). rewrite (true_ok names past smp env w a A K1). intuition.
  - rewrite Forall_app in K. destruct K as (K1 & K2). rewrite (true_ok names past smp env w a A K1). intuition.
Qed.
Lemma safe_inside s : var_targets s -> Forall (known_at names) (stmt_vars s) -> forall env w, agree names env w -> safe past smp s w -> inside past smp s env.
Proof.
  assert (HF : forall l, Forall (fun s => var_targets s -> Forall (known_at names) (stmt_vars s) -> forall env w, agree names env w -> safe past smp s w -> inside past smp s env) l ->
    fold_right (fun s P => var_targets s /\ P) True l -> Forall (known_at names) (fold_right (fun s acc => stmt_vars s ++ acc) [] l) ->
    forall env w, agree names env w -> safe_all past smp l w -> inside_all past smp l env).
  { induction 1 as [|s0 l H0 _ IH]; cbn [fold_right]; intros V K env w A S; [exact I|]. cbn [ValueSpec.safe_all DomainSpec.inside_all] in *. destruct V as [V1 V2]. rewrite Forall_app in K. destruct K as [K1 K2]. destruct S as [S1 S2].
    split; [now apply (H0 V1 K1 env w)|]. apply (IH V2 K2 _ (perform past smp s0 w)); [|exact S2]. now apply (perform_ok names past smp s0 V1 K1). }
  induction s as [v e|v e|f af c t Ht|f af c t l Ht Hl|l Hl] using stmt_ind'; cbn [var_targets stmt_vars]; intros V K env w A S.
  - rewrite Forall_app in K. destruct K as [_ K]. now apply (safe_inside_expr env w).
  - rewrite Forall_app in K. destruct K as [_ K]. destruct S as [S1 S2]. split; [now apply (safe_inside_expr env w)|exact S2].
  - rewrite !app_nil_r in K. rewrite Forall_app in K. destruct K as [K1 K2]. destruct V as [V _]. rewrite safe_if in S. rewrite inside_if. destruct S as [S1 S2]. split; [now apply (safe_inside_cond env w)|].
    rewrite (true_ok names past smp env w c A K1). destruct (true_in past smp w c); [now apply (HF t Ht V K2 env w)|exact I].
  - rewrite !Forall_app in K. destruct K as (K1 & K2 & K3). destruct V as [V1 V2]. rewrite safe_if in S. rewrite inside_if. destruct S as [S1 S2]. split; [now apply (safe_inside_cond env w)|].
    rewrite (true_ok names past smp env w c A K1). destruct (true_in past smp w c); [now apply (HF t Ht V1 K2 env w)|now apply (HF l Hl V2 K3 env w)].
  - rewrite safe_collect in S. rewrite inside_collect. now apply (HF l Hl V K env w).
Qed.
Lemma safe_inside_all l : Forall var_targets l -> Forall (known_at names) (flat_map stmt_vars l) -> forall env w, agree names env w -> safe_all past smp l w -> inside_all past smp l env.
Proof.
  intros V. induction V as [|s l Vs _ IH]; cbn [flat_map]; intros K env w A S; [exact I|]. rewrite Forall_app in K. destruct K as [K1 K2]. cbn [ValueSpec.safe_all DomainSpec.inside_all] in *. destruct S as [S1 S2].
  split; [now apply (safe_inside s Vs K1 env w)|]. apply (IH K2 _ (perform past smp s w)); [now apply (perform_ok names past smp s Vs K1)|exact S2].
Qed.
End Names.
End Market.
Lemma safe_past_plain l : forall l' w, map (map plain_stmt) l = map (map plain_stmt) l' -> safe_past f_log f_sqrt f_exp f_pow l w <-> safe_past f_log f_sqrt f_exp f_pow l' w.
Proof.
  induction l as [|e l IH]; intros [|e' l'] w H; try discriminate; [tauto|]. cbn [map safe_past] in *. injection H as H1 H2. rewrite (safe_all_plain true _ e e' w H1), (perform_all_plain true _ e e' H1). now rewrite (IH l' _ H2).
Qed.
Lemma safe_future_plain l : forall l' scen w, map (map plain_stmt) l = map (map plain_stmt) l' -> safe_future f_log f_sqrt f_exp f_pow l scen w <-> safe_future f_log f_sqrt f_exp f_pow l' scen w.
Proof.
  induction l as [|e l IH]; intros [|e' l'] scen w H; try discriminate; [tauto|]. cbn [map safe_future] in *. injection H as H1 H2. destruct scen as [|smp ss]; [tauto|].
  rewrite (safe_all_plain false _ e e' w H1), (perform_all_plain false _ e e' H1). now rewrite (IH l' ss _ H2).
Qed.
Lemma inside_past_unmarked l : forall l' env, map (map unmarked) l = map (map unmarked) l' -> inside_past f_log f_sqrt f_exp f_pow l env <-> inside_past f_log f_sqrt f_exp f_pow l' env.
Proof.
  induction l as [|e l IH]; intros [|e' l'] env H; try discriminate; [tauto|]. cbn [map inside_past] in *. injection H as H1 H2. rewrite (inside_all_unmarked true _ e e' env H1), (exec_all_unmarked true _ e e' H1). now rewrite (IH l' _ H2).
Qed.
Lemma inside_future_unmarked l : forall l' scen env, map (map unmarked) l = map (map unmarked) l' -> inside_future f_log f_sqrt f_exp f_pow l scen env <-> inside_future f_log f_sqrt f_exp f_pow l' scen env.
Proof.
  induction l as [|e l IH]; intros [|e' l'] scen env H; try discriminate; [tauto|]. cbn [map inside_future] in *. injection H as H1 H2. destruct scen as [|smp ss]; [tauto|].
  rewrite (inside_all_unmarked false _ e e' env H1), (exec_all_unmarked false _ e e' H1). now rewrite (IH l' ss _ H2).
Qed.
Lemma safe_inside_past names l : Forall (Forall var_targets) l -> Forall (known_at names) (all_vars l) -> forall env w, agree names env w ->
  safe_past f_log f_sqrt f_exp f_pow l w -> inside_past f_log f_sqrt f_exp f_pow l env.
Proof.
  unfold all_vars. induction 1 as [|e l He _ IH]; cbn [flat_map safe_past inside_past]; intros K env w A S; [exact I|]. rewrite Forall_app in K. destruct K as [K1 K2]. destruct S as [S1 S2].
  split; [now apply (safe_inside_all true _ names e He K1 env w)|]. apply (IH K2 _ (perform_all true (@Sample RN 0%R 0%R) e w)); [now apply (perform_all_ok names)|exact S2].
Qed.
Lemma safe_inside_future names l : Forall (Forall var_targets) l -> Forall (known_at names) (all_vars l) -> forall scen env w, agree names env w ->
  safe_future f_log f_sqrt f_exp f_pow l scen w -> inside_future f_log f_sqrt f_exp f_pow l scen env.
Proof.
  unfold all_vars. induction 1 as [|e l He _ IH]; cbn [flat_map safe_future inside_future]; intros K scen env w A S; [exact I|]. rewrite Forall_app in K. destruct K as [K1 K2]. destruct scen as [|smp ss]; [exact I|]. destruct S as [S1 S2].
  split; [now apply (safe_inside_all false _ names e He K1 env w)|]. apply (IH K2 ss _ (perform_all false smp e w)); [now apply (perform_all_ok names)|exact S2].
Qed.
(** ** scripts far from the tolerances stay so *)
Local Notation far := (DomainSpec.plain f_log f_sqrt f_exp f_pow).
Local Notation far_cond := (DomainSpec.plain_cond f_log f_sqrt f_exp f_pow).
Lemma far_plain D M e d m : far D M e d m -> forall e', plain_expr e' = plain_expr e -> far D M e' d m.
Proof.
  induction 1 as [e d m d' m' H IH H1 H2 H3|v d m H1 H2|n i v d m H1 H2|a n i H|a d m H|a b op d m H1 H2|a op e d m H1 H IH|a op l r d m1 m2 H1 Hl IHl Hr IHr H2|a l r d1 m1 d2 m2 Hl IHl Hr IHr H2|a l v d0 m0 d1 m1 d2 m2 Hl IHl Hv H0 G0 H2 G2 H3|a op l r d m H1 Hl IHl Hr IHr];
    intros e' E; try (eapply plain_more; eauto; fail); destruct e' as [a' op' l' r' x'|a' op' x'|a'|v'|a' n' i'|n' i' v']; cbn [plain_expr] in E; try discriminate.
  - injection E as ->. now constructor.
  - injection E as -> ->. now constructor.
  - injection E as -> ->. now constructor.
  - injection E as ->. now constructor.
  - injection E as -> -> E. destruct x' as [| |b'| | |]; cbn [plain_expr] in E; try discriminate. injection E as ->. now constructor.
  - injection E as -> -> E. constructor; auto.
  - injection E as -> -> E1 E2 E3. destruct x'; [|discriminate]. constructor; auto.
  - injection E as -> -> E1 E2 E3. destruct x'; [|discriminate]. constructor; auto.
  - injection E as -> -> E1 E2 E3. destruct x'; [|discriminate]. destruct r' as [| | |v'| |]; cbn [plain_expr] in E2; try discriminate. injection E2 as ->. apply (plain_div _ _ _ _ D M a l' v d0 m0); auto.
  - injection E as -> -> E1 E2 E3. destruct x'; [|discriminate]. constructor; auto.
Qed.
Lemma far_cond_plain D M c : far_cond D M c -> forall c', plain_cond c' = plain_cond c -> far_cond D M c'.
Proof.
  induction c as [f op z e|f a IHa b IHb|f a IHa b IHb|f a IHa| |]; intros H c' E; destruct c' as [f' op' z' e'|f' a' b'|f' a' b'|f' a'| |]; cbn [plain_cond] in E; try discriminate; cbn [DomainSpec.plain_cond] in *; auto.
  - injection E as -> -> -> E. destruct H as (d & m & H). exists d, m. now apply (far_plain D M e).
  - injection E as -> E1 E2. intuition.
  - injection E as -> E1 E2. intuition.
  - injection E as -> E. auto.
Qed.
Scheme far_stmt_min := Minimality for DomainSpec.plain_stmt Sort Prop
  with far_all_min := Minimality for DomainSpec.plain_all Sort Prop.
Definition bare (s : stmt) : stmt := unmarked (plain_stmt s).
Lemma far_stmts : (forall D M s D' M', DomainSpec.plain_stmt f_log f_sqrt f_exp f_pow D M s D' M' -> forall s', bare s' = bare s -> DomainSpec.plain_stmt f_log f_sqrt f_exp f_pow D M s' D' M').
Proof.
  apply (far_stmt_min f_log f_sqrt f_exp f_pow
    (fun D M s D' M' => forall s', bare s' = bare s -> DomainSpec.plain_stmt f_log f_sqrt f_exp f_pow D M s' D' M')
    (fun D M l D' M' => forall l', map bare l' = map bare l -> DomainSpec.plain_all f_log f_sqrt f_exp f_pow D M l' D' M')).
  - intros D M v e D' M' H1 H2 H s' E. destruct s' as [v' e'|v' e'|f' af' c' t' e'|l']; try discriminate. injection E as E1 E2. apply DomainSpec.plain_assign; [exact H1|exact H2|]. apply (far_plain D M e); [exact H|exact E2].
  - intros D M v e D' m H1 H2 H s' E. destruct s' as [v' e'|v' e'|f' af' c' t' e'|l']; try discriminate. injection E as E1 E2. apply (DomainSpec.plain_pays _ _ _ _ D M v' e' D' m); [exact H1|exact H2|]. apply (far_plain D M e); [exact H|exact E2].
  - intros D M f af c t D1 M1 Hc Ht IHt s' E. destruct s' as [v' e'|v' e'|f' af' c' t' e'|l']; try discriminate. destruct e' as [l'|]; [discriminate|]. injection E as -> E1 E2. constructor; [now apply (far_cond_plain D M c)|].
    apply IHt. revert E2. rewrite !map_map. auto.
  - intros D M f af c t D1 M1 l D2 M2 Hc Ht IHt Hl IHl s' E. destruct s' as [v' e'|v' e'|f' af' c' t' e'|l']; try discriminate. destruct e' as [l'|]; [|discriminate]. injection E as -> E1 E2 E3. econstructor; [now apply (far_cond_plain D M c)| |].
    + apply IHt. revert E2. rewrite !map_map. auto.
    + apply IHl. revert E3. rewrite !map_map. auto.
  - intros D M l D1 M1 Hl IHl s' E. destruct s' as [v' e'|v' e'|f' af' c' t' e'|l']; try discriminate. injection E as E1. constructor. apply IHl. revert E1. rewrite !map_map. auto.
  - intros D M H [|s' l'] E; [now constructor|discriminate].
  - intros D M s D1 M1 l D2 M2 Hs IHs Hl IHl [|s' l'] E; [discriminate|]. cbn [map] in E. injection E as E1 E2. econstructor; eauto.
Qed.
Lemma far_alls D M l D' M' : DomainSpec.plain_all f_log f_sqrt f_exp f_pow D M l D' M' -> forall l', map bare l' = map bare l -> DomainSpec.plain_all f_log f_sqrt f_exp f_pow D M l' D' M'.
Proof.
  induction 1 as [D M H|D M s D1 M1 l D2 M2 Hs Hl IHl]; intros [|s' l'] E; try discriminate; [now constructor|]. cbn [map] in E. injection E as E1 E2. econstructor; [|eauto]. now apply (far_stmts D M s).
Qed.
Lemma far_events D M l : plain_events f_log f_sqrt f_exp f_pow D M l -> forall l', map (map bare) l' = map (map bare) l -> plain_events f_log f_sqrt f_exp f_pow D M l'.
Proof.
  induction 1 as [D M|D M e D1 M1 l He Hl IH]; intros [|e' l'] E; try discriminate; [constructor|]. cbn [map] in E. injection E as E1 E2. econstructor; [|eauto]. now apply (far_alls D M e).
Qed.
End Real.
