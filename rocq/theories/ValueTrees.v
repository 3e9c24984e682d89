(** The same script under another name: what does not depend on the indices and marks of a tree. *)
From Coq Require Import ZArith List Bool Lia ZifyBool.
From Verif Require Import Base Vec StringModel StringSpec ScriptModel ScriptSpec ScriptEval ScriptIndex FuzzyModel FuzzySpec FuzzyProofs DomainModel ValueModel ValueSpec ValueProofs ScriptModel ScriptSpec.
Import ListNotations.
Open Scope Z_scope.

Section Trees.
Context {N : Num}.
(** a property of statements, and of the lists of statements in them *)
Lemma map_same {A B : Type} (f : A -> B) (g : A -> A) l : Forall (fun x => f (g x) = f x) l -> map f (map g l) = map f l.
Proof. induction 1 as [|x l H _ IH]; cbn [map]; congruence. Qed.
Lemma fold_iff (P : stmt -> Prop) (g : stmt -> stmt) l : Forall (fun x => P (g x) <-> P x) l -> fold_right (fun s Q => P s /\ Q) True (map g l) <-> fold_right (fun s Q => P s /\ Q) True l.
Proof. induction 1 as [|x l H _ IH]; cbn [map fold_right]; [tauto|]. now rewrite H, IH. Qed.
Lemma need_plain e : need (plain_expr e) = need e.
Proof. induction e; cbn [plain_expr need]; congruence. Qed.
Lemma cneed_plain c : cneed (plain_cond c) = cneed c.
Proof. induction c; cbn [plain_cond cneed]; rewrite ?need_plain; congruence. Qed.
Lemma bneed_plain c : bneed (plain_cond c) = bneed c.
Proof. induction c; cbn [plain_cond bneed]; congruence. Qed.
Lemma fits_plain d s : fits d (plain_stmt s) <-> fits d s.
Proof.
  induction s as [v e|v e|f af c t Ht|f af c t l Ht Hl|l Hl] using stmt_ind'; cbn [plain_stmt fits option_map]; rewrite ?need_plain, ?cneed_plain, ?bneed_plain, ?fold_iff by assumption; tauto.
Qed.
Lemma fits_unmarked d s : fits d (unmarked s) <-> fits d s.
Proof. induction s as [v e|v e|f af c t Ht|f af c t l Ht Hl|l Hl] using stmt_ind'; cbn [unmarked fits option_map]; rewrite ?fold_iff by assumption; tauto. Qed.
Lemma fold_sum (f : stmt -> Z) (g : stmt -> stmt) l : Forall (fun x => f (g x) = f x) l -> fold_right (fun s n => f s + n) 0 (map g l) = fold_right (fun s n => f s + n) 0 l.
Proof. induction 1 as [|x l H _ IH]; cbn [map fold_right]; [reflexivity|]. now rewrite H, IH. Qed.
Lemma fold_max (f : stmt -> Z) (g : stmt -> stmt) l : Forall (fun x => f (g x) = f x) l -> fold_right (fun s n => Z.max (f s) n) 0 (map g l) = fold_right (fun s n => Z.max (f s) n) 0 l.
Proof. induction 1 as [|x l H _ IH]; cbn [map fold_right]; [reflexivity|]. now rewrite H, IH. Qed.
Lemma payments_plain s : payments (plain_stmt s) = payments s.
Proof. induction s as [v e|v e|f af c t Ht|f af c t l Ht Hl|l Hl] using stmt_ind'; cbn [plain_stmt payments option_map]; rewrite ?fold_sum by assumption; reflexivity. Qed.
Lemma depth_plain s : depth (plain_stmt s) = depth s.
Proof. induction s as [v e|v e|f af c t Ht|f af c t l Ht Hl|l Hl] using stmt_ind'; cbn [plain_stmt depth option_map]; rewrite ?fold_max by assumption; reflexivity. Qed.
Lemma wf_unmarked nv consts s : wf_stmt nv consts (unmarked s) <-> wf_stmt nv consts s.
Proof. induction s as [v e|v e|f af c t Ht|f af c t l Ht Hl|l Hl] using stmt_ind'; cbn [unmarked wf_stmt option_map]; rewrite ?fold_iff by assumption; tauto. Qed.
Lemma fold_exec past smp (g : stmt -> stmt) l : Forall (fun s => forall env, exec past smp (g s) env = exec past smp s env) l -> forall env,
  fold_left (fun env s => exec past smp s env) (map g l) env = fold_left (fun env s => exec past smp s env) l env.
Proof. induction 1 as [|s l Hs _ IH]; intros env; cbn [fold_left map]; [reflexivity|]. now rewrite Hs. Qed.
Lemma exec_unmarked past smp s : forall env, exec past smp (unmarked s) env = exec past smp s env.
Proof.
  induction s as [v e|v e|f af c t Ht|f af c t l Ht Hl|l Hl] using stmt_ind'; intros env; cbn [unmarked exec option_map]; rewrite ?fold_exec by assumption; reflexivity.
Qed.
(** events *)
Lemma same_lists {A : Type} (g : A -> A) (P : A -> Prop) : (forall x, P (g x) <-> P x) -> forall l l', map (map g) l = map (map g) l' -> Forall (Forall P) l -> Forall (Forall P) l'.
Proof.
  intros H l. induction l as [|e l IH]; intros [|e' l'] E F; try discriminate; [constructor|]. cbn [map] in E. injection E as E1 E2. inversion F as [|? ? F1 F2]; subst. constructor; [|eauto].
  clear - H E1 F1. revert e' E1. induction F1 as [|s e Hs _ IH]; intros [|s' e'] E; try discriminate; [constructor|]. cbn [map] in E. injection E as E1 E2. constructor; [|eauto]. rewrite <- H, <- E1. now apply H.
Qed.
Lemma exec_all_unmarked past smp l l' : map unmarked l = map unmarked l' -> forall env, exec_all past smp l env = exec_all past smp l' env.
Proof.
  intros H env. unfold exec_all. rewrite <- (fold_exec past smp unmarked l), <- (fold_exec past smp unmarked l'), H; [reflexivity| |]; apply Forall_forall; intros; apply exec_unmarked.
Qed.
Lemma exec_events_unmarked l : forall l' scen env, map (map unmarked) l = map (map unmarked) l' -> exec_events l scen env = exec_events l' scen env.
Proof.
  induction l as [|e l IH]; intros [|e' l'] scen env H; try discriminate; [reflexivity|]. cbn [map exec_events] in *. injection H as H1 H2. destruct scen as [|smp ss]; [reflexivity|].
  rewrite (exec_all_unmarked false _ _ _ H1). now apply IH.
Qed.
Lemma exec_past_unmarked l : forall l' env, map (map unmarked) l = map (map unmarked) l' -> exec_past l env = exec_past l' env.
Proof.
  unfold exec_past. induction l as [|e l IH]; intros [|e' l'] env H; try discriminate; [reflexivity|]. cbn [map fold_left] in *. injection H as H1 H2.
  rewrite (exec_all_unmarked true _ _ _ H1). now apply IH.
Qed.
Lemma payments_events_same (g : stmt -> stmt) : (forall s, payments (g s) = payments s) -> forall l l', map (map g) l = map (map g) l' -> payments_events l = payments_events l'.
Proof.
  intros G l. assert (A : forall e, payments_all (map g e) = payments_all e) by (intros e; apply fold_sum; apply Forall_forall; auto).
  induction l as [|e l IH]; intros [|e' l'] H; try discriminate; [reflexivity|]. cbn [map] in H. injection H as H1 H2. unfold payments_events. cbn [fold_right]. fold (payments_events l). fold (payments_events l').
  rewrite <- (A e), <- (A e'), H1, (IH l' H2). reflexivity.
Qed.
Lemma payments_unmarked s : payments (unmarked s) = payments s.
Proof. induction s as [v e|v e|f af c t Ht|f af c t l Ht Hl|l Hl] using stmt_ind'; cbn [unmarked payments option_map]; rewrite ?fold_sum by assumption; reflexivity. Qed.
Lemma depth_events_same l : forall l', map (map plain_stmt) l = map (map plain_stmt) l' -> depth_events l = depth_events l'.
Proof.
  assert (A : forall e : list stmt, depth_all (map plain_stmt e) = depth_all e) by (intros e; apply fold_max; apply Forall_forall; intros; apply depth_plain).
  induction l as [|e l IH]; intros [|e' l'] H; try discriminate; [reflexivity|]. cbn [map] in H. injection H as H1 H2. unfold depth_events. cbn [fold_right]. fold (depth_events l). fold (depth_events l').
  rewrite <- (A e), <- (A e'), H1, (IH l' H2). reflexivity.
Qed.
(** constants *)
Definition name_value (c : str * Z * num) : str * num := (fst (fst c), snd c).
Lemma expr_consts_plain e : map name_value (expr_consts (plain_expr e)) = map name_value (expr_consts e).
Proof.
  induction e as [a op l r x IHl IHr IHx|a op x IH|a|v|a n i|n i v] using expr_ind'; cbn [plain_expr expr_consts]; auto.
  rewrite !map_app, IHl, IHr. f_equal. f_equal. induction IHx as [|y ys Hy _ IH]; cbn [map fold_right]; [reflexivity|]. rewrite !map_app, Hy, IH. reflexivity.
Qed.
Lemma cond_consts_plain c : map name_value (cond_consts (plain_cond c)) = map name_value (cond_consts c).
Proof. induction c; cbn [plain_cond cond_consts]; rewrite ?map_app, ?expr_consts_plain; congruence. Qed.
Lemma stmt_consts_plain s : map name_value (stmt_consts (plain_stmt s)) = map name_value (stmt_consts s).
Proof.
  assert (HF : forall l, Forall (fun s => map name_value (stmt_consts (plain_stmt s)) = map name_value (stmt_consts s)) l ->
    map name_value (fold_right (fun s acc => stmt_consts s ++ acc) [] (map plain_stmt l)) = map name_value (fold_right (fun s acc => stmt_consts s ++ acc) [] l)).
  { induction 1 as [|s0 l H0 _ IH]; cbn [map fold_right]; [reflexivity|]. rewrite !map_app, H0, IH. reflexivity. }
  assert (HL : forall v : lhs, map name_value (lhs_consts (plain_lhs v)) = map name_value (lhs_consts v)) by (intros []; reflexivity).
  induction s as [v e|v e|f af c t Ht|f af c t l Ht Hl|l Hl] using stmt_ind'; cbn [plain_stmt stmt_consts option_map]; rewrite ?map_app, ?expr_consts_plain, ?cond_consts_plain, ?HL, ?HF by assumption; reflexivity.
Qed.
Lemma all_consts_plain l : forall l', map (map plain_stmt) l = map (map plain_stmt) l' -> map name_value (all_consts l) = map name_value (all_consts l').
Proof.
  assert (G : forall l : list stmt, map name_value (flat_map stmt_consts (map plain_stmt l)) = map name_value (flat_map stmt_consts l)).
  { induction l0 as [|s l0 IH]; cbn [map flat_map]; [reflexivity|]. rewrite !map_app, stmt_consts_plain, IH. reflexivity. }
  unfold all_consts. induction l as [|e l IH]; intros [|e' l'] H; try discriminate; [reflexivity|]. cbn [map flat_map] in *. injection H as H1 H2. rewrite !map_app, (IH l' H2), <- (G e), <- (G e'), H1. reflexivity.
Qed.
Lemma one_value_same (l l' : list (str * Z * num)) : map name_value l = map name_value l' -> one_value l -> one_value l'.
Proof.
  intros H O n i v n' i' v' H1 H2. apply (in_map name_value) in H1, H2. rewrite <- H in H1, H2. apply in_map_iff in H1 as ([[a j] x] & E1 & I1). apply in_map_iff in H2 as ([[b k] y] & E2 & I2).
  unfold name_value in E1, E2. cbn in E1, E2. injection E1 as -> ->. injection E2 as -> ->. exact (O _ _ _ _ _ _ I1 I2).
Qed.
(** firstn and skipn of lists with the same image *)
Lemma map_firstn_same {A B : Type} (f : A -> B) n l l' : map f l = map f l' -> map f (firstn n l) = map f (firstn n l').
Proof. intros H. now rewrite <- !firstn_map, H. Qed.
Lemma map_skipn_same {A B : Type} (f : A -> B) n l l' : map f l = map f l' -> map f (skipn n l) = map f (skipn n l').
Proof. intros H. now rewrite <- !skipn_map, H. Qed.
Lemma fresh_expr_plain (e : expr) : fresh_expr (plain_expr e) <-> fresh_expr e.
Proof.
  induction e as [a op l r x IHl IHr IHx|a op x IH|a|v|a n i|n i v] using expr_ind'; cbn [plain_expr fresh_expr]; rewrite ?IHl, ?IHr, ?IH; try tauto.
  assert (G : fold_right (fun y P => fresh_expr y /\ P) True (map plain_expr x) <-> fold_right (fun y P => fresh_expr y /\ P) True x); [|now rewrite G].
  induction IHx as [|y x Hy _ IH]; cbn [map fold_right]; [tauto|]. now rewrite Hy, IH.
Qed.
Lemma fresh_cond_plain (c : cond) : fresh_cond (plain_cond c) <-> fresh_cond c.
Proof. induction c; cbn [plain_cond fresh_cond]; rewrite ?fresh_expr_plain; tauto. Qed.
Lemma fresh_plain (s : stmt) : fresh_stmt (plain_stmt s) <-> fresh_stmt s.
Proof.
  induction s as [v e|v e|f af c t Ht|f af c t l Ht Hl|l Hl] using stmt_ind'; cbn [plain_stmt fresh_stmt option_map]; rewrite ?fresh_expr_plain, ?fresh_cond_plain, ?fold_iff by assumption; tauto.
Qed.
Lemma low_plain lo (s : stmt) : forall est, low lo est (plain_stmt s) = low lo est s.
Proof.
  assert (HF : forall l : list stmt, Forall (fun s => forall est, low lo est (plain_stmt s) = low lo est s) l -> forall est, low_all lo est (map plain_stmt l) = low_all lo est l).
  { induction 1 as [|x l Hx _ IH]; intros est; cbn [map low_all]; [reflexivity|]. rewrite Hx. destruct (low lo est x); auto. }
  induction s as [v e|v e|f af c t Ht|f af c t l Ht Hl|l Hl] using stmt_ind'; intros est; cbn [plain_stmt option_map]; try reflexivity.
  - change (low lo est (SIf f af c t None)) with (if lo <=? est + 1 then match low_all lo est t with None => None | Some e => Some (Z.min est e) end else None).
    change (low lo est (SIf f af (plain_cond c) (map plain_stmt t) None)) with (if lo <=? est + 1 then match low_all lo est (map plain_stmt t) with None => None | Some e => Some (Z.min est e) end else None).
    now rewrite HF.
  - change (low lo est (SIf f af c t (Some l))) with (if lo <=? est + 1 then match low_all lo (-1) t, low_all lo est l with Some a, Some b => Some (Z.min (a - 1) b) | _, _ => None end else None).
    change (low lo est (SIf f af (plain_cond c) (map plain_stmt t) (Some (map plain_stmt l)))) with
      (if lo <=? est + 1 then match low_all lo (-1) (map plain_stmt t), low_all lo est (map plain_stmt l) with Some a, Some b => Some (Z.min (a - 1) b) | _, _ => None end else None).
    now rewrite !HF.
  - change (low lo est (SCollect l)) with (low_all lo est l). change (low lo est (SCollect (map plain_stmt l))) with (low_all lo est (map plain_stmt l)). now apply HF.
Qed.
Lemma low_events (l : list (list stmt)) : forall l', map (map plain_stmt) l = map (map plain_stmt) l' -> Forall (fun evt => low_all 0 (-1) evt <> None) l -> Forall (fun evt => low_all 0 (-1) evt <> None) l'.
Proof.
  assert (G : forall (e : list stmt) est, low_all 0 est (map plain_stmt e) = low_all 0 est e).
  { induction e as [|s e IH]; intros est; cbn [map low_all]; [reflexivity|]. rewrite low_plain. destruct (low 0 est s); auto. }
  induction l as [|e l IH]; intros [|e' l'] E F; try discriminate; [constructor|]. cbn [map] in E. injection E as E1 E2. inversion F as [|? ? F1 F2]; subst. constructor; [|now apply IH]. rewrite <- G, <- E1, G. exact F1.
Qed.
Lemma fits_more d d' (s : stmt) : d <= d' -> fits d s -> fits d' s.
Proof.
  intros H. assert (HF : forall l : list stmt, Forall (fun s => fits d s -> fits d' s) l -> fold_right (fun s P => fits d s /\ P) True l -> fold_right (fun s P => fits d' s /\ P) True l).
  { induction 1 as [|x l Hx _ IH]; cbn [fold_right]; [tauto|]. intros []. auto. }
  induction s as [v e|v e|f af c t Ht|f af c t l Ht Hl|l Hl] using stmt_ind'; cbn [fits]; intros F; try lia.
  - destruct F as (F1 & F2 & F3 & _). split; [lia|]. split; [exact F2|]. auto.
  - destruct F as (F1 & F2 & F3 & F4). split; [lia|]. split; [exact F2|]. auto.
  - auto.
Qed.
End Trees.
