(** Proofs about valuing scripts: reading a script by names and by indices; the tasks of a simulation. *)
From Coq Require Import ZArith List Bool Lia ZifyBool Permutation.
From Verif Require Import Base Vec StringModel StringSpec StringProofs ScriptModel ScriptSpec ScriptEval ScriptIndex FuzzyModel FuzzySpec FuzzyProofs DomainModel SimModel ValueModel ValueSpec.
Import ListNotations.
Open Scope Z_scope.

Section ByName.
Context {N : Num}.
Variable names : list str.
(** every name is where its index says, and names are told apart by their indices *)
Hypothesis names_apart : forall i j x y, nth_error names i = Some x -> nth_error names j = Some y -> ci_eqb x y = true -> i = j.
Definition known_at (p : str * Z) : Prop := 0 <= snd p /\ find_name names (fst p) = Some (Z.to_nat (snd p)).
Definition agree (env : list num) (w : values) : Prop := length env = length names /\ forall n i, find_name names n = Some i -> nth i env n_zero = w n.
Lemma amount_ok past smp env w e : agree env w -> Forall known_at (expr_vars e) -> meaning past smp env e = amount past smp w e.
Proof.
  intros [_ A]. induction e as [a op l IHl r IHr x|a op x IH|a|v|a n i|n i v]; cbn [expr_vars meaning amount]; intros H.
  - rewrite !Forall_app in H. destruct H as (H1 & H2 & _). now rewrite IHl, IHr.
  - now rewrite IH.
  - reflexivity.
  - reflexivity.
  - inversion H as [|? ? [H1 H2] _]; subst. unfold lookup. apply A. exact H2.
  - reflexivity.
Qed.
Lemma true_ok past smp env w c : agree env w -> Forall known_at (cond_vars c) -> truth past smp env c = true_in past smp w c.
Proof.
  intros A. induction c as [f op z e|f a IHa b IHb|f a IHa b IHb|f a IHa| |]; cbn [cond_vars truth true_in]; intros H; try reflexivity.
  - now rewrite (amount_ok past smp env w e A H).
  - rewrite Forall_app in H. destruct H. now rewrite IHa, IHb.
  - rewrite Forall_app in H. destruct H. now rewrite IHa, IHb.
  - now rewrite IHa.
Qed.
Lemma store_agree env w n i v : agree env w -> known_at (n, i) -> agree (store env i v) (assign w n v).
Proof.
  intros [L A] [Hi Hf]. cbn [fst snd] in *. pose proof (find_name_bound _ _ _ Hf) as Hb. unfold store. split.
  - rewrite app_length. cbn [length]. rewrite firstn_length, skipn_length. lia.
  - intros n' j Hj. unfold assign. destruct (ci_eqb n n') eqn:E.
    + rewrite <- (find_name_ci _ _ _ E), Hf in Hj. injection Hj as <-. rewrite app_nth2; rewrite firstn_length, Nat.min_l by lia; [|lia]. now rewrite Nat.sub_diag.
    + assert (Hne : j <> Z.to_nat i).
      { intros ->. destruct (find_name_some _ _ _ Hf) as (a & Ea & Ca). destruct (find_name_some _ _ _ Hj) as (b & Eb & Cb). assert (a = b) by congruence. subst b.
        rewrite ci_eq_sym in Ca. rewrite (ci_eqb_trans _ _ _ Ca Cb) in E. discriminate. }
      rewrite <- (A n' j Hj). clear - Hne Hb L. revert Hb Hne. rewrite <- L. generalize (Z.to_nat i) as k. clear. intros k. revert j k. induction env as [|x env IH]; intros j k Hb Hne; cbn [length] in Hb; [lia|].
      destruct k as [|k]; cbn [firstn skipn app].
      * destruct j as [|j]; [lia|]. reflexivity.
      * destruct j as [|j]; [reflexivity|]. cbn [nth]. apply (IH j k); lia.
Qed.
Definition performs (past : bool) (smp : sample) (s : stmt) : Prop := forall env w, agree env w -> agree (exec past smp s env) (perform past smp s w).
Lemma fold_performs past smp l : Forall (performs past smp) l -> forall env w, agree env w ->
  agree (fold_left (fun env s => exec past smp s env) l env) (fold_left (fun env s => perform past smp s env) l w).
Proof. induction 1 as [|s l Hs _ IH]; intros env w A; cbn [fold_left]; [exact A|]. apply IH. now apply Hs. Qed.
Lemma perform_ok past smp s : var_targets s -> Forall known_at (stmt_vars s) -> performs past smp s.
Proof.
  assert (HF : forall l, Forall (fun s => var_targets s -> Forall known_at (stmt_vars s) -> performs past smp s) l -> fold_right (fun s P => var_targets s /\ P) True l ->
    Forall known_at (fold_right (fun s acc => stmt_vars s ++ acc) [] l) -> Forall (performs past smp) l).
  { induction 1 as [|s0 l H0 _ IH]; cbn [fold_right]; intros V K; [constructor|]. destruct V as [V1 V2]. rewrite Forall_app in K. destruct K. constructor; auto. }
  induction s as [v e|v e|f af c t Ht|f af c t l Ht Hl|l Hl] using stmt_ind'; cbn [var_targets stmt_vars]; intros V K env w A.
  - destruct v as [a n i|]; [|contradiction]. cbn [lhs_vars app] in K. inversion K; subst. cbn [exec perform lhs_index]. rewrite (amount_ok past smp env w e A) by assumption. now apply store_agree.
  - destruct v as [a n i|]; [|contradiction]. cbn [lhs_vars app] in K. inversion K as [|? ? K1 K2]; subst. cbn [exec perform lhs_index]. destruct past; [exact A|]. rewrite (amount_ok false smp env w e A) by assumption.
    replace (lookup env i) with (w n) by (symmetry; destruct A as [_ A]; apply (A n); apply K1). now apply store_agree.
  - rewrite !app_nil_r in K. rewrite Forall_app in K. destruct K as [K1 K2]. destruct V as [V _]. cbn [exec perform]. rewrite (true_ok past smp env w c A K1).
    destruct (true_in past smp w c); [|exact A]. apply fold_performs; auto.
  - rewrite !Forall_app in K. destruct K as (K1 & K2 & K3). destruct V as [V1 V2]. cbn [exec perform]. rewrite (true_ok past smp env w c A K1).
    destruct (true_in past smp w c); apply fold_performs; auto.
  - cbn [exec perform]. apply fold_performs; auto.
Qed.
Lemma known_all l : Forall known_at (flat_map stmt_vars l) <-> Forall (fun s => Forall known_at (stmt_vars s)) l.
Proof. induction l as [|s l IH]; cbn [flat_map]; [split; constructor|]. rewrite Forall_app, IH. split; [intros []; constructor; auto|intros H; inversion H; auto]. Qed.
Lemma perform_all_ok past smp l : Forall var_targets l -> Forall known_at (flat_map stmt_vars l) -> forall env w, agree env w -> agree (exec_all past smp l env) (perform_all past smp l w).
Proof.
  intros V K. unfold exec_all, perform_all. apply fold_performs. rewrite known_all in K. rewrite Forall_forall in *. intros s Hs. apply perform_ok; auto.
Qed.
Lemma perform_past_ok l : Forall (Forall var_targets) l -> Forall known_at (all_vars l) -> forall env w, agree env w -> agree (exec_past l env) (perform_past l w).
Proof.
  unfold exec_past, perform_past, all_vars. induction 1 as [|e l He _ IH]; cbn [fold_left flat_map]; intros K env w A; [exact A|]. rewrite Forall_app in K. destruct K as [K1 K2].
  apply IH; [exact K2|]. now apply perform_all_ok.
Qed.
Lemma perform_future_ok l : Forall (Forall var_targets) l -> Forall known_at (all_vars l) -> forall scen env w, agree env w -> agree (exec_events l scen env) (perform_future l scen w).
Proof.
  unfold all_vars. induction 1 as [|e l He _ IH]; cbn [flat_map]; intros K scen env w A; [exact A|]. rewrite Forall_app in K. destruct K as [K1 K2].
  destruct scen as [|smp ss]; cbn [exec_events perform_future]; [exact A|]. apply IH; [exact K2|]. now apply perform_all_ok.
Qed.
End ByName.

(** ** Indices and marks do not matter to the written script *)
Section Plain.
Context {N : Num}.
Lemma amount_plain past smp w e : amount past smp w (plain_expr e) = amount past smp w e.
Proof. induction e as [a op l IHl r IHr x|a op x IH|a|v|a n i|n i v]; cbn [plain_expr amount]; congruence. Qed.
Lemma true_plain past smp w c : true_in past smp w (plain_cond c) = true_in past smp w c.
Proof. induction c; cbn [plain_cond true_in]; rewrite ?amount_plain; congruence. Qed.
Lemma fold_plain past smp l : Forall (fun s => forall w, perform past smp (plain_stmt s) w = perform past smp s w) l -> forall w,
  fold_left (fun env s => perform past smp s env) (map plain_stmt l) w = fold_left (fun env s => perform past smp s env) l w.
Proof. induction 1 as [|s l Hs _ IH]; intros w; cbn [fold_left map]; [reflexivity|]. now rewrite Hs. Qed.
Lemma perform_plain past smp s : forall w, perform past smp (plain_stmt s) w = perform past smp s w.
Proof.
  induction s as [v e|v e|f af c t Ht|f af c t l Ht Hl|l Hl] using stmt_ind'; intros w; cbn [plain_stmt perform option_map].
  - destruct v; cbn [plain_lhs]; [now rewrite amount_plain|reflexivity].
  - destruct v; cbn [plain_lhs]; [now rewrite amount_plain|reflexivity].
  - rewrite true_plain. now rewrite fold_plain.
  - rewrite true_plain. now rewrite !fold_plain.
  - now apply fold_plain.
Qed.
Lemma perform_all_plain past smp l l' : map plain_stmt l = map plain_stmt l' -> forall w, perform_all past smp l w = perform_all past smp l' w.
Proof.
  intros H w. unfold perform_all. rewrite <- (fold_plain past smp l), <- (fold_plain past smp l'), H; [reflexivity| |]; apply Forall_forall; intros; apply perform_plain.
Qed.
Lemma perform_past_plain l : forall l' w, map (map plain_stmt) l = map (map plain_stmt) l' -> perform_past l w = perform_past l' w.
Proof.
  unfold perform_past. induction l as [|e l IH]; intros [|e' l'] w H; try discriminate; [reflexivity|]. cbn [map fold_left] in *. injection H as H1 H2.
  rewrite (perform_all_plain true _ _ _ H1). now apply IH.
Qed.
Lemma perform_future_plain l : forall l' scen w, map (map plain_stmt) l = map (map plain_stmt) l' -> perform_future l scen w = perform_future l' scen w.
Proof.
  induction l as [|e l IH]; intros [|e' l'] scen w H; try discriminate; [reflexivity|]. cbn [map perform_future] in *. injection H as H1 H2. destruct scen as [|smp ss]; [reflexivity|].
  rewrite (perform_all_plain false _ _ _ H1). now apply IH.
Qed.
Lemma expr_vars_plain e : map fst (expr_vars (plain_expr e)) = map fst (expr_vars e).
Proof.
  induction e as [a op l r x IHl IHr IHx|a op x IH|a|v|a n i|n i v] using expr_ind'; cbn [plain_expr expr_vars]; auto.
  rewrite !map_app, IHl, IHr. f_equal. f_equal. induction IHx as [|y ys Hy _ IH]; cbn [map fold_right]; [reflexivity|]. rewrite !map_app, Hy, IH. reflexivity.
Qed.
Lemma cond_vars_plain c : map fst (cond_vars (plain_cond c)) = map fst (cond_vars c).
Proof. induction c; cbn [plain_cond cond_vars]; rewrite ?map_app, ?expr_vars_plain; congruence. Qed.
Lemma stmt_vars_plain s : map fst (stmt_vars (plain_stmt s)) = map fst (stmt_vars s).
Proof.
  assert (HF : forall l, Forall (fun s => map fst (stmt_vars (plain_stmt s)) = map fst (stmt_vars s)) l ->
    map fst (fold_right (fun s acc => stmt_vars s ++ acc) [] (map plain_stmt l)) = map fst (fold_right (fun s acc => stmt_vars s ++ acc) [] l)).
  { induction 1 as [|s0 l H0 _ IH]; cbn [map fold_right]; [reflexivity|]. rewrite !map_app, H0, IH. reflexivity. }
  assert (HL : forall v : lhs, map fst (lhs_vars (plain_lhs v)) = map fst (lhs_vars v)) by (intros []; reflexivity).
  induction s as [v e|v e|f af c t Ht|f af c t l Ht Hl|l Hl] using stmt_ind'; cbn [plain_stmt stmt_vars option_map]; rewrite ?map_app, ?expr_vars_plain, ?cond_vars_plain, ?HL, ?HF by assumption; reflexivity.
Qed.
Lemma all_vars_plain l : forall l', map (map plain_stmt) l = map (map plain_stmt) l' -> map fst (all_vars l) = map fst (all_vars l').
Proof.
  assert (G : forall l : list stmt, map fst (flat_map stmt_vars (map plain_stmt l)) = map fst (flat_map stmt_vars l)).
  { induction l0 as [|s l0 IH]; cbn [map flat_map]; [reflexivity|]. rewrite !map_app, stmt_vars_plain, IH. reflexivity. }
  unfold all_vars. induction l as [|e l IH]; intros [|e' l'] H; try discriminate; [reflexivity|]. cbn [map flat_map] in *. injection H as H1 H2. rewrite !map_app, (IH l' H2), <- (G e), <- (G e'), H1. reflexivity.
Qed.
Lemma targets_plain l l' : map (map plain_stmt) l = map (map plain_stmt) l' -> Forall (Forall var_targets) l -> Forall (Forall var_targets) l'.
Proof.
  revert l'. induction l as [|e l IH]; intros [|e' l'] H V; try discriminate; [constructor|]. cbn [map] in H. injection H as H1 H2. inversion V as [|? ? V1 V2]; subst. constructor; [|eauto].
  clear - H1 V1. revert e' H1. induction V1 as [|s e Hs _ IH]; intros [|s' e'] H; try discriminate; [constructor|]. cbn [map] in H. injection H as H1 H2. constructor; [|eauto].
  apply plain_targets. rewrite <- H1. now apply plain_targets.
Qed.
End Plain.

(** ** The tasks of a simulation *)
Section Tasks.
Context {N : Num}.
Variable eval : list sample -> estate -> outcome estate.
Variable at_ : Z.
Variable value : list sample -> num.
Variable usable : list sample -> Prop.
Hypothesis eval_ok : forall scen st, usable scen -> exists s, eval scen st = Ok s /\ vget (vars s) at_ = Ok (value scen).
Lemma run_paths_ok draw : (forall i, usable (draw i)) -> forall k i st sum, exists st', run_paths eval at_ draw i k st sum = Ok (st', fold_left n_add (map (fun j => value (draw j)) (seq i k)) sum).
Proof.
  intros U. induction k as [|k IH]; intros i st sum; cbn [run_paths seq map fold_left]; [eauto|]. destruct (eval_ok (draw i) st (U i)) as (s & -> & V). cbn [obind]. rewrite V. cbn [obind]. apply IH.
Qed.
Definition task_value (draw : Z -> nat -> list sample) (t : Z * Z) : num := sum_up (Z.to_nat (snd t)) (fun i => value (draw (fst t) i)).
Lemma run_tasks_ok draw ts : (forall f i, usable (draw f i)) -> forall order states res, length res = length ts -> NoDup (map fst order) ->
  Forall (fun p => (fst p < length ts)%nat /\ (snd p < length states)%nat) order -> (forall k, In k (map fst order) -> nth k res n_zero = n_zero) ->
  exists res', run_tasks eval at_ draw ts order states res = Ok res' /\ length res' = length ts /\
    forall k, (k < length ts)%nat -> nth k res' n_zero = if existsb (Nat.eqb k) (map fst order) then task_value draw (nth k ts (0, 0)) else nth k res n_zero.
Proof.
  intros U. induction order as [|[k th] r IH]; intros states res L Nd F Z; cbn [run_tasks]; [exists res; split; [reflexivity|]; split; [exact L|]; intros; reflexivity|].
  inversion F as [|? ? [F1 F2] F3]; subst. cbn [fst snd map] in *. inversion Nd as [|? ? Nk Nr]; subst.
  rewrite (get_ok ts k (0, 0) F1), (get_ok states th (EState [] empty_stack empty_stack) F2), (get_ok res k n_zero ltac:(lia)). cbn [obind]. rewrite Z by now left.
  destruct (run_paths_ok (draw (fst (nth k ts (0, 0)))) (U _) (Z.to_nat (snd (nth k ts (0, 0)))) 0 (nth th states (EState [] empty_stack empty_stack)) n_zero) as (st' & ->). cbn [obind fst snd].
  rewrite put_ok by assumption. cbn [obind]. rewrite put_ok by lia. cbn [obind].
  destruct (IH (set_nth states th st') (set_nth res k (fold_left n_add (map (fun j => value (draw (fst (nth k ts (0, 0))) j)) (seq 0 (Z.to_nat (snd (nth k ts (0, 0)))))) n_zero))) as (res' & E & L' & V).
  - now rewrite set_nth_length.
  - exact Nr.
  - rewrite set_nth_length. exact F3.
  - intros j Hj. rewrite nth_set_nth by lia. destruct (Nat.eqb_spec j k) as [->|]; [contradiction|]. apply Z. now right.
  - exists res'. split; [exact E|]. split; [exact L'|]. intros j Hj. rewrite (V j Hj). cbn [existsb map fst]. destruct (existsb (Nat.eqb j) (map fst r)) eqn:Ex; [now rewrite orb_true_r|]. rewrite orb_false_r.
    rewrite nth_set_nth by lia. destruct (Nat.eqb_spec j k) as [->|]; reflexivity.
Qed.
Lemma run_all_tasks draw ts order states : (forall f i, usable (draw f i)) -> Permutation (map fst order) (seq 0 (length ts)) -> Forall (fun p => (snd p < length states)%nat) order ->
  run_tasks eval at_ draw ts order states (repeat n_zero (length ts)) = Ok (map (task_value draw) ts).
Proof.
  intros U P F. assert (Nd : NoDup (map fst order)) by (apply (Permutation_NoDup (Permutation_sym P)); apply seq_NoDup).
  destruct (run_tasks_ok draw ts U order states (repeat n_zero (length ts))) as (res & -> & L & V); [apply repeat_length|exact Nd| |intros; apply nth_repeat|].
  - rewrite Forall_forall in *. intros p Hp. split; [|auto]. assert (In (fst p) (seq 0 (length ts))) as Hi by (rewrite <- P; now apply in_map). apply in_seq in Hi. lia.
  - f_equal. apply (nth_ext _ _ n_zero (task_value draw (0, 0))); [now rewrite map_length|]. intros k Hk. rewrite L in Hk. rewrite (V k Hk), map_nth.
    replace (existsb (Nat.eqb k) (map fst order)) with true; [reflexivity|]. symmetry. apply existsb_exists. exists k. split; [|apply Nat.eqb_refl]. rewrite P. apply in_seq. lia.
Qed.
End Tasks.
