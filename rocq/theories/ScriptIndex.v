(** Proofs about the variable indexer. *)
From Coq Require Import ZArith List Bool Lia ZifyBool.
From Verif Require Import Base StringModel StringSpec StringProofs ScriptModel ScriptSpec ScriptEval.
Import ListNotations.
Open Scope Z_scope.

Lemma find_name_app l r n i : find_name l n = Some i -> find_name (l ++ r) n = Some i.
Proof.
  revert i. induction l as [|x l IH]; intros i; cbn [find_name app]; [discriminate|]. destruct (ci_eqb x n); [auto|].
  destruct (find_name l n) as [j|] eqn:E; cbn [option_map]; [|discriminate]. intros [= <-]. now rewrite (IH j eq_refl).
Qed.
Lemma find_name_some l n i : find_name l n = Some i -> exists m, nth_error l i = Some m /\ ci_eqb m n = true.
Proof.
  revert i. induction l as [|x l IH]; intros i; cbn [find_name]; [discriminate|]. destruct (ci_eqb x n) eqn:E.
  - intros [= <-]. exists x. auto.
  - destruct (find_name l n) as [j|] eqn:F; cbn [option_map]; [|discriminate]. intros [= <-]. apply IH. reflexivity.
Qed.
Lemma find_name_none l n : find_name l n = None -> forall x, In x l -> ci_eqb x n = false.
Proof.
  induction l as [|y l IH]; cbn [find_name]; [intros _ x []|]. destruct (ci_eqb y n) eqn:E; [discriminate|].
  destruct (find_name l n); [discriminate|]. intros _ x [<-|H]; auto.
Qed.
Lemma find_name_last l n : find_name l n = None -> find_name (l ++ [n]) n = Some (length l).
Proof.
  induction l as [|y l IH]; cbn [find_name app length]; [now rewrite ci_eqb_refl|]. destruct (ci_eqb y n); [discriminate|].
  destruct (find_name l n); [discriminate|]. intros _. now rewrite IH.
Qed.
Lemma find_name_ci l n m : ci_eqb n m = true -> find_name l n = find_name l m.
Proof.
  intros H. induction l as [|x l IH]; cbn [find_name]; [reflexivity|]. rewrite IH.
  destruct (ci_eqb x n) eqn:E1, (ci_eqb x m) eqn:E2; try reflexivity.
  - rewrite (ci_eqb_trans x n m E1 H) in E2. discriminate.
  - rewrite ci_eq_sym in H. rewrite (ci_eqb_trans x m n E2 H) in E1. discriminate.
Qed.
Lemma find_name_bound l n i : find_name l n = Some i -> (i < length l)%nat.
Proof. intros H. destruct (find_name_some _ _ _ H) as (m & E & _). apply nth_error_Some. congruence. Qed.

Section Index.
Context {N : Num}.
Definition add_name (l : list str) (n : str) : list str := match find_name l n with Some _ => l | None => l ++ [n] end.
Definition add_const (l : list (str * num)) (c : str * num) : list (str * num) :=
  match find_name (map fst l) (fst c) with Some _ => l | None => l ++ [c] end.
Definition strip (c : str * Z * num) : str * num := (fst (fst c), snd c).
Lemma add_names_ext ns : forall l, exists r, fold_left add_name ns l = l ++ r.
Proof.
  induction ns as [|n ns IH]; intros l; cbn [fold_left]; [exists []; now rewrite app_nil_r|]. unfold add_name at 2.
  destruct (find_name l n); [apply IH|]. destruct (IH (l ++ [n])) as (r & ->). exists (n :: r). now rewrite <- app_assoc.
Qed.
Lemma add_consts_ext ns : forall l, exists r, fold_left add_const ns l = l ++ r.
Proof.
  induction ns as [|n ns IH]; intros l; cbn [fold_left]; [exists []; now rewrite app_nil_r|]. unfold add_const at 2.
  destruct (find_name (map fst l) (fst n)); [apply IH|]. destruct (IH (l ++ [n])) as (r & ->). exists (n :: r). now rewrite <- app_assoc.
Qed.
(** indexing took [m] to [m'], writing the indices in [vs] and [cs] *)
Definition took (m m' : index_maps) (vs : list (str * Z)) (cs : list (str * Z * num)) : Prop :=
  v_names m' = fold_left add_name (map fst vs) (v_names m) /\ c_names m' = fold_left add_const (map strip cs) (c_names m) /\
  (forall n i, In (n, i) vs -> 0 <= i /\ find_name (v_names m') n = Some (Z.to_nat i)) /\
  (forall n i v, In (n, i, v) cs -> 0 <= i /\ find_name (map fst (c_names m')) n = Some (Z.to_nat i)).
Lemma took_nil m : took m m [] [].
Proof. repeat split; cbn; intros; contradiction. Qed.
Lemma took_app m1 m2 m3 a b c d : took m1 m2 a c -> took m2 m3 b d -> took m1 m3 (a ++ b) (c ++ d).
Proof.
  intros (A1 & A2 & A3 & A4) (B1 & B2 & B3 & B4). split; [|split; [|split]].
  - now rewrite map_app, fold_left_app, <- A1.
  - now rewrite map_app, fold_left_app, <- A2.
  - intros n i Hin. apply in_app_iff in Hin as [Hin|Hin]; [|now apply B3]. destruct (A3 n i Hin) as [H1 H2]. split; [exact H1|].
    rewrite B1. destruct (add_names_ext (map fst b) (v_names m2)) as (r & ->). now apply find_name_app.
  - intros n i v Hin. apply in_app_iff in Hin as [Hin|Hin]; [|now apply (B4 n i v)]. destruct (A4 n i v Hin) as [H1 H2]. split; [exact H1|].
    rewrite B2. destruct (add_consts_ext (map strip d) (c_names m2)) as (r & ->). rewrite map_app. now apply find_name_app.
Qed.
Lemma index_var_took m n m' i : index_var m n = (m', i) -> took m m' [(n, i)] [].
Proof.
  unfold index_var. intros H. destruct (find_name (v_names m) n) as [j|] eqn:E; injection H as <- <-; unfold took; cbn [map fst fold_left v_names c_names]; unfold add_name; rewrite E.
  - split; [reflexivity|]. split; [reflexivity|]. split; [|intros ? ? ? []]. intros n0 i0 [[= <- <-]|[]]. rewrite Nat2Z.id. split; [lia|exact E].
  - split; [reflexivity|]. split; [reflexivity|]. split; [|intros ? ? ? []]. intros n0 i0 [[= <- <-]|[]]. rewrite Nat2Z.id. split; [lia|]. now apply find_name_last.
Qed.
Lemma index_const_took m n v m' i : index_const m n v = (m', i) -> took m m' [] [(n, i, v)].
Proof.
  unfold index_const. intros H. destruct (find_name (map fst (c_names m)) n) as [j|] eqn:E; injection H as <- <-; unfold took, add_const, strip; cbn [map fst fold_left v_names c_names snd]; rewrite E.
  - split; [reflexivity|]. split; [reflexivity|]. split; [intros ? ? []|]. intros n0 i0 v0 [[= <- <- <-]|[]]. rewrite Nat2Z.id. split; [lia|exact E].
  - split; [reflexivity|]. split; [reflexivity|]. split; [intros ? ? []|]. intros n0 i0 v0 [[= <- <- <-]|[]]. rewrite Nat2Z.id. split; [lia|].
    rewrite map_app. cbn [map fst]. rewrite (find_name_last _ _ E). now rewrite map_length.
Qed.

Definition index_list : list expr -> index_maps -> index_maps * list expr :=
  fix go (x : list expr) (m : index_maps) : index_maps * list expr :=
    match x with [] => (m, []) | y :: ys => let '(m', y') := index_expr y m in let '(m'', ys') := go ys m' in (m'', y' :: ys') end.
Lemma index_expr_ok e : forall m m' e', index_expr e m = (m', e') -> took m m' (expr_vars e') (expr_consts e') /\ plain_expr e' = plain_expr e.
Proof.
  induction e as [a op l r x Hl Hr Hx|a op x IH|a|v|a n i|n i v] using expr_ind'; intros m m' e' H; cbn [index_expr] in H.
  - destruct (index_expr l m) as [m1 l'] eqn:El. destruct (index_expr r m1) as [m2 r'] eqn:Er. fold index_list in H.
    destruct (index_list x m2) as [m3 x'] eqn:Ex. injection H as <- <-. destruct (Hl _ _ _ El) as [T1 P1]. destruct (Hr _ _ _ Er) as [T2 P2].
    assert (Hxs : took m2 m3 (fold_right (fun y acc => expr_vars y ++ acc) [] x') (fold_right (fun y acc => expr_consts y ++ acc) [] x') /\ map plain_expr x' = map plain_expr x).
    { clear - Hx Ex. revert m2 m3 x' Ex. induction Hx as [|y x Hy _ IH]; intros m2 m3 x' Ex; cbn [index_list] in Ex.
      - injection Ex as <- <-. split; [apply took_nil|reflexivity].
      - destruct (index_expr y m2) as [m4 y'] eqn:Ey. fold index_list in Ex. destruct (index_list x m4) as [m5 ys'] eqn:Eys. injection Ex as <- <-.
        destruct (Hy _ _ _ Ey) as [T1 P1]. destruct (IH _ _ _ Eys) as [T2 P2]. cbn [fold_right map]. split; [eapply took_app; eassumption|congruence]. }
    destruct Hxs as [T3 P3]. cbn [expr_vars expr_consts plain_expr]. split; [|congruence]. eapply took_app; [exact T1|]. eapply took_app; eassumption.
  - destruct (index_expr x m) as [m1 x'] eqn:Ex. injection H as <- <-. destruct (IH _ _ _ Ex) as [T P]. cbn [expr_vars expr_consts plain_expr]. split; [exact T|congruence].
  - injection H as <- <-. split; [apply took_nil|reflexivity].
  - injection H as <- <-. split; [apply took_nil|reflexivity].
  - destruct (index_var m n) as [m1 j] eqn:E. injection H as <- <-. split; [apply index_var_took; exact E|reflexivity].
  - destruct (index_const m n v) as [m1 j] eqn:E. injection H as <- <-. split; [apply index_const_took; exact E|reflexivity].
Qed.
Lemma index_cond_ok c : forall m m' c', index_cond c m = (m', c') -> took m m' (cond_vars c') (cond_consts c') /\ plain_cond c' = plain_cond c.
Proof.
  induction c as [f op z e|f a IHa b IHb|f a IHa b IHb|f a IHa| |]; intros m m' c' H; cbn [index_cond] in H.
  - destruct (index_expr e m) as [m1 e'] eqn:E. injection H as <- <-. destruct (index_expr_ok e _ _ _ E) as [T P]. cbn [cond_vars cond_consts plain_cond]. split; [exact T|congruence].
  - destruct (index_cond a m) as [m1 a'] eqn:Ea. destruct (index_cond b m1) as [m2 b'] eqn:Eb. injection H as <- <-. destruct (IHa _ _ _ Ea) as [T1 P1]. destruct (IHb _ _ _ Eb) as [T2 P2].
    cbn [cond_vars cond_consts plain_cond]. split; [eapply took_app; eassumption|congruence].
  - destruct (index_cond a m) as [m1 a'] eqn:Ea. destruct (index_cond b m1) as [m2 b'] eqn:Eb. injection H as <- <-. destruct (IHa _ _ _ Ea) as [T1 P1]. destruct (IHb _ _ _ Eb) as [T2 P2].
    cbn [cond_vars cond_consts plain_cond]. split; [eapply took_app; eassumption|congruence].
  - destruct (index_cond a m) as [m1 a'] eqn:Ea. injection H as <- <-. destruct (IHa _ _ _ Ea) as [T1 P1]. cbn [cond_vars cond_consts plain_cond]. split; [exact T1|congruence].
  - injection H as <- <-. split; [apply took_nil|reflexivity].
  - injection H as <- <-. split; [apply took_nil|reflexivity].
Qed.
Lemma index_lhs_ok v m m' v' : index_lhs v m = (m', v') -> took m m' (lhs_vars v') (lhs_consts v') /\ plain_lhs v' = plain_lhs v.
Proof.
  destruct v as [a n i|n i x]; cbn [index_lhs]; intros H.
  - destruct (index_var m n) as [m1 j] eqn:E. injection H as <- <-. split; [apply index_var_took; exact E|reflexivity].
  - destruct (index_const m n x) as [m1 j] eqn:E. injection H as <- <-. split; [apply index_const_took; exact E|reflexivity].
Qed.
Definition index_good (s : stmt) : Prop := forall m m' s', index_stmt s m = (m', s') -> took m m' (stmt_vars s') (stmt_consts s') /\ plain_stmt s' = plain_stmt s.
Lemma index_all_from l : Forall index_good l -> forall m m' l', index_all l m = (m', l') ->
  took m m' (fold_right (fun s acc => stmt_vars s ++ acc) [] l') (fold_right (fun s acc => stmt_consts s ++ acc) [] l') /\ map plain_stmt l' = map plain_stmt l.
Proof.
  induction 1 as [|x l Hx _ IH]; intros m m' l' H; cbn [index_all] in H.
  - injection H as <- <-. split; [apply took_nil|reflexivity].
  - destruct (index_stmt x m) as [m1 x'] eqn:Ex. destruct (index_all l m1) as [m2 r'] eqn:Er. injection H as <- <-.
    destruct (Hx _ _ _ Ex) as [T1 P1]. destruct (IH _ _ _ Er) as [T2 P2]. cbn [fold_right map]. split; [eapply took_app; eassumption|congruence].
Qed.
Lemma index_stmt_ok s : index_good s.
Proof.
  induction s as [v e|v e|f af c t Ht|f af c t l Ht Hl|l Hl] using stmt_ind'; intros m m' s' H.
  - cbn [index_stmt] in H. destruct (index_lhs v m) as [m1 v'] eqn:Ev. destruct (index_expr e m1) as [m2 e'] eqn:Ee. injection H as <- <-.
    destruct (index_lhs_ok _ _ _ _ Ev) as [T1 P1]. destruct (index_expr_ok _ _ _ _ Ee) as [T2 P2]. cbn [stmt_vars stmt_consts plain_stmt]. split; [eapply took_app; eassumption|congruence].
  - cbn [index_stmt] in H. destruct (index_lhs v m) as [m1 v'] eqn:Ev. destruct (index_expr e m1) as [m2 e'] eqn:Ee. injection H as <- <-.
    destruct (index_lhs_ok _ _ _ _ Ev) as [T1 P1]. destruct (index_expr_ok _ _ _ _ Ee) as [T2 P2]. cbn [stmt_vars stmt_consts plain_stmt]. split; [eapply took_app; eassumption|congruence].
  - change (index_stmt (SIf f af c t None) m) with (let '(m1, c') := index_cond c m in let '(m2, t') := index_all t m1 in (m2, SIf f af c' t' None)) in H.
    destruct (index_cond c m) as [m1 c'] eqn:Ec. destruct (index_all t m1) as [m2 t'] eqn:Et. injection H as <- <-.
    destruct (index_cond_ok _ _ _ _ Ec) as [T1 P1]. destruct (index_all_from t Ht _ _ _ Et) as [T2 P2]. cbn [stmt_vars stmt_consts plain_stmt option_map]. rewrite !app_nil_r.
    split; [eapply took_app; eassumption|congruence].
  - change (index_stmt (SIf f af c t (Some l)) m) with
      (let '(m1, c') := index_cond c m in let '(m2, t') := index_all t m1 in let '(m3, l') := index_all l m2 in (m3, SIf f af c' t' (Some l'))) in H.
    destruct (index_cond c m) as [m1 c'] eqn:Ec. destruct (index_all t m1) as [m2 t'] eqn:Et. destruct (index_all l m2) as [m3 l'] eqn:El. injection H as <- <-.
    destruct (index_cond_ok _ _ _ _ Ec) as [T1 P1]. destruct (index_all_from t Ht _ _ _ Et) as [T2 P2]. destruct (index_all_from l Hl _ _ _ El) as [T3 P3].
    cbn [stmt_vars stmt_consts plain_stmt option_map]. split; [|congruence]. eapply took_app; [eassumption|]. eapply took_app; eassumption.
  - change (index_stmt (SCollect l) m) with (let '(m1, l') := index_all l m in (m1, SCollect l')) in H. destruct (index_all l m) as [m1 l'] eqn:El. injection H as <- <-.
    destruct (index_all_from l Hl _ _ _ El) as [T1 P1]. cbn [stmt_vars stmt_consts plain_stmt]. split; [exact T1|congruence].
Qed.
Lemma flat_fold {A B} (f : A -> list B) l : flat_map f l = fold_right (fun s acc => f s ++ acc) [] l.
Proof. induction l; cbn [flat_map fold_right]; congruence. Qed.
Lemma index_events_took l : forall m m' l', index_events l m = (m', l') -> took m m' (all_vars l') (all_consts l') /\ map (map plain_stmt) l' = map (map plain_stmt) l.
Proof.
  unfold all_vars, all_consts. induction l as [|x l IH]; intros m m' l' H; cbn [index_events] in H.
  - injection H as <- <-. split; [apply took_nil|reflexivity].
  - destruct (index_all x m) as [m1 x'] eqn:Ex. destruct (index_events l m1) as [m2 r'] eqn:Er. injection H as <- <-.
    destruct (index_all_from x ltac:(apply Forall_forall; intros; apply index_stmt_ok) _ _ _ Ex) as [T1 P1]. destruct (IH _ _ _ Er) as [T2 P2].
    cbn [flat_map map]. rewrite !(flat_fold _ x'). split; [eapply took_app; eassumption|congruence].
Qed.

(** * The names, in the order of their first occurrence *)
Lemma first_names_ext ns : forall s1 s2, (forall n, existsb (fun x => ci_eqb x n) s1 = existsb (fun x => ci_eqb x n) s2) -> first_names s1 ns = first_names s2 ns.
Proof.
  induction ns as [|n ns IH]; intros s1 s2 H; cbn [first_names]; [reflexivity|]. rewrite H. destruct (existsb _ s2); [now apply IH|]. f_equal. apply IH.
  intros m. cbn [existsb]. now rewrite H.
Qed.
Lemma find_name_existsb l n : existsb (fun x => ci_eqb x n) l = match find_name l n with Some _ => true | None => false end.
Proof. induction l as [|x l IH]; cbn [existsb find_name]; [reflexivity|]. rewrite IH. destruct (ci_eqb x n); [reflexivity|]. now destruct (find_name l n). Qed.
Lemma add_names_first ns : forall l, fold_left add_name ns l = l ++ first_names l ns.
Proof.
  induction ns as [|n ns IH]; intros l; cbn [fold_left first_names]; [now rewrite app_nil_r|]. rewrite find_name_existsb. unfold add_name at 2.
  destruct (find_name l n); [apply IH|]. rewrite IH, <- app_assoc. cbn [app]. do 2 f_equal. apply first_names_ext.
  intros m. rewrite existsb_app. cbn [existsb]. rewrite orb_false_r. apply orb_comm.
Qed.
(** distinct names, up to case *)
Lemma add_names_nodup ns : forall l, (forall i j x y, nth_error l i = Some x -> nth_error l j = Some y -> ci_eqb x y = true -> i = j) ->
  forall i j x y, nth_error (fold_left add_name ns l) i = Some x -> nth_error (fold_left add_name ns l) j = Some y -> ci_eqb x y = true -> i = j.
Proof.
  induction ns as [|n ns IH]; intros l H; cbn [fold_left]; [exact H|]. apply IH. unfold add_name. destruct (find_name l n) eqn:E; [exact H|].
  pose proof (find_name_none _ _ E) as Hn.
  assert (Hs : forall k z, nth_error (l ++ [n]) k = Some z -> ((k < length l)%nat /\ nth_error l k = Some z) \/ (k = length l /\ z = n)).
  { intros k z Hk. destruct (Nat.lt_ge_cases k (length l)) as [L|L]; [left; rewrite nth_error_app1 in Hk by exact L; auto|right].
    rewrite nth_error_app2 in Hk by exact L. destruct (k - length l)%nat eqn:Ek; cbn in Hk; [injection Hk as <-; split; [lia|reflexivity]|]. destruct n0; discriminate. }
  intros i j x y Hx Hy Hxy. destruct (Hs _ _ Hx) as [[Li Ei]|[-> ->]], (Hs _ _ Hy) as [[Lj Ej]|[-> ->]].
  - eapply H; eassumption.
  - rewrite (Hn x) in Hxy; [discriminate|]. eapply nth_error_In; exact Ei.
  - rewrite ci_eq_sym, (Hn y) in Hxy; [discriminate|]. eapply nth_error_In; exact Ej.
  - reflexivity.
Qed.

(** * Indexed trees are well formed *)
Section WF.
Variables (nv : Z) (consts : list num).
Definition var_in (p : str * Z) : Prop := 0 <= snd p < nv.
Definition const_in (p : str * Z * num) : Prop := 0 <= snd (fst p) /\ nth_error consts (Z.to_nat (snd (fst p))) = Some (snd p).
Lemma Forall_fold {A B} (f : A -> list B) (P : B -> Prop) l : Forall P (fold_right (fun s acc => f s ++ acc) [] l) -> Forall (fun x => Forall P (f x)) l.
Proof. induction l as [|x l IH]; cbn [fold_right]; [constructor|]. intros H. apply Forall_app in H as [H1 H2]. constructor; auto. Qed.
Lemma wf_expr_occ e : Forall var_in (expr_vars e) -> Forall const_in (expr_consts e) -> wf_expr nv consts e.
Proof.
  induction e as [a op l r x Hl Hr Hx|a op x IH|a|v|a n i|n i v] using expr_ind'; cbn [expr_vars expr_consts wf_expr]; auto.
  - intros H1 H2. apply Forall_app in H1 as [H11 H1]. apply Forall_app in H1 as [H12 H13]. apply Forall_app in H2 as [H21 H2]. apply Forall_app in H2 as [H22 H23].
    split; [auto|]. split; [auto|]. apply F_iff. apply Forall_fold in H13, H23. rewrite Forall_forall in *. intros y Hy. apply (Hx y Hy); [apply H13|apply H23]; assumption.
  - intros H _. inversion H; subst. assumption.
  - intros _ H. inversion H as [|? ? Hc]; subst. exact Hc.
Qed.
Lemma wf_cond_occ c : Forall var_in (cond_vars c) -> Forall const_in (cond_consts c) -> wf_cond nv consts c.
Proof.
  induction c; cbn [cond_vars cond_consts wf_cond]; auto using wf_expr_occ.
  - intros H1 H2. apply Forall_app in H1 as [H11 H12]. apply Forall_app in H2 as [H21 H22]. auto.
  - intros H1 H2. apply Forall_app in H1 as [H11 H12]. apply Forall_app in H2 as [H21 H22]. auto.
Qed.
Lemma wf_stmt_occ s : var_targets s -> Forall var_in (stmt_vars s) -> Forall const_in (stmt_consts s) -> wf_stmt nv consts s.
Proof.
  assert (HF : forall l, Forall (fun s => var_targets s -> Forall var_in (stmt_vars s) -> Forall const_in (stmt_consts s) -> wf_stmt nv consts s) l ->
    fold_right (fun s P => var_targets s /\ P) True l -> Forall var_in (fold_right (fun s acc => stmt_vars s ++ acc) [] l) ->
    Forall const_in (fold_right (fun s acc => stmt_consts s ++ acc) [] l) -> fold_right (fun s P => wf_stmt nv consts s /\ P) True l).
  { intros l H1 H2 H3 H4. apply F_iff. apply Forall_fold in H3, H4. rewrite F_iff in H2. rewrite Forall_forall in *. intros x Hx. apply (H1 x Hx); [apply H2|apply H3|apply H4]; assumption. }
  induction s as [v e|v e|f af c t Ht|f af c t l Ht Hl|l Hl] using stmt_ind'; cbn [var_targets stmt_vars stmt_consts wf_stmt]; intros V H1 H2.
  - apply Forall_app in H1 as [H11 H12]. apply Forall_app in H2 as [H21 H22]. split; [|now apply wf_expr_occ]. destruct v; [|destruct V]. inversion H11; subst. assumption.
  - apply Forall_app in H1 as [H11 H12]. apply Forall_app in H2 as [H21 H22]. split; [|now apply wf_expr_occ]. destruct v; [|destruct V]. inversion H11; subst. assumption.
  - rewrite app_nil_r in H1, H2. apply Forall_app in H1 as [H11 H12]. apply Forall_app in H2 as [H21 H22]. destruct V as [V _]. split; [now apply wf_cond_occ|]. split; [now apply HF|exact I].
  - apply Forall_app in H1 as [H11 H1]. apply Forall_app in H1 as [H12 H13]. apply Forall_app in H2 as [H21 H2]. apply Forall_app in H2 as [H22 H23]. destruct V as [V1 V2].
    split; [now apply wf_cond_occ|]. split; now apply HF.
  - now apply HF.
Qed.
Lemma wf_events_occ l : Forall (Forall var_targets) l -> Forall var_in (all_vars l) -> Forall const_in (all_consts l) -> Forall (wf_all nv consts) l.
Proof.
  unfold all_vars, all_consts. intros H1 H2 H3. rewrite flat_fold in H2. rewrite flat_fold in H3. apply Forall_fold in H2, H3. rewrite Forall_forall in *.
  intros e He. specialize (H1 e He). specialize (H2 e He). specialize (H3 e He). rewrite flat_fold in H2. rewrite flat_fold in H3. apply Forall_fold in H2, H3.
  unfold wf_all. rewrite Forall_forall in *. intros s Hs. apply wf_stmt_occ; [apply H1|apply H2|apply H3]; assumption.
Qed.
End WF.
Lemma plain_targets s : var_targets (plain_stmt s) <-> var_targets s.
Proof.
  assert (HF : forall l, Forall (fun s => var_targets (plain_stmt s) <-> var_targets s) l -> fold_right (fun s P => var_targets s /\ P) True (map plain_stmt l) <-> fold_right (fun s P => var_targets s /\ P) True l).
  { induction 1 as [|x l Hx _ IH]; cbn [map fold_right]; tauto. }
  induction s as [v e|v e|f af c t Ht|f af c t l Ht Hl|l Hl] using stmt_ind'; cbn [plain_stmt var_targets option_map].
  - destruct v; cbn; tauto.
  - destruct v; cbn; tauto.
  - rewrite (HF t Ht). tauto.
  - rewrite (HF t Ht), (HF l Hl). tauto.
  - apply HF, Hl.
Qed.
Definition no_maps : index_maps := Maps [] [].
(** constants of the same name have the same value *)
Definition one_value (l : list (str * Z * num)) : Prop := forall n i v n' i' v', In (n, i, v) l -> In (n', i', v') l -> ci_eqb n n' = true -> v = v'.
Lemma add_consts_in cs : forall l c, In c (fold_left add_const cs l) -> In c l \/ In c cs.
Proof.
  induction cs as [|x cs IH]; intros l c H; cbn [fold_left] in H; [auto|]. destruct (IH _ _ H) as [H1|H1]; [|right; right; exact H1].
  unfold add_const in H1. destruct (find_name (map fst l) (fst x)); [auto|]. apply in_app_iff in H1 as [H1|[<-|[]]]; [auto|right; left; reflexivity].
Qed.
Lemma index_events_wf l m l' : index_events l no_maps = (m, l') -> Forall (Forall var_targets) l -> one_value (all_consts l') ->
  Forall (wf_all (Z.of_nat (length (v_names m))) (map snd (c_names m))) l'.
Proof.
  intros H V O. destruct (index_events_took l _ _ _ H) as [(T1 & T2 & T3 & T4) P]. apply wf_events_occ.
  - clear - P V. revert l' P. induction V as [|e l He _ IH]; intros [|e' l'] P; cbn [map] in P; try discriminate; [constructor|]. injection P as P1 P2. constructor; [|now apply IH].
    clear - He P1. revert e' P1. induction He as [|s e Hs _ IH]; intros [|s' e'] P; cbn [map] in P; try discriminate; [constructor|]. injection P as P1 P2.
    constructor; [|now apply IH]. apply plain_targets. rewrite P1. now apply plain_targets.
  - apply Forall_forall. intros [n i] Hin. destruct (T3 n i Hin) as [Hi Hf]. apply find_name_bound in Hf. unfold var_in. cbn [snd]. lia.
  - apply Forall_forall. intros [[n i] v] Hin. destruct (T4 n i v Hin) as [Hi Hf]. split; [exact Hi|]. cbn [fst snd].
    apply find_name_some in Hf as (n' & Hn' & Hc). rewrite nth_error_map in Hn'. rewrite nth_error_map. destruct (nth_error (c_names m) (Z.to_nat i)) as [[n0 v0]|] eqn:E; [|discriminate].
    cbn in Hn'. injection Hn' as ->. cbn. f_equal. apply nth_error_In in E. rewrite T2 in E. apply add_consts_in in E as [[]|E]. apply in_map_iff in E as ([[n1 i1] v1] & E & Hin1).
    unfold strip in E. cbn in E. injection E as -> ->. apply (O n' i1 v0 n i v Hin1 Hin Hc).
Qed.
End Index.
Section Dense.
Context {N : Num}.
Lemma first_names_incl ns : forall seen n, In n (first_names seen ns) -> In n ns.
Proof.
  induction ns as [|x ns IH]; intros seen n; cbn [first_names]; [auto|]. destruct (existsb _ seen); [right; eauto|].
  intros [<-|H]; [left; reflexivity|right; eauto].
Qed.
Lemma find_name_nth l n i : (forall i j x y, nth_error l i = Some x -> nth_error l j = Some y -> ci_eqb x y = true -> i = j) ->
  nth_error l i = Some n -> find_name l n = Some i.
Proof.
  intros H Hi. destruct (find_name l n) as [j|] eqn:E.
  - destruct (find_name_some _ _ _ E) as (m & Hm & Hc). f_equal. exact (H _ _ _ _ Hm Hi Hc).
  - pose proof (find_name_none _ _ E n (nth_error_In _ _ Hi)) as Hf. rewrite ci_eqb_refl in Hf. discriminate.
Qed.
Lemma nodup_nil : forall i j (x y : str), nth_error [] i = Some x -> nth_error [] j = Some y -> ci_eqb x y = true -> i = j.
Proof. intros [|i] j x y H; discriminate. Qed.
Lemma index_dense l m l' : index_events l no_maps = (m, l') -> forall j, (j < length (v_names m))%nat -> exists n, In (n, Z.of_nat j) (all_vars l').
Proof.
  intros H j Hj. destruct (index_events_took l _ _ _ H) as [(T1 & T2 & T3 & T4) P]. destruct (nth_error (v_names m) j) as [n|] eqn:E; [|apply nth_error_None in E; lia].
  assert (Hin : In n (map fst (all_vars l'))).
  { apply nth_error_In in E. rewrite T1, add_names_first in E. cbn [no_maps v_names app] in E. eapply first_names_incl; exact E. }
  apply in_map_iff in Hin as ([n' i] & Hn & Hin). cbn in Hn. subst n'. destruct (T3 n i Hin) as [Hi Hf].
  rewrite (find_name_nth (v_names m) n j) in Hf; [|rewrite T1; apply add_names_nodup, nodup_nil|exact E]. injection Hf as Hf. exists n. now replace (Z.of_nat j) with i by lia.
Qed.
End Dense.
