(** On scripts far from the tolerances the analysis of the code is the exact one. *)
From Coq Require Import ZArith List Bool Reals Lra Lia ZifyBool.
From Verif Require Import Base StringModel ScriptModel ScriptSpec ScriptEval FuzzySpec DomainModel DomainSpec DomainProofs DomainSound.
Import ListNotations.
Local Open Scope R_scope.

Section Real.
Variables (f_log f_sqrt f_exp : R -> R) (f_pow : R -> R -> R).
Local Notation RN := (RNum f_log f_sqrt f_exp f_pow).
Local Notation ET := (exact_tests f_log f_sqrt f_exp f_pow).
Local Notation CT := (real_code_tests f_log f_sqrt f_exp f_pow).
#[local] Hint Extern 0 Num => exact (RNum f_log f_sqrt f_exp f_pow) : typeclass_instances.
Local Notation blt := (blt f_log f_sqrt f_exp f_pow).
Local Notation plain := (plain f_log f_sqrt f_exp f_pow).
Local Notation plain_cond := (plain_cond f_log f_sqrt f_exp f_pow).
Local Notation plain_stmt := (plain_stmt f_log f_sqrt f_exp f_pow).
Local Notation plain_all := (plain_all f_log f_sqrt f_exp f_pow).
Local Notation plain_events := (plain_events f_log f_sqrt f_exp f_pow).

(** * Grids *)
Lemma eps_pos : 0 < r_eps < 1. Proof. unfold r_eps. lra. Qed.
Lemma inf_big : 10 ^ 28 + 1 < r_inf. Proof. unfold r_inf. lra. Qed.
Lemma grid_gap d m x y : room d m -> on_grid d m x -> on_grid d m y -> x < y -> x + r_eps < y.
Proof.
  intros (Hd & He & _) [(p & Hp) _] [(q & Hq) _] H. assert (D0 : 0 < IZR d) by (apply (IZR_lt 0); exact Hd).
  assert (x * IZR d < y * IZR d) by nra. rewrite Hp, Hq in H0. apply lt_IZR in H0. assert (IZR (p + 1) <= IZR q) by (apply IZR_le; lia). rewrite plus_IZR in H1. rewrite <- Hp, <- Hq in H1. nra.
Qed.
Lemma zero_grid d m : 0 <= m -> on_grid d m 0.
Proof. intros H. split; [exists 0%Z; ring|]. rewrite Rabs_R0. exact H. Qed.
Lemma grid_more d m d' m' x : on_grid d m x -> (d | d')%Z -> m <= m' -> on_grid d' m' x.
Proof. intros [(z & Hz) H] (k & ->) Hm. split; [|lra]. exists (k * z)%Z. rewrite !mult_IZR, <- Hz. ring. Qed.
Lemma grid_add d m1 m2 x y : on_grid d m1 x -> on_grid d m2 y -> on_grid d (m1 + m2) (x + y).
Proof.
  intros [(p & Hp) H1] [(q & Hq) H2]. split; [exists (p + q)%Z; rewrite plus_IZR, <- Hp, <- Hq; ring|]. pose proof (Rabs_triang x y). lra.
Qed.
Lemma grid_neg d m x : on_grid d m x -> on_grid d m (- x).
Proof. intros [(p & Hp) H1]. split; [exists (- p)%Z; rewrite opp_IZR, <- Hp; ring|]. now rewrite Rabs_Ropp. Qed.
Lemma grid_mul d1 m1 d2 m2 x y : on_grid d1 m1 x -> on_grid d2 m2 y -> on_grid (d1 * d2) (m1 * m2) (x * y).
Proof.
  intros [(p & Hp) H1] [(q & Hq) H2]. split; [exists (p * q)%Z; rewrite !mult_IZR, <- Hp, <- Hq; ring|]. rewrite Rabs_mult. apply Rmult_le_compat; auto using Rabs_pos.
Qed.
Lemma grid_range d m x : room d m -> on_grid d m x -> - r_inf + 1 < x < r_inf - 1.
Proof. intros (_ & _ & Hm) [_ H]. pose proof inf_big. pose proof (Rle_abs x). pose proof (Rle_abs (- x)) as H2. rewrite Rabs_Ropp in H2. lra. Qed.
Definition gb (d : Z) (m : R) (b : @bound RN) : Prop := match b with Fin v => on_grid d m v | _ => True end.
Definition gi (d : Z) (m : R) (i : @interval RN) : Prop := gb d m (ileft i) /\ gb d m (iright i) /\ ileft i <> PInf /\ iright i <> MInf.
Definition gd (d : Z) (m : R) (l : @domain RN) : Prop := Forall (gi d m) l.
Lemma gb_more d m d' m' b : gb d m b -> (d | d')%Z -> m <= m' -> gb d' m' b.
Proof. destruct b; cbn [gb]; auto. intros. eapply grid_more; eauto. Qed.
Lemma gi_more d m d' m' i : gi d m i -> (d | d')%Z -> m <= m' -> gi d' m' i.
Proof. intros (A & B & C) H1 H2. repeat split; try apply C; eapply gb_more; eauto. Qed.
Lemma gd_more d m d' m' l : gd d m l -> (d | d')%Z -> m <= m' -> gd d' m' l.
Proof. intros H H1 H2. eapply Forall_impl; [|exact H]. intros i Hi. eapply gi_more; eauto. Qed.
Lemma gb_zero d m : 0 <= m -> gb d m (@Fin RN 0).
Proof. apply zero_grid. Qed.

(** * Tests *)
Lemma rltb_same (p q : Prop) x y u v : (x < y <-> u < v) -> rltb x y = rltb u v.
Proof. intros H. unfold rltb. destruct (Rlt_dec x y), (Rlt_dec u v); tauto. Qed.
Lemma rltb_true x y : x < y -> rltb x y = true. Proof. apply rltb_iff. Qed.
Lemma rltb_false x y : y <= x -> rltb x y = false. Proof. apply rltb_niff. Qed.
Section Tests.
Variables (d : Z) (m : R).
Hypothesis Hr : room d m.
Lemma lt_same a b : gb d m a -> gb d m b -> t_lt (DomNum := CT) a b = blt a b.
Proof.
  intros Ha Hb. pose proof eps_pos. pose proof inf_big. cbn [t_lt real_code_tests code_tests]. unfold code_lt.
  destruct a as [|x|], b as [|y|]; cbn [gb is_minus is_plus negb andb orb real n_ltb n_sub n_neg RNum DomainSpec.blt] in *; auto.
  - apply rltb_false. lra.
  - apply rltb_false. pose proof (grid_range _ _ _ Hr Ha). lra.
  - unfold rltb. destruct (Rlt_dec x (y - r_eps)), (Rlt_dec x y); auto; [exfalso; lra|]. pose proof (grid_gap d m x y Hr Ha Hb ltac:(assumption)). exfalso; lra.
  - apply rltb_false. lra.
  - apply rltb_false. pose proof (grid_range _ _ _ Hr Hb). lra.
  - apply rltb_false. lra.
Qed.
Lemma gt_same a b : gb d m a -> gb d m b -> t_gt (DomNum := CT) a b = blt b a.
Proof.
  intros Ha Hb. pose proof eps_pos. pose proof inf_big. cbn [t_gt real_code_tests code_tests]. unfold code_gt.
  destruct a as [|x|], b as [|y|]; cbn [gb is_minus is_plus negb andb orb real n_ltb n_add n_neg RNum DomainSpec.blt] in *; auto.
  - apply rltb_false. lra.
  - apply rltb_false. pose proof (grid_range _ _ _ Hr Hb). lra.
  - apply rltb_false. lra.
  - unfold rltb. destruct (Rlt_dec (y + r_eps) x), (Rlt_dec y x); auto; [exfalso; lra|]. pose proof (grid_gap d m y x Hr Hb Ha ltac:(assumption)). exfalso; lra.
  - apply rltb_false. pose proof (grid_range _ _ _ Hr Ha). lra.
  - apply rltb_false. lra.
Qed.
Lemma near x y : on_grid d m x -> on_grid d m y -> rltb (Rabs (x - y)) r_eps = negb (rltb x y) && negb (rltb y x).
Proof.
  intros Ha Hb. pose proof eps_pos. destruct (Rlt_le_dec x y) as [L|L].
  - rewrite (rltb_true x y L). cbn. apply rltb_false. pose proof (grid_gap d m x y Hr Ha Hb L). rewrite Rabs_left; lra.
  - rewrite (rltb_false x y L). cbn. destruct (Rlt_le_dec y x) as [L2|L2].
    + rewrite (rltb_true y x L2). cbn. apply rltb_false. pose proof (grid_gap d m y x Hr Hb Ha L2). rewrite Rabs_right; lra.
    + rewrite (rltb_false y x L2). cbn. apply rltb_true. replace (x - y) with 0 by lra. rewrite Rabs_R0. lra.
Qed.
Lemma eq_same a b : gb d m a -> gb d m b -> t_eq (DomNum := CT) a b = t_eq (DomNum := ET) a b.
Proof.
  intros Ha Hb. pose proof eps_pos. pose proof inf_big. cbn [t_eq real_code_tests code_tests exact_tests]. unfold code_eq, beq.
  destruct a as [|x|], b as [|y|]; cbn [gb is_minus is_plus negb andb orb real n_ltb n_sub n_neg RNum DomainSpec.blt] in *; auto.
  - apply rltb_false. pose proof (grid_range _ _ _ Hr Hb). rewrite Rabs_left; lra.
  - apply rltb_false. rewrite Rabs_left; lra.
  - apply rltb_false. pose proof (grid_range _ _ _ Hr Ha). rewrite Rabs_right; lra.
  - now apply near.
  - apply rltb_false. pose proof (grid_range _ _ _ Hr Ha). rewrite Rabs_left; lra.
  - apply rltb_false. rewrite Rabs_right; lra.
  - apply rltb_false. pose proof (grid_range _ _ _ Hr Hb). rewrite Rabs_right; lra.
Qed.
Lemma m_pos : 0 <= m. Proof. apply Hr. Qed.
Lemma pos_same s a : gb d m a -> t_pos (DomNum := CT) s a = t_pos (DomNum := ET) s a.
Proof.
  intros Ha. pose proof eps_pos. pose proof inf_big. pose proof (zero_grid d m m_pos) as Hz. cbn [t_pos real_code_tests code_tests exact_tests]. unfold code_pos.
  destruct a as [|x|], s; cbn [gb is_minus is_plus negb andb orb real n_ltb n_sub n_neg RNum DomainSpec.blt] in *; auto.
  - apply rltb_false. lra.
  - apply rltb_false. lra.
  - unfold rltb. destruct (Rlt_dec r_eps x), (Rlt_dec 0 x); auto; [exfalso; lra|]. pose proof (grid_gap d m 0 x Hr Hz Ha ltac:(assumption)). exfalso; lra.
  - unfold rltb. destruct (Rlt_dec (- r_eps) x), (Rlt_dec x 0); auto; [|exfalso; lra]. pose proof (grid_gap d m x 0 Hr Ha Hz ltac:(assumption)). exfalso; lra.
Qed.
Lemma neg_same s a : gb d m a -> t_neg (DomNum := CT) s a = t_neg (DomNum := ET) s a.
Proof.
  intros Ha. pose proof eps_pos. pose proof inf_big. pose proof (zero_grid d m m_pos) as Hz. cbn [t_neg real_code_tests code_tests exact_tests]. unfold code_neg.
  destruct a as [|x|], s; cbn [gb is_minus is_plus negb andb orb real n_ltb n_sub n_neg RNum DomainSpec.blt] in *; auto.
  - unfold rltb. destruct (Rlt_dec x (- r_eps)), (Rlt_dec x 0); auto; [exfalso; lra|]. pose proof (grid_gap d m x 0 Hr Ha Hz ltac:(assumption)). exfalso; lra.
  - unfold rltb. destruct (Rlt_dec x r_eps), (Rlt_dec 0 x); auto; [|exfalso; lra]. pose proof (grid_gap d m 0 x Hr Hz Ha ltac:(assumption)). exfalso; lra.
  - apply rltb_false. lra.
  - apply rltb_false. lra.
Qed.
Lemma zero_same a : gb d m a -> t_zero (DomNum := CT) a = t_zero (DomNum := ET) a.
Proof.
  intros Ha. pose proof (zero_grid d m m_pos) as Hz. cbn [t_zero real_code_tests code_tests exact_tests]. unfold code_zero, beq.
  destruct a as [|x|]; cbn [gb is_minus is_plus negb andb orb real n_ltb n_sub n_neg RNum DomainSpec.blt] in *; auto.
  pose proof (near x 0 Ha Hz) as E. rewrite Rminus_0_r in E. exact E.
Qed.

(** * Intervals *)
Lemma is_single_same i : gi d m i -> is_single (D := CT) i = is_single (D := ET) i.
Proof. intros (A & B & _). unfold is_single. now rewrite eq_same. Qed.
Lemma is_zero_same i : gi d m i -> is_zero (D := CT) i = is_zero (D := ET) i.
Proof. intros H. unfold is_zero. rewrite is_single_same by exact H. rewrite zero_same by apply H. reflexivity. Qed.
Lemma ilt_same i j : gi d m i -> gi d m j -> ilt (D := CT) i j = ilt (D := ET) i j.
Proof. intros (A & B & _) (A2 & B2 & _). unfold ilt. rewrite !lt_same, eq_same by assumption. reflexivity. Qed.
Lemma mk_same l r : gb d m l -> gb d m r -> mk (D := CT) l r = mk (D := ET) l r /\ forall k, mk (D := ET) l r = Ok k -> gi d m k.
Proof.
  intros A B. split.
  - unfold mk. rewrite !eq_same, gt_same by (auto; exact Logic.I). reflexivity.
  - intros k H. apply mk_ok in H as [-> (V & V1 & V2)]. repeat split; auto.
Qed.
Lemma min_of_same l : forall a, gb d m a -> Forall (gb d m) l -> min_of (D := CT) a l = min_of (D := ET) a l /\ gb d m (min_of (D := ET) a l).
Proof.
  induction l as [|x l IH]; intros a Ha Hl; cbn [min_of]; [auto|]. inversion Hl; subst. rewrite lt_same by assumption. cbn [t_lt exact_tests]. apply IH; [|assumption]. destruct (blt x a); assumption.
Qed.
Lemma max_of_same l : forall a, gb d m a -> Forall (gb d m) l -> max_of (D := CT) a l = max_of (D := ET) a l /\ gb d m (max_of (D := ET) a l).
Proof.
  induction l as [|x l IH]; intros a Ha Hl; cbn [max_of]; [auto|]. inversion Hl; subst. rewrite lt_same by assumption. cbn [t_lt exact_tests]. apply IH; [|assumption]. destruct (blt a x); assumption.
Qed.
Lemma i_neg_same i : gi d m i -> i_neg (D := CT) i = i_neg (D := ET) i /\ forall k, i_neg (D := ET) i = Ok k -> gi d m k.
Proof.
  intros (A & B & _). unfold i_neg. apply mk_same; [destruct (iright i)|destruct (ileft i)]; cbn [b_neg gb] in *; auto; now apply grid_neg.
Qed.
Lemma i_min_same i j : gi d m i -> gi d m j -> i_min (D := CT) i j = i_min (D := ET) i j /\ forall k, i_min (D := ET) i j = Ok k -> gi d m k.
Proof.
  intros (A & B & _) (A2 & B2 & _). unfold i_min. rewrite !lt_same by assumption. cbn [t_lt exact_tests]. apply mk_same; destruct (blt _ _); assumption.
Qed.
Lemma i_max_same i j : gi d m i -> gi d m j -> i_max (D := CT) i j = i_max (D := ET) i j /\ forall k, i_max (D := ET) i j = Ok k -> gi d m k.
Proof.
  intros (A & B & _) (A2 & B2 & _). unfold i_max. rewrite !gt_same by assumption. cbn [t_gt exact_tests]. apply mk_same; destruct (blt _ _); assumption.
Qed.
Lemma i_merge_same i j : gi d m i -> gi d m j -> i_merge (D := CT) i j = i_merge (D := ET) i j /\ gi d m (i_merge (D := ET) i j).
Proof.
  intros (A & B & C & E) (A2 & B2 & C2 & E2). unfold i_merge. rewrite lt_same, gt_same by assumption. split; [reflexivity|]. cbn [t_lt t_gt exact_tests].
  repeat split; cbn [ileft iright]; destruct (blt _ _); assumption.
Qed.
Lemma includes_same i : gi d m i -> i_includes (D := CT) i (@n_zero RN) = i_includes (D := ET) i (@n_zero RN).
Proof. intros (A & B & _). pose proof (gb_zero d m m_pos) as Z. unfold i_includes. cbn [n_zero RNum]. rewrite gt_same, lt_same by assumption. reflexivity. Qed.

(** * Domains *)
Lemma set_ins_same i l : gi d m i -> gd d m l -> set_ins (D := CT) i l = set_ins (D := ET) i l /\ gd d m (set_ins (D := ET) i l).
Proof.
  intros Hi. induction 1 as [|j l Hj Hl [IH1 IH2]]; cbn [set_ins]; [split; [reflexivity|repeat constructor; apply Hi]|]. rewrite !ilt_same by assumption.
  destruct (ilt (D := ET) j i); [split; [now rewrite IH1|constructor; auto]|]. destruct (ilt (D := ET) i j); split; auto; repeat (constructor; auto).
Qed.
Lemma span_lt_same i l : gi d m i -> gd d m l -> span_lt (D := CT) i l = span_lt (D := ET) i l /\ gd d m (fst (span_lt (D := ET) i l)) /\ gd d m (snd (span_lt (D := ET) i l)).
Proof.
  intros Hi. induction 1 as [|j l Hj Hl (IH1 & IH2 & IH3)]; cbn [span_lt]; [repeat split; constructor|]. rewrite !ilt_same by assumption.
  destruct (ilt (D := ET) j i); [|repeat split; cbn; constructor; auto]. rewrite IH1. destruct (span_lt (D := ET) i l) as [a b]. cbn [fst snd] in *. repeat split; auto. constructor; auto.
Qed.
Lemma gd_last i l : gi d m i -> gd d m l -> gi d m (last l i).
Proof. intros Hi H. induction H as [|j l Hj Hl IH]; [exact Hi|]. destruct l; [exact Hj|exact IH]. Qed.
Lemma hit_same i l : gi d m i -> gd d m l -> hit (D := CT) i l = hit (D := ET) i l /\ forall j r, hit (D := ET) i l = Ok (Some (j, r)) -> gi d m j /\ gd d m r.
Proof.
  intros Hi Hl. unfold hit. destruct l as [|j0 l0]; [split; [reflexivity|discriminate]|]. pose proof (Forall_inv Hl) as Hj0. pose proof (gd_last j0 _ Hj0 Hl) as Hlast.
  set (l := j0 :: l0) in *. destruct (span_lt_same i l Hi Hl) as (E & G1 & G2). rewrite E.
  rewrite (gt_same (ileft j0)), (lt_same (iright (last l j0))) by (apply Hj0 || apply Hi || apply Hlast). cbn [t_gt t_lt exact_tests].
  destruct (blt (iright i) (ileft j0)); [split; [reflexivity|discriminate]|]. destruct (blt (iright (last l j0)) (ileft i)); [split; [reflexivity|discriminate]|].
  destruct (span_lt (D := ET) i l) as [a b]. cbn [fst snd] in *.
  assert (Hback : forall p, match rev a with [] => UB | j :: ra => Ok (j, rev ra ++ b) end = Ok p -> gi d m (fst p) /\ gd d m (snd p)).
  { intros p. pose proof (Forall_rev G1) as Gr. destruct (rev a) as [|j ra]; [discriminate|]. intros H. injection H as <-. inversion Gr; subst. split; [assumption|]. apply Forall_app. split; [now apply Forall_rev|exact G2]. }
  set (back := match rev a with [] => UB | j :: ra => Ok (j, rev ra ++ b) end) in *.
  assert (Hp : forall p, match b with [] => back | j :: b' => if t_gt (DomNum := ET) (ileft j) (iright i) then back else Ok (j, a ++ b') end = Ok p -> gi d m (fst p) /\ gd d m (snd p)).
  { intros p. destruct b as [|j b]; [apply Hback|]. destruct (t_gt (ileft j) (iright i)); [apply Hback|]. intros H. injection H as <-. inversion G2; subst. split; [assumption|]. apply Forall_app. auto. }
  replace (match b with [] => back | j :: b' => if t_gt (DomNum := CT) (ileft j) (iright i) then back else Ok (j, a ++ b') end)
    with (match b with [] => back | j :: b' => if t_gt (DomNum := ET) (ileft j) (iright i) then back else Ok (j, a ++ b') end).
  2:{ destruct b as [|j b]; [reflexivity|]. inversion G2; subst. rewrite gt_same; [reflexivity|apply H1|apply Hi]. }
  set (o := match b with [] => back | j :: b' => if t_gt (DomNum := ET) (ileft j) (iright i) then back else Ok (j, a ++ b') end) in *. cbn [t_gt exact_tests] in o. fold o. 
  destruct o as [p| | |]; cbn [obind]; try (split; [reflexivity|discriminate]). destruct (Hp p eq_refl) as [P1 P2]. rewrite lt_same by (apply P1 || apply Hi). cbn [t_lt exact_tests]. split; [reflexivity|].
  intros j r H. destruct (blt (iright (fst p)) (ileft i)); [discriminate|]. injection H as ->. auto.
Qed.
Lemma add_rounds_same f : forall i l, gi d m i -> gd d m l -> add_rounds (D := CT) f i l = add_rounds (D := ET) f i l /\ forall r, add_rounds (D := ET) f i l = Ok r -> gd d m r.
Proof.
  induction f as [|f IH]; intros i l Hi Hl; cbn [add_rounds]; [split; [reflexivity|discriminate]|]. destruct l as [|j l]; [split; [reflexivity|]; intros r H; injection H as <-; repeat constructor; apply Hi|].
  destruct (is_minus (ileft i) && is_plus (iright i)); [split; [reflexivity|]; intros r H; injection H as <-; constructor; [repeat split; discriminate|constructor]|].
  destruct (hit_same i (j :: l) Hi Hl) as [E G]. rewrite E. destruct (hit (D := ET) i (j :: l)) as [[[k r0]|]| | |]; cbn [obind]; try (split; [reflexivity|discriminate]).
  - destruct (G k r0 eq_refl) as [G1 G2]. destruct (i_merge_same i k Hi G1) as [E2 G3]. rewrite E2. now apply IH.
  - destruct (set_ins_same i (j :: l) Hi Hl) as [E2 G3]. rewrite E2. split; [reflexivity|]. intros r H. injection H as <-. exact G3.
Qed.
Lemma add_interval_same i l : gi d m i -> gd d m l -> add_interval (D := CT) i l = add_interval (D := ET) i l /\ forall r, add_interval (D := ET) i l = Ok r -> gd d m r.
Proof. apply add_rounds_same. Qed.
Lemma add_domain_same e : forall l, gd d m l -> gd d m e -> add_domain (D := CT) l e = add_domain (D := ET) l e /\ forall r, add_domain (D := ET) l e = Ok r -> gd d m r.
Proof.
  induction e as [|i e IH]; intros l Hl He; cbn [add_domain]; [split; [reflexivity|]; intros r H; injection H as <-; exact Hl|]. inversion He; subst.
  destruct (add_interval_same i l ltac:(assumption) Hl) as [E G]. rewrite E. destruct (add_interval (D := ET) i l) as [l'| | |]; cbn [obind]; try (split; [reflexivity|discriminate]). apply IH; auto.
Qed.
Section Lift.
Variables (f g : @interval RN -> @interval RN -> outcome (@interval RN)) (P Q : @interval RN -> Prop).
Hypothesis Hfg : forall i j, P i -> Q j -> f i j = g i j /\ forall k, g i j = Ok k -> gi d m k.
Lemma over_right_same i e : forall acc, P i -> Forall Q e -> gd d m acc -> over_right (D := CT) f i e acc = over_right (D := ET) g i e acc /\ forall r, over_right (D := ET) g i e acc = Ok r -> gd d m r.
Proof.
  induction e as [|j e IH]; intros acc Hi He Ha; cbn [over_right]; [split; [reflexivity|]; intros r H; injection H as <-; exact Ha|]. inversion He; subst.
  destruct (Hfg i j) as [E G]; auto. rewrite E. destruct (g i j) as [k| | |]; cbn [obind]; try (split; [reflexivity|discriminate]). specialize (G k eq_refl).
  destruct (add_interval_same k acc G Ha) as [E2 G2]. rewrite E2. destruct (add_interval (D := ET) k acc) as [l'| | |]; cbn [obind]; try (split; [reflexivity|discriminate]). apply IH; auto.
Qed.
Lemma over_pairs_same e : Forall Q e -> forall l acc, Forall P l -> gd d m acc -> over_pairs (D := CT) f l e acc = over_pairs (D := ET) g l e acc /\ forall r, over_pairs (D := ET) g l e acc = Ok r -> gd d m r.
Proof.
  intros He. induction l as [|i l IH]; intros acc Hl Ha; cbn [over_pairs]; [split; [reflexivity|]; intros r H; injection H as <-; exact Ha|]. inversion Hl; subst.
  destruct (over_right_same i e acc) as [E G]; auto. rewrite E. destruct (over_right (D := ET) g i e acc) as [l'| | |]; cbn [obind]; try (split; [reflexivity|discriminate]). apply IH; auto.
Qed.
Lemma lift2_same l e : Forall P l -> Forall Q e -> lift2 (D := CT) f l e = lift2 (D := ET) g l e /\ forall r, lift2 (D := ET) g l e = Ok r -> gd d m r.
Proof. intros Hl He. apply over_pairs_same; auto. constructor. Qed.
End Lift.
Lemma over_all_same l : forall acc, gd d m l -> gd d m acc -> over_all (D := CT) (i_neg (D := CT)) l acc = over_all (D := ET) (i_neg (D := ET)) l acc /\ forall r, over_all (D := ET) (i_neg (D := ET)) l acc = Ok r -> gd d m r.
Proof.
  induction l as [|i l IH]; intros acc Hl Ha; cbn [over_all]; [split; [reflexivity|]; intros r H; injection H as <-; exact Ha|]. inversion Hl; subst.
  destruct (i_neg_same i) as [E G]; auto. rewrite E. destruct (i_neg (D := ET) i) as [k| | |]; cbn [obind]; try (split; [reflexivity|discriminate]). specialize (G k eq_refl).
  destruct (add_interval_same k acc G Ha) as [E2 G2]. rewrite E2. destruct (add_interval (D := ET) k acc) as [l'| | |]; cbn [obind]; try (split; [reflexivity|discriminate]). apply IH; auto.
Qed.
Lemma existsb_same {A} (f g : A -> bool) l : Forall (fun x => f x = g x) l -> existsb f l = existsb g l.
Proof. induction 1 as [|x l H H0 IH]; cbn [existsb]; [reflexivity|]. now rewrite H, IH. Qed.
Lemma find_same {A} (f g : A -> bool) l : Forall (fun x => f x = g x) l -> find f l = find g l.
Proof. induction 1 as [|x l H H0 IH]; cbn [find]; [reflexivity|]. now rewrite H, IH. Qed.
Lemma judge_same fuzzy op l z : gd d m l -> judge (D := CT) fuzzy op l z = judge (D := ET) fuzzy op l z.
Proof.
  intros H.
  assert (E1 : can_be_zero (D := CT) l = can_be_zero (D := ET) l) by (apply existsb_same; eapply Forall_impl; [|exact H]; intros i Hi; now apply includes_same).
  assert (E2 : can_be_nonzero (D := CT) l = can_be_nonzero (D := ET) l) by (destruct l as [|i [|j l]]; cbn [can_be_nonzero]; auto; inversion H; subst; now rewrite is_zero_same).
  assert (E3 : zero_is_discrete (D := CT) l = zero_is_discrete (D := ET) l) by (apply existsb_same; eapply Forall_impl; [|exact H]; intros i Hi; now apply is_zero_same).
  assert (E4 : forall s, can_be_positive (D := CT) s l = can_be_positive (D := ET) s l).
  { intros s. destruct l as [|i l]; [reflexivity|]. cbn [can_be_positive]. apply pos_same. pose proof (gd_last i _ (Forall_inv H) H) as (_ & B & _). exact B. }
  assert (E5 : forall s, can_be_negative (D := CT) s l = can_be_negative (D := ET) s l).
  { intros s. destruct l as [|i l]; [reflexivity|]. cbn [can_be_negative]. apply neg_same. apply (Forall_inv H). }
  assert (E6 : smallest_pos_lb (D := CT) l = smallest_pos_lb (D := ET) l).
  { destruct l as [|i l]; [reflexivity|]. unfold smallest_pos_lb. rewrite neg_same by apply (gd_last i _ (Forall_inv H) H). destruct (t_neg false _); [reflexivity|]. 
    rewrite (find_same (fun j => negb (t_neg (DomNum := CT) false (ileft j))) (fun j => negb (t_neg (DomNum := ET) false (ileft j))) (i :: l)); [reflexivity|].
    eapply Forall_impl; [|exact H]; intros j Hj; cbn beta; f_equal; apply neg_same; apply Hj. }
  assert (E7 : biggest_neg_rb (D := CT) l = biggest_neg_rb (D := ET) l).
  { destruct l as [|i l]; [reflexivity|]. unfold biggest_neg_rb. rewrite pos_same by apply (Forall_inv H). destruct (t_pos false _); [reflexivity|]. 
    rewrite (find_same (fun j => negb (t_pos (DomNum := CT) false (iright j))) (fun j => negb (t_pos (DomNum := ET) false (iright j))) (rev (i :: l))); [reflexivity|].
    eapply Forall_impl; [|apply Forall_rev; exact H]; intros j Hj; cbn beta; f_equal; apply pos_same; apply Hj. }
  destruct op; cbn [judge]; unfold judge_equal, judge_sup; rewrite E1, ?E2, E3, ?E4, ?E5, E6, E7; reflexivity.
Qed.
Lemma single_same v : on_grid d m v -> gi d m (@single RN v).
Proof. intros H. repeat split; cbn; try assumption; try discriminate; apply H. Qed.
Lemma line_same : gi d m (@line RN).
Proof. repeat split; cbn; discriminate. Qed.
End Tests.

(** * Sums, products and quotients *)
Lemma i_add_same d m1 m2 i j : room d (m1 + m2) -> gi d m1 i -> gi d m2 j -> i_add (D := CT) i j = i_add (D := ET) i j /\ forall k, i_add (D := ET) i j = Ok k -> gi d (m1 + m2) k.
Proof.
  intros Hr (A & B & C & E) (A2 & B2 & C2 & E2). unfold i_add. apply (mk_same d (m1 + m2) Hr).
  - destruct (ileft i), (ileft j); cbn [is_minus orb gb val n_add RNum] in *; auto; try congruence. now apply grid_add.
  - destruct (iright i), (iright j); cbn [is_plus orb gb val n_add RNum] in *; auto; try congruence. now apply grid_add.
Qed.
Lemma i_sub_same d m1 m2 i j : room d (m1 + m2) -> room d m2 -> gi d m1 i -> gi d m2 j -> i_sub (D := CT) i j = i_sub (D := ET) i j /\ forall k, i_sub (D := ET) i j = Ok k -> gi d (m1 + m2) k.
Proof.
  intros Hr Hr2 Hi Hj. unfold i_sub. destruct (i_neg_same d m2 Hr2 j Hj) as [E G]. rewrite E. destruct (i_neg (D := ET) j) as [k| | |]; cbn [obind]; try (split; [reflexivity|discriminate]).
  apply i_add_same; auto.
Qed.
Lemma b_mul_same d1 m1 d2 m2 a b : room d1 m1 -> room d2 m2 -> gb d1 m1 a -> gb d2 m2 b -> b_mul (D := CT) a b = b_mul (D := ET) a b /\ gb (d1 * d2) (m1 * m2) (b_mul (D := ET) a b).
Proof.
  intros R1 R2 Ha Hb. unfold b_mul. rewrite !(pos_same d1 m1 R1 _ a), !(pos_same d2 m2 R2 _ b), !(neg_same d1 m1 R1 _ a), !(neg_same d2 m2 R2 _ b), (zero_same d1 m1 R1 a), (zero_same d2 m2 R2 b) by assumption.
  split; [reflexivity|]. destruct (infinite a || infinite b) eqn:E.
  - match goal with |- gb _ _ (if ?c then _ else _) => destruct c end; [exact Logic.I|]. destruct (t_zero a) eqn:Za; [|destruct (t_zero b) eqn:Zb; [|exact Logic.I]].
    + destruct a as [|x|]; [discriminate Za| |discriminate Za]. destruct b; cbn [infinite is_plus is_minus orb] in E; try discriminate; exact Logic.I.
    + destruct b as [|x|]; [discriminate Zb| |discriminate Zb]. destruct a; cbn [infinite is_plus is_minus orb] in E; try discriminate; exact Logic.I.
  - destruct a, b; cbn [infinite is_plus is_minus orb] in E; try discriminate. cbn [gb val n_mul RNum] in *. now apply grid_mul.
Qed.
Lemma i_mul_same d1 m1 d2 m2 i j : room d1 m1 -> room d2 m2 -> room (d1 * d2) (m1 * m2) -> gi d1 m1 i -> gi d2 m2 j ->
  i_mul (D := CT) i j = i_mul (D := ET) i j /\ forall k, i_mul (D := ET) i j = Ok k -> gi (d1 * d2) (m1 * m2) k.
Proof.
  intros R1 R2 R3 Hi Hj. unfold i_mul. rewrite (is_zero_same d1 m1 R1 i Hi), (is_zero_same d2 m2 R2 j Hj).
  destruct (is_zero i || is_zero j). { split; [reflexivity|]. intros k H. injection H as <-. apply single_same, zero_grid. apply R3. }
  destruct Hi as (A & B & _), Hj as (A2 & B2 & _). cbv zeta.
  destruct (b_mul_same d1 m1 d2 m2 (iright i) (iright j)) as [-> G0]; auto. destruct (b_mul_same d1 m1 d2 m2 (iright i) (ileft j)) as [-> G1]; auto.
  destruct (b_mul_same d1 m1 d2 m2 (ileft i) (iright j)) as [-> G2]; auto. destruct (b_mul_same d1 m1 d2 m2 (ileft i) (ileft j)) as [-> G3]; auto.
  assert (GL : Forall (gb (d1 * d2) (m1 * m2)) [b_mul (D := ET) (iright i) (ileft j); b_mul (D := ET) (ileft i) (iright j); b_mul (D := ET) (ileft i) (ileft j)]) by auto.
  destruct (min_of_same _ _ R3 _ _ G0 GL) as [-> G4]. destruct (max_of_same _ _ R3 _ _ G0 GL) as [-> G5]. now apply (mk_same _ _ R3).
Qed.
Lemma room_one : room 1 0.
Proof. split; [lia|]. pose proof eps_pos. unfold r_eps in *. lra. Qed.
Local Notation half := (Interval (@Fin RN n_zero) PInf).
Lemma half_grid : gi 1 0 half.
Proof. repeat split; cbn; try discriminate; try lra; [exists 0%Z; ring|rewrite Rabs_R0; lra]. Qed.
Lemma half_inv2 : i_inv (D := CT) half = Ok half /\ i_inv (D := ET) half = Ok half.
Proof.
  pose proof half_grid as G. assert (E0 : rltb 0 0 = false) by (apply rltb_niff; lra).
  assert (E3 : beq f_log f_sqrt f_exp f_pow (Fin 0) (Fin 0) = true) by now apply beq_iff.
  assert (HE : i_inv (D := ET) half = Ok half).
  { unfold i_inv, is_zero, is_single, is_infinite, mk. cbn. rewrite ?E0, ?E3. cbn. rewrite ?E0, ?E3. reflexivity. }
  split; [|exact HE]. rewrite <- HE. unfold i_inv. rewrite (is_zero_same 1 0 room_one half G), (is_single_same 1 0 room_one half G).
  rewrite !(pos_same 1 0 room_one _ (ileft half)), !(neg_same 1 0 room_one _ (iright half)), !(zero_same 1 0 room_one (ileft half)), !(zero_same 1 0 room_one (iright half)) by apply G.
  rewrite (proj1 (mk_same 1 0 room_one (Fin n_zero) PInf (proj1 G) Logic.I)).
  unfold is_zero, is_single, is_infinite. cbn. rewrite ?E0, ?E3. cbn. rewrite ?E0, ?E3. reflexivity.
Qed.
Lemma div_half_same d m i : room d m -> gi d m i -> i_div (D := CT) i half = i_div (D := ET) i half /\ forall k, i_div (D := ET) i half = Ok k -> gi d 0 k.
Proof.
  intros Hr Hi. unfold i_div. destruct half_inv2 as [-> ->]. cbn [obind].
  destruct (i_mul_same d m 1 0 i half Hr room_one) as [E G]; auto using half_grid.
  { rewrite Z.mul_1_r, Rmult_0_r. destruct Hr as (A & B & C). split; [exact A|]. split; [exact B|]. lra. }
  split; [exact E|]. intros k Hk. specialize (G k Hk). now rewrite Z.mul_1_r, Rmult_0_r in G.
Qed.
Lemma div_const_same d1 m1 d0 m0 d2 m2 v i : v <> 0 -> room d1 m1 -> room d0 m0 -> on_grid d0 m0 v -> room d2 m2 -> on_grid d2 m2 (1 / v) -> room (d1 * d2) (m1 * m2) -> gi d1 m1 i ->
  i_div (D := CT) i (@single RN v) = i_div (D := ET) i (@single RN v) /\ forall k, i_div (D := ET) i (@single RN v) = Ok k -> gi (d1 * d2) (m1 * m2) k.
Proof.
  intros H0 R1 R0 Gv R2 Gw R3 Hi. unfold i_div. pose proof (single_same d0 m0 v Gv) as Gs.
  assert (E : i_inv (D := ET) (@single RN v) = Ok (@single RN (1 / v))).
  { unfold i_inv. assert (Eb : forall b, beq f_log f_sqrt f_exp f_pow b b = true) by (intros b; now apply beq_iff).
    assert (Ez : is_zero (D := ET) (@single RN v) = false).
    { unfold is_zero. apply andb_false_iff. right. cbn [t_zero exact_tests single ileft]. destruct (beq f_log f_sqrt f_exp f_pow (@Fin RN v) (@Fin RN 0)) eqn:Q; [|reflexivity]. apply beq_iff in Q. congruence. }
    rewrite Ez. assert (Es : is_single (D := ET) (@single RN v) = true) by (unfold is_single; cbn [t_eq exact_tests single ileft iright is_infinite infinite is_plus is_minus orb negb andb]; apply Eb). rewrite Es. reflexivity. }
  assert (E2 : i_inv (D := CT) (@single RN v) = Ok (@single RN (1 / v))).
  { unfold i_inv in *. rewrite (is_zero_same d0 m0 R0 _ Gs), (is_single_same d0 m0 R0 _ Gs). destruct (is_zero (D := ET) (@single RN v)); [exact E|]. destruct (is_single (D := ET) (@single RN v)) eqn:Es; [reflexivity|].
    exfalso. unfold is_single in Es. cbn [t_eq exact_tests single ileft iright is_infinite infinite is_plus is_minus orb negb andb] in Es. assert (beq f_log f_sqrt f_exp f_pow (@Fin RN v) (@Fin RN v) = true) by now apply beq_iff. congruence. }
  rewrite E, E2. cbn [obind]. apply i_mul_same; auto. now apply single_same.
Qed.

(** * Expressions *)
Definition gv (D : Z) (M : R) (vd : list (@domain RN)) : Prop := forall i d, vget vd i = Ok d -> gd D M d.
Lemma plain_room D M e d m : plain D M e d m -> room d m.
Proof. induction 1; auto. Qed.
Lemma get_line : get_singles (D := CT) [@line RN] = [] /\ get_singles (D := ET) [@line RN] = [].
Proof. split; reflexivity. Qed.
Lemma expr_same D M vd e d m : gv D M vd -> plain D M e d m -> dom_expr (D := CT) vd e = dom_expr (D := ET) vd e /\ forall r, dom_expr (D := ET) vd e = Ok r -> gd d m r.
Proof.
  intros Hv. induction 1 as [e d m d' m' H IH Hd Hm Hr|v d m Hr Hg|n i v d m Hr Hg|a n i Hr|a d m Hr|a b op d m Hop Hr|a op e d m Hop H IH|a op l r d m1 m2 Hop H1 IH1 H2 IH2 Hr
    |a l r d1 m1 d2 m2 H1 IH1 H2 IH2 Hr|a l v d0 m0 d1 m1 d2 m2 H1 IH1 Hv0 R0 G0 R2 G2 Hr|a op l r d m Hop H1 IH1 H2 IH2]; cbn [dom_expr].
  - destruct IH as [E G]. split; [exact E|]. intros r Er. eapply gd_more; eauto.
  - split; [reflexivity|]. intros r Er. injection Er as <-. constructor; [now apply single_same|constructor].
  - split; [reflexivity|]. intros r Er. injection Er as <-. constructor; [now apply single_same|constructor].
  - split; [reflexivity|]. intros r Er. now apply (Hv i).
  - split; [reflexivity|]. intros r Er. injection Er as <-. constructor; [apply line_same|constructor].
  - cbn [obind]. unfold apply1. destruct get_line as [-> ->].
    assert (Gh : gd d m [half]) by (constructor; [apply (gi_more 1 0); [apply half_grid|apply Z.divide_1_l|apply Hr]|constructor]).
    assert (Gl : gd d m [@line RN]) by (constructor; [apply line_same|constructor]).
    destruct Hop as [->|[->| ->]]; (split; [reflexivity|]); intros r Er; injection Er as <-; assumption.
  - destruct IH as [E G]. rewrite E. destruct (dom_expr (D := ET) vd e) as [x| | |]; cbn [obind]; try (split; [reflexivity|discriminate]). specialize (G x eq_refl).
    destruct Hop as [->| ->]; [split; [reflexivity|]; intros r Er; injection Er as <-; exact G|]. unfold lift1. apply over_all_same; auto; [now apply plain_room in H|constructor].
  - destruct IH1 as [E1 G1], IH2 as [E2 G2]. rewrite E1, E2. destruct (dom_expr (D := ET) vd l) as [x| | |]; cbn [obind]; try (split; [reflexivity|discriminate]).
    destruct (dom_expr (D := ET) vd r) as [y| | |]; cbn [obind]; try (split; [reflexivity|discriminate]). specialize (G1 x eq_refl). specialize (G2 y eq_refl).
    destruct Hop as [->| ->].
    + apply (lift2_same d (m1 + m2) Hr _ _ (gi d m1) (gi d m2)); auto. intros i j Hi Hj. now apply i_add_same.
    + apply (lift2_same d (m1 + m2) Hr _ _ (gi d m1) (gi d m2)); auto. intros i j Hi Hj. apply i_sub_same; auto. now apply plain_room in H2.
  - destruct IH1 as [E1 G1], IH2 as [E2 G2]. rewrite E1, E2. destruct (dom_expr (D := ET) vd l) as [x| | |]; cbn [obind]; try (split; [reflexivity|discriminate]).
    destruct (dom_expr (D := ET) vd r) as [y| | |]; cbn [obind]; try (split; [reflexivity|discriminate]). specialize (G1 x eq_refl). specialize (G2 y eq_refl).
    apply (lift2_same _ _ Hr _ _ (gi d1 m1) (gi d2 m2)); auto. apply plain_room in H1, H2. intros i j Hi Hj. now apply i_mul_same.
  - destruct IH1 as [E1 G1]. rewrite E1. destruct (dom_expr (D := ET) vd l) as [x| | |]; cbn [obind]; try (split; [reflexivity|discriminate]). specialize (G1 x eq_refl).
    apply (lift2_same _ _ Hr _ _ (gi d1 m1) (fun j => j = @single RN v)); auto; [|repeat constructor]. apply plain_room in H1. intros i j Hi ->. now apply (div_const_same d1 m1 d0 m0).
  - destruct IH1 as [E1 G1], IH2 as [E2 G2]. rewrite E1, E2. destruct (dom_expr (D := ET) vd l) as [x| | |]; cbn [obind]; try (split; [reflexivity|discriminate]).
    destruct (dom_expr (D := ET) vd r) as [y| | |]; cbn [obind]; try (split; [reflexivity|discriminate]). specialize (G1 x eq_refl). specialize (G2 y eq_refl).
    pose proof (plain_room _ _ _ _ _ H1) as Hr. destruct Hop as [->| ->]; cbn [rev app fold_left obind].
    + apply (lift2_same d m Hr _ _ (gi d m) (gi d m)); auto. intros i j Hi Hj. now apply i_max_same.
    + apply (lift2_same d m Hr _ _ (gi d m) (gi d m)); auto. intros i j Hi Hj. now apply i_min_same.
Qed.
Lemma cond_same fuzzy D M vd c : gv D M vd -> plain_cond D M c -> dom_cond (D := CT) fuzzy vd c = dom_cond (D := ET) fuzzy vd c.
Proof.
  intros Hv. induction c as [f op z e|f a IHa b IHb|f a IHa b IHb|f a IHa| |]; cbn [DomainSpec.plain_cond dom_cond]; intros H; try reflexivity.
  - destruct H as (d & m & H). destruct (expr_same D M vd e d m Hv H) as [E G]. rewrite E. destruct (dom_expr (D := ET) vd e) as [x| | |]; cbn [obind]; try reflexivity.
    rewrite (judge_same d m (plain_room _ _ _ _ _ H)); auto.
  - destruct H. now rewrite IHa, IHb.
  - destruct H. now rewrite IHa, IHb.
  - now rewrite IHa.
Qed.

(** * Statements *)
Scheme plain_stmt_mut := Induction for DomainSpec.plain_stmt Sort Prop
  with plain_all_mut := Induction for DomainSpec.plain_all Sort Prop.
Combined Scheme plain_ind from plain_stmt_mut, plain_all_mut.
Lemma gv_more D M D' M' vd : gv D M vd -> (D | D')%Z -> M <= M' -> gv D' M' vd.
Proof. intros H H1 H2 i d Hd. eapply gd_more; eauto. Qed.
Lemma gv_put D M vd i d vd' : gv D M vd -> gd D M d -> vput vd i d = Ok vd' -> gv D M vd'.
Proof.
  intros H Hd Hp j e. destruct (vput_vget _ _ _ _ Hp) as (_ & _ & G). rewrite G. destruct (j =? i)%Z; [|apply H]. intros E. injection E as <-. exact Hd.
Qed.
Lemma restore_grid D M af old : gv D M old -> forall new r, gv D M new -> restore af old new = Ok r -> gv D M r.
Proof.
  intros Ho. induction af as [|i af IH]; intros new r Hn H; cbn [restore] in H; [injection H as <-; exact Hn|].
  destruct (vget old i) as [d| | |] eqn:E; cbn [obind] in H; try discriminate. destruct (vput new i d) as [n'| | |] eqn:E2; cbn [obind] in H; try discriminate.
  apply (IH n' r); auto. eapply gv_put; eauto.
Qed.
Lemma merge_same D M af st : room D M -> gv D M st -> forall cur, gv D M cur -> merge_in (D := CT) af st cur = merge_in (D := ET) af st cur /\ forall r, merge_in (D := ET) af st cur = Ok r -> gv D M r.
Proof.
  intros Hr Hs. induction af as [|i af IH]; intros cur Hc; cbn [merge_in]; [split; [reflexivity|]; intros r H; injection H as <-; exact Hc|].
  destruct (vget cur i) as [d| | |] eqn:E; cbn [obind]; try (split; [reflexivity|discriminate]). destruct (vget st i) as [e| | |] eqn:E1; cbn [obind]; try (split; [reflexivity|discriminate]).
  destruct (add_domain_same D M Hr e d (Hc _ _ E) (Hs _ _ E1)) as [E2 G2]. rewrite E2. destruct (add_domain (D := ET) d e) as [x| | |]; cbn [obind]; try (split; [reflexivity|discriminate]).
  destruct (vput cur i x) as [c'| | |] eqn:E3; cbn [obind]; try (split; [reflexivity|discriminate]). apply IH. eapply gv_put; eauto.
Qed.
Lemma if_unfold (DD : DomNum RN) fuzzy f af c t e vd : dom_stmt (D := DD) fuzzy (SIf f af c t e) vd =
  do p <- dom_cond (D := DD) fuzzy vd c;
  let '(v, c') := p in
  match v with
  | AlwaysTrue => do q <- dom_all (D := DD) fuzzy t vd; Ok (fst q, SIf (flags_of v) af c' (snd q) e)
  | AlwaysFalse => match e with
                   | None => Ok (vd, SIf (flags_of v) af c' t None)
                   | Some l => do q <- dom_all (D := DD) fuzzy l vd; Ok (fst q, SIf (flags_of v) af c' t (Some (snd q)))
                   end
  | TrueOrFalse =>
      do q <- dom_all (D := DD) fuzzy t vd; do vd0 <- restore af vd (fst q);
      match e with
      | None => do vd2 <- merge_in (D := DD) af (fst q) vd0; Ok (vd2, SIf (flags_of v) af c' (snd q) None)
      | Some l => do q2 <- dom_all (D := DD) fuzzy l vd0; do vd2 <- merge_in (D := DD) af (fst q) (fst q2); Ok (vd2, SIf (flags_of v) af c' (snd q) (Some (snd q2)))
      end
  end.
Proof. reflexivity. Qed.
Lemma collect_unfold (DD : DomNum RN) fuzzy l vd : dom_stmt (D := DD) fuzzy (SCollect l) vd = do q <- dom_all (D := DD) fuzzy l vd; Ok (fst q, SCollect (snd q)).
Proof. reflexivity. Qed.
Ltac stop := try (split; [reflexivity|discriminate]).
Lemma run_same fuzzy :
  (forall D M s D' M', plain_stmt D M s D' M' -> (D | D')%Z /\ M <= M' /\ room D' M' /\ forall D0 M0 vd, (D0 | D)%Z -> M0 <= M -> gv D0 M0 vd ->
     dom_stmt (D := CT) fuzzy s vd = dom_stmt (D := ET) fuzzy s vd /\ forall r, dom_stmt (D := ET) fuzzy s vd = Ok r -> gv D' M' (fst r)) /\
  (forall D M l D' M', plain_all D M l D' M' -> (D | D')%Z /\ M <= M' /\ room D' M' /\ forall D0 M0 vd, (D0 | D)%Z -> M0 <= M -> gv D0 M0 vd ->
     dom_all (D := CT) fuzzy l vd = dom_all (D := ET) fuzzy l vd /\ forall r, dom_all (D := ET) fuzzy l vd = Ok r -> gv D' M' (fst r)).
Proof.
  apply plain_ind.
  - intros D M v e D' M' Hd Hm He. split; [exact Hd|]. split; [exact Hm|]. split; [now apply plain_room in He|]. intros D0 M0 vd H1 H2 Hv. pose proof (gv_more _ _ _ _ _ Hv H1 H2) as Hv'.
    destruct v as [a n i|]; cbn [dom_stmt]; stop. destruct (expr_same D M vd e D' M' Hv' He) as [E G]. rewrite E. destruct (dom_expr (D := ET) vd e) as [x| | |]; cbn [obind]; stop.
    split; [reflexivity|]. intros r H. destruct (vput vd i x) as [v1| | |] eqn:Ep; cbn [obind] in H; try discriminate. injection H as <-. eapply gv_put; [|exact (G x eq_refl)|exact Ep]. eapply gv_more; eauto.
  - intros D M v e D' m Hd Hr He. split; [exact Hd|]. split; [lra|]. split; [exact Hr|]. intros D0 M0 vd H1 H2 Hv. pose proof (gv_more _ _ _ _ _ Hv H1 H2) as Hv'.
    destruct v as [a n i|]; cbn [dom_stmt]; stop. destruct (expr_same D M vd e D' m Hv' He) as [E G]. rewrite E. destruct (dom_expr (D := ET) vd e) as [x| | |]; cbn [obind]; stop. specialize (G x eq_refl).
    pose proof (plain_room _ _ _ _ _ He) as Hre. assert (R0 : room D' 0) by (destruct Hr as (A & B & C); split; [exact A|]; split; [exact B|lra]).
    assert (F1 : forall i j, gi D' m i -> j = half -> i_div (D := CT) i j = i_div (D := ET) i j /\ forall k, i_div (D := ET) i j = Ok k -> gi D' 0 k) by (intros i0 j Hi ->; now apply (div_half_same D' m)).
    destruct (lift2_same D' 0 R0 (i_div (D := CT)) (i_div (D := ET)) (gi D' m) (fun j => j = half) F1 x [half] G ltac:(repeat constructor)) as [E2 G2].
    rewrite E2. destruct (lift2 (D := ET) (i_div (D := ET)) x [half]) as [p| | |]; cbn [obind]; stop. specialize (G2 p eq_refl).
    destruct (vget vd i) as [o| | |] eqn:Eo; cbn [obind]; stop.
    assert (Go : gd D' M o) by (eapply gd_more; [exact (Hv' _ _ Eo)|exact Hd|lra]). assert (RM : room D' (M + 0)) by (now rewrite Rplus_0_r).
    assert (F2 : forall i j, gi D' M i -> gi D' 0 j -> i_add (D := CT) i j = i_add (D := ET) i j /\ forall k, i_add (D := ET) i j = Ok k -> gi D' (M + 0) k) by (intros i0 j Hi Hj; now apply i_add_same).
    destruct (lift2_same D' (M + 0) RM (i_add (D := CT)) (i_add (D := ET)) (gi D' M) (gi D' 0) F2 o p Go G2) as [E3 G3].
    rewrite E3. destruct (lift2 (D := ET) (i_add (D := ET)) o p) as [sm| | |]; cbn [obind]; stop. specialize (G3 sm eq_refl). rewrite Rplus_0_r in G3.
    split; [reflexivity|]. intros r H. destruct (vput vd i sm) as [v1| | |] eqn:Ep; cbn [obind] in H; try discriminate. injection H as <-. eapply gv_put; [|exact G3|exact Ep]. eapply gv_more; [exact Hv'|exact Hd|lra].
  - intros D M f af c t D1 M1 Hc Ht (A1 & A2 & A3 & A4). split; [exact A1|]. split; [exact A2|]. split; [exact A3|]. intros D0 M0 vd H1 H2 Hv. pose proof (gv_more _ _ _ _ _ Hv H1 H2) as Hv'.
    rewrite !if_unfold. rewrite (cond_same fuzzy D M vd c Hv' Hc). destruct (dom_cond (D := ET) fuzzy vd c) as [[v c']| | |]; cbn [obind]; stop.
    destruct (A4 D0 M0 vd H1 H2 Hv) as [E G]. destruct v.
    + rewrite E. destruct (dom_all (D := ET) fuzzy t vd) as [[v1 t1]| | |]; cbn [obind fst snd]; stop. split; [reflexivity|]. intros r H. injection H as <-. exact (G _ eq_refl).
    + split; [reflexivity|]. intros r H. injection H as <-. cbn [fst]. eapply gv_more; [exact Hv'|exact A1|exact A2].
    + rewrite E. destruct (dom_all (D := ET) fuzzy t vd) as [[v1 t1]| | |]; cbn [obind fst snd]; stop. specialize (G _ eq_refl). cbn [fst] in G.
      destruct (restore af vd v1) as [v0| | |] eqn:Er; cbn [obind]; stop. assert (G0 : gv D1 M1 v0) by (exact (restore_grid _ _ _ _ (gv_more _ _ _ _ _ Hv' A1 A2) _ _ G Er)).
      destruct (merge_same D1 M1 af v1 A3 G v0 G0) as [E2 G2]. rewrite E2. destruct (merge_in (D := ET) af v1 v0) as [v2| | |]; cbn [obind]; stop. split; [reflexivity|]. intros r H. injection H as <-. exact (G2 _ eq_refl).
  - intros D M f af c t D1 M1 l D2 M2 Hc Ht (A1 & A2 & A3 & A4) Hl (B1 & B2 & B3 & B4). split; [now apply (Z.divide_trans _ D1)|]. split; [lra|]. split; [exact B3|]. intros D0 M0 vd H1 H2 Hv. pose proof (gv_more _ _ _ _ _ Hv H1 H2) as Hv'.
    pose proof (gv_more _ _ _ _ _ Hv' A1 A2) as Hv1. rewrite !if_unfold. rewrite (cond_same fuzzy D M vd c Hv' Hc). destruct (dom_cond (D := ET) fuzzy vd c) as [[v c']| | |]; cbn [obind]; stop.
    destruct (A4 D0 M0 vd H1 H2 Hv) as [E G]. destruct v.
    + rewrite E. destruct (dom_all (D := ET) fuzzy t vd) as [[v1 t1]| | |]; cbn [obind fst snd]; stop. split; [reflexivity|]. intros r H. injection H as <-. eapply gv_more; [exact (G _ eq_refl)|exact B1|exact B2].
    + destruct (B4 D1 M1 vd (Z.divide_refl _) (Rle_refl _) Hv1) as [E2 G2]. rewrite E2. destruct (dom_all (D := ET) fuzzy l vd) as [[v1 t1]| | |]; cbn [obind fst snd]; stop. split; [reflexivity|]. intros r H. injection H as <-. exact (G2 _ eq_refl).
    + rewrite E. destruct (dom_all (D := ET) fuzzy t vd) as [[v1 t1]| | |]; cbn [obind fst snd]; stop. specialize (G _ eq_refl). cbn [fst] in G.
      destruct (restore af vd v1) as [v0| | |] eqn:Er; cbn [obind]; stop. assert (G0 : gv D1 M1 v0) by (exact (restore_grid _ _ _ _ (gv_more _ _ _ _ _ Hv' A1 A2) _ _ G Er)).
      destruct (B4 D1 M1 v0 (Z.divide_refl _) (Rle_refl _) G0) as [E2 G2]. rewrite E2. destruct (dom_all (D := ET) fuzzy l v0) as [[v3 l3]| | |]; cbn [obind fst snd]; stop. specialize (G2 _ eq_refl). cbn [fst] in G2.
      destruct (merge_same D2 M2 af v1 B3 (gv_more _ _ _ _ _ G B1 B2) v3 G2) as [E4 G4]. rewrite E4. destruct (merge_in (D := ET) af v1 v3) as [v2| | |]; cbn [obind]; stop. split; [reflexivity|]. intros r H. injection H as <-. exact (G4 _ eq_refl).
  - intros D M l D1 M1 Hl (A1 & A2 & A3 & A4). split; [exact A1|]. split; [exact A2|]. split; [exact A3|]. intros D0 M0 vd H1 H2 Hv. rewrite !collect_unfold. destruct (A4 D0 M0 vd H1 H2 Hv) as [E G]. rewrite E.
    destruct (dom_all (D := ET) fuzzy l vd) as [[v1 t1]| | |]; cbn [obind fst snd]; stop. split; [reflexivity|]. intros r H. injection H as <-. exact (G _ eq_refl).
  - intros D M Hr. split; [apply Z.divide_refl|]. split; [lra|]. split; [exact Hr|]. intros D0 M0 vd H1 H2 Hv. cbn [dom_all]. split; [reflexivity|]. intros r H. injection H as <-. cbn [fst]. eapply gv_more; eauto.
  - intros D M s D1 M1 l D2 M2 Hs (A1 & A2 & A3 & A4) Hl (B1 & B2 & B3 & B4). split; [now apply (Z.divide_trans _ D1)|]. split; [lra|]. split; [exact B3|]. intros D0 M0 vd H1 H2 Hv. cbn [dom_all].
    destruct (A4 D0 M0 vd H1 H2 Hv) as [E G]. rewrite E. destruct (dom_stmt (D := ET) fuzzy s vd) as [[v1 t1]| | |]; cbn [obind fst snd]; stop. specialize (G _ eq_refl). cbn [fst] in G.
    destruct (B4 D1 M1 v1 (Z.divide_refl _) (Rle_refl _) G) as [E2 G2]. rewrite E2. destruct (dom_all (D := ET) fuzzy l v1) as [[v2 l2]| | |]; cbn [obind fst snd]; stop. split; [reflexivity|]. intros r H. injection H as <-. exact (G2 _ eq_refl).
Qed.
Lemma events_same fuzzy D M l : plain_events D M l -> forall vd, gv D M vd -> dom_events (D := CT) fuzzy l vd = dom_events (D := ET) fuzzy l vd.
Proof.
  induction 1 as [D M|D M e D1 M1 l He Hl IH]; intros vd Hv; cbn [dom_events]; [reflexivity|]. destruct (proj2 (run_same fuzzy) D M e D1 M1 He) as (A1 & A2 & A3 & A4).
  destruct (A4 D M vd (Z.divide_refl _) (Rle_refl _) Hv) as [E G]. rewrite E. destruct (dom_all (D := ET) fuzzy e vd) as [[v1 t1]| | |]; cbn [obind fst snd]; try reflexivity. rewrite IH; [reflexivity|]. exact (G _ eq_refl).
Qed.
Lemma init_grid n : gv 1 0 (@dom_init RN n).
Proof.
  intros i d H. unfold vget in H. destruct (i <? 0)%Z; [discriminate|]. destruct (nth_error (dom_init n) (Z.to_nat i)) eqn:E; [|discriminate]. injection H as <-.
  apply nth_error_In in E. unfold dom_init in E. apply repeat_spec in E. subst. constructor; [|constructor]. apply single_same, zero_grid. lra.
Qed.
End Real.
