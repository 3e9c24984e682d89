(** The evaluators of scripts do the same thing in any two arithmetics related by a map that respects the operations and the tests. *)
From Coq Require Import ZArith List Bool Lia.
From Verif Require Import Base StringModel FuzzyModel FuzzySpec FuzzyProofs FuzzyProps ScriptSpec ScriptEval ScriptModel.
Import ListNotations.
Open Scope Z_scope.

(** Scripts with every number in them replaced. *)
Section Lift.
Context {N1 N2 : Num}.
Variable g : @num N2 -> @num N1.
Fixpoint lift_expr (e : @expr N2) : @expr N1 :=
  match e with
  | EBin a op l r x => EBin (option_map g a) op (lift_expr l) (lift_expr r) (map lift_expr x)
  | EUn a op x => EUn (option_map g a) op (lift_expr x)
  | ESpot a => ESpot (option_map g a)
  | EConst v => EConst (g v)
  | EVar a n i => EVar (option_map g a) n i
  | EConstVar n i v => EConstVar n i (g v)
  end.
Definition lift_fuzz (z : @fuzz N2) : @fuzz N1 := @Fuzz N1 (isDiscrete z) (g (eps z)) (g (lb z)) (g (rb z)).
Fixpoint lift_cond (c : @cond N2) : @cond N1 :=
  match c with
  | CCmp f op z e => CCmp f op (lift_fuzz z) (lift_expr e)
  | CAnd f a b => CAnd f (lift_cond a) (lift_cond b)
  | COr f a b => COr f (lift_cond a) (lift_cond b)
  | CNot f a => CNot f (lift_cond a)
  | CTrue => CTrue
  | CFalse => CFalse
  end.
Definition lift_lhs (v : @lhs N2) : @lhs N1 := match v with LVar a n i => LVar (option_map g a) n i | LConst n i x => LConst n i (g x) end.
Fixpoint lift_stmt (s : @stmt N2) : @stmt N1 :=
  match s with
  | SAssign v e => SAssign (lift_lhs v) (lift_expr e)
  | SPays v e => SPays (lift_lhs v) (lift_expr e)
  | SIf f af c t e => SIf f af (lift_cond c) (map lift_stmt t) (option_map (map lift_stmt) e)
  | SCollect l => SCollect (map lift_stmt l)
  end.
Definition lift_events (l : list (list (@stmt N2))) : list (list (@stmt N1)) := map (map lift_stmt) l.
End Lift.

Section Hom.
Context {N1 N2 : Num} {F1 : FuzzyNum N1} {F2 : FuzzyNum N2}.
Variable g : @num N2 -> @num N1.
Variable h : @num N1 -> @num N2.
Record respects : Prop := {
  h_lift : forall v, h (g v) = v;
  h_zero : h n_zero = n_zero; h_thirty : h n_thirty = n_thirty; h_one : h n_one = n_one; h_half : h n_half = n_half;
  h_add : forall a b, h (n_add a b) = n_add (h a) (h b); h_sub : forall a b, h (n_sub a b) = n_sub (h a) (h b);
  h_mul : forall a b, h (n_mul a b) = n_mul (h a) (h b); h_div : forall a b, h (n_div a b) = n_div (h a) (h b);
  h_pow : forall a b, h (n_pow a b) = n_pow (h a) (h b); h_neg : forall a, h (n_neg a) = n_neg (h a);
  h_log : forall a, h (n_log a) = n_log (h a); h_sqrt : forall a, h (n_sqrt a) = n_sqrt (h a); h_exp : forall a, h (n_exp a) = n_exp (h a);
  h_abs : forall a, h (n_abs a) = n_abs (h a);
  h_ltb : forall a b, n_ltb a b = n_ltb (h a) (h b); h_eq0 : forall a, eq0 a = eq0 (h a); h_gt0 : forall a, gt0 a = gt0 (h a);
  h_ge0 : forall a, ge0 a = ge0 (h a); h_const : forall a, ge0_const a = ge0_const (h a);
  h_surely : forall a, surely a = surely (h a); h_never : forall a, never a = never (h a) }.
Hypothesis H : respects.

Definition sim {A B} (R : A -> B -> Prop) (o1 : outcome A) (o2 : outcome B) : Prop :=
  match o1, o2 with Ok a, Ok b => R a b | Throw, Throw => True | UB, UB => True | OutOfFuel, OutOfFuel => True | _, _ => False end.
Lemma sim_bind {A B C D} (R : A -> B -> Prop) (Q : C -> D -> Prop) o1 o2 k1 k2 : sim R o1 o2 -> (forall a b, R a b -> sim Q (k1 a) (k2 b)) ->
  sim Q (obind o1 k1) (obind o2 k2).
Proof. destruct o1, o2; cbn; try contradiction; auto. Qed.
Lemma sim_impl {A B} (R Q : A -> B -> Prop) o1 o2 : (forall a b, R a b -> Q a b) -> sim R o1 o2 -> sim Q o1 o2.
Proof. destruct o1, o2; cbn; auto. Qed.

Notation hv := (fun a b => h a = b).
Definition rel_stack (s1 : stack (@num N1)) (s2 : stack (@num N2)) : Prop := sp s1 = sp s2 /\ forall i, option_map h (data s1 i) = data s2 i.
Lemma sim_sget lo s1 s2 i : rel_stack s1 s2 -> sim hv (sget lo s1 i) (sget lo s2 i).
Proof. intros [_ Hd]. unfold sget. destruct (in_stack lo i); [|exact Logic.I]. rewrite <- Hd. destruct (data s1 i); cbn; auto. Qed.
Lemma sim_sput lo s1 s2 i v1 v2 : rel_stack s1 s2 -> h v1 = v2 -> sim rel_stack (sput lo s1 i v1) (sput lo s2 i v2).
Proof. intros [Hs Hd] <-. unfold sput. destruct (in_stack lo i); [|exact Logic.I]. cbn. split; [exact Hs|]. intros j. cbn. destruct (j =? i); auto. Qed.
Lemma rel_pop s1 s2 : rel_stack s1 s2 -> rel_stack (pop s1) (pop s2).
Proof. intros [Hs Hd]. split; [cbn; lia|exact Hd]. Qed.
Lemma rel_reset s1 s2 : rel_stack s1 s2 -> rel_stack (reset s1) (reset s2).
Proof. intros [Hs Hd]. split; [reflexivity|exact Hd]. Qed.
Lemma rel_empty : rel_stack empty_stack empty_stack.
Proof. split; reflexivity. Qed.
Lemma sim_push lo s1 s2 v1 v2 : rel_stack s1 s2 -> h v1 = v2 -> sim rel_stack (push lo v1 s1) (push lo v2 s2).
Proof. intros [Hs Hd] Hv. unfold push. rewrite Hs. apply sim_sput; [|exact Hv]. split; [reflexivity|exact Hd]. Qed.
Lemma sim_top lo s1 s2 : rel_stack s1 s2 -> sim hv (top lo s1) (top lo s2).
Proof. intros Hr. unfold top. rewrite (proj1 Hr). now apply sim_sget. Qed.
Lemma sim_second lo s1 s2 : rel_stack s1 s2 -> sim hv (second lo s1) (second lo s2).
Proof. intros Hr. unfold second. rewrite (proj1 Hr). now apply sim_sget. Qed.
Lemma sim_set_top lo s1 s2 v1 v2 : rel_stack s1 s2 -> h v1 = v2 -> sim rel_stack (set_top lo s1 v1) (set_top lo s2 v2).
Proof. intros Hr Hv. unfold set_top. rewrite (proj1 Hr). now apply sim_sput. Qed.
Lemma sim_set_second lo s1 s2 v1 v2 : rel_stack s1 s2 -> h v1 = v2 -> sim rel_stack (set_second lo s1 v1) (set_second lo s2 v2).
Proof. intros Hr Hv. unfold set_second. rewrite (proj1 Hr). now apply sim_sput. Qed.
Definition rel_top (p : @num N1 * stack (@num N1)) (q : @num N2 * stack (@num N2)) : Prop := h (fst p) = fst q /\ rel_stack (snd p) (snd q).
Lemma sim_top_and_pop lo s1 s2 : rel_stack s1 s2 -> sim rel_top (top_and_pop lo s1) (top_and_pop lo s2).
Proof. intros Hr. unfold top_and_pop. eapply sim_bind; [now apply sim_top|]. intros a b Hab. cbn. split; [exact Hab|now apply rel_pop]. Qed.
Lemma sim_same {A} (o : outcome A) : sim eq o o.
Proof. destruct o; cbn; auto. Qed.
Definition rel_list (l1 : list (@num N1)) (l2 : list (@num N2)) : Prop := map h l1 = l2.
Lemma upd_map (l : list (@num N1)) n v : map h (upd_nat l n v) = upd_nat (map h l) n (h v).
Proof. revert n. induction l as [|x l IH]; intros [|n]; cbn; auto. now rewrite IH. Qed.
Lemma sim_vget l1 l2 i : rel_list l1 l2 -> sim hv (vget l1 i) (vget l2 i).
Proof. intros <-. unfold vget. destruct (i <? 0); [exact Logic.I|]. rewrite nth_error_map. destruct (nth_error l1 (Z.to_nat i)); cbn; auto. Qed.
Lemma sim_vput l1 l2 i v1 v2 : rel_list l1 l2 -> h v1 = v2 -> sim rel_list (vput l1 i v1) (vput l2 i v2).
Proof. intros <- <-. unfold vput. rewrite map_length. destruct ((0 <=? i) && (i <? Z.of_nat (length l1))); [|exact Logic.I]. cbn. apply upd_map. Qed.
Definition rel_sample (s1 : @sample N1) (s2 : @sample N2) : Prop := h (spot s1) = spot s2 /\ h (numeraire s1) = numeraire s2.
Definition rel_e (s1 : @estate N1) (s2 : @estate N2) : Prop := rel_list (vars s1) (vars s2) /\ rel_stack (dst s1) (dst s2) /\ bst s1 = bst s2.

Lemma h_bin op a b : h (bin op a b) = bin op (h a) (h b).
Proof. destruct op; cbn [bin]; try apply H; rewrite (h_ltb H); destruct (n_ltb _ _); reflexivity. Qed.
Lemma h_un op a : h (un op a) = un op (h a).
Proof. destruct op; cbn [un]; try apply H; reflexivity. Qed.
Lemma h_test op a : test op a = test op (h a).
Proof. destruct op; cbn [test]; apply H. Qed.

Section Eval.
Variable past : bool.
Variables (c1 : list (@num N1)) (c2 : list (@num N2)).
Hypothesis Hc : rel_list c1 c2.
Variables (m1 : @sample N1) (m2 : @sample N2).
Hypothesis Hm : rel_sample m1 m2.

Lemma sim_expr e : forall s1 s2, rel_e s1 s2 -> sim rel_e (visit_expr past c1 m1 (lift_expr g e) s1) (visit_expr past c2 m2 e s2).
Proof.
  induction e as [a op l r x IHl IHr Hx|a op x IH|a|v|a n i|n i v] using expr_ind'; intros s1 s2 Hs; cbn [lift_expr visit_expr].
  - eapply sim_bind; [now apply IHl|]. intros p q Hp. eapply sim_bind; [now apply IHr|]. clear p q Hp. intros p q (V & D & B).
    eapply sim_bind; [now apply sim_second|]. intros u1 u2 Hu. eapply sim_bind; [now apply sim_top|]. intros w1 w2 Hw.
    eapply sim_bind; [apply sim_set_second; [exact D|]; rewrite h_bin, Hu, Hw; reflexivity|]. intros d1 d2 Hd. cbn. repeat split; cbn; auto; try apply rel_pop; apply Hd.
  - eapply sim_bind; [now apply IH|]. intros p q (V & D & B). eapply sim_bind; [now apply sim_top|]. intros w1 w2 Hw.
    eapply sim_bind; [apply sim_set_top; [exact D|]; rewrite h_un, Hw; reflexivity|]. intros d1 d2 Hd. cbn. repeat split; cbn; auto; apply Hd.
  - destruct Hs as (V & D & B). eapply sim_bind; [apply sim_push; [exact D|]; destruct past; [apply H|apply Hm]|]. intros d1 d2 Hd. cbn. repeat split; cbn; auto; apply Hd.
  - destruct Hs as (V & D & B). eapply sim_bind; [apply sim_push; [exact D|]; apply H|]. intros d1 d2 Hd. cbn. repeat split; cbn; auto; apply Hd.
  - destruct Hs as (V & D & B). eapply sim_bind; [now apply sim_vget|]. intros w1 w2 Hw. eapply sim_bind; [apply sim_push; [exact D|exact Hw]|]. intros d1 d2 Hd. cbn. repeat split; cbn; auto; apply Hd.
  - destruct Hs as (V & D & B). eapply sim_bind; [apply sim_vget; exact Hc|]. intros w1 w2 Hw. eapply sim_bind; [apply sim_push; [exact D|exact Hw]|]. intros d1 d2 Hd. cbn. repeat split; cbn; auto; apply Hd.
Qed.
Lemma sim_cond c : forall s1 s2, rel_e s1 s2 -> sim rel_e (visit_cond past c1 m1 (lift_cond g c) s1) (visit_cond past c2 m2 c s2).
Proof.
  induction c as [f op z e|f a IHa b IHb|f a IHa b IHb|f a IHa| |]; intros s1 s2 Hs; cbn [lift_cond visit_cond].
  - eapply sim_bind; [now apply sim_expr|]. intros p q (V & D & B). eapply sim_bind; [now apply sim_top_and_pop|]. intros u1 u2 [U1 U2].
    rewrite h_test, U1, B. eapply sim_bind; [apply sim_same|]. intros b ? <-. cbn. repeat split; cbn; auto; apply U2.
  - eapply sim_bind; [now apply IHa|]. intros p q (V & D & B). rewrite B. eapply sim_bind; [apply sim_same|]. intros t ? <-. destruct t.
    + apply IHb. repeat split; cbn; auto; apply D. + cbn. repeat split; auto; apply D.
  - eapply sim_bind; [now apply IHa|]. intros p q (V & D & B). rewrite B. eapply sim_bind; [apply sim_same|]. intros t ? <-. destruct t; cbn [negb].
    + cbn. repeat split; auto; apply D. + apply IHb. repeat split; cbn; auto; apply D.
  - eapply sim_bind; [now apply IHa|]. intros p q (V & D & B). rewrite B. eapply sim_bind; [apply sim_same|]. intros t ? <-.
    eapply sim_bind; [apply sim_same|]. intros b ? <-. cbn. repeat split; cbn; auto; apply D.
  - destruct Hs as (V & D & B). rewrite B. eapply sim_bind; [apply sim_same|]. intros b ? <-. cbn. repeat split; cbn; auto; apply D.
  - destruct Hs as (V & D & B). rewrite B. eapply sim_bind; [apply sim_same|]. intros b ? <-. cbn. repeat split; cbn; auto; apply D.
Qed.
Definition sim_st (st : @stmt N2) : Prop := forall s1 s2, rel_e s1 s2 -> sim rel_e (visit_stmt past c1 m1 (lift_stmt g st) s1) (visit_stmt past c2 m2 st s2).
Lemma sim_all l : Forall sim_st l -> forall s1 s2, rel_e s1 s2 -> sim rel_e (visit_all past c1 m1 (map (lift_stmt g) l) s1) (visit_all past c2 m2 l s2).
Proof. induction 1 as [|st l H1 _ IH]; intros s1 s2 Hs; cbn [map visit_all]; [exact Hs|]. eapply sim_bind; [now apply H1|]. exact IH. Qed.
Lemma sim_stmt st : sim_st st.
Proof.
  induction st as [v e|v e|f af c t Ht|f af c t l Ht Hl|l Hl] using stmt_ind'; intros s1 s2 Hs.
  - destruct v as [a n i|n i v]; cbn [lift_stmt lift_lhs visit_stmt]; [|exact Logic.I]. eapply sim_bind; [now apply sim_expr|]. intros p q (V & D & B).
    eapply sim_bind; [now apply sim_top_and_pop|]. intros u1 u2 [U1 U2]. eapply sim_bind; [apply sim_vput; [exact V|exact U1]|]. intros v1 v2 Hv. cbn. repeat split; cbn; auto; apply U2.
  - destruct v as [a n i|n i v]; cbn [lift_stmt lift_lhs visit_stmt].
    + eapply sim_bind; [now apply sim_expr|]. intros p q (V & D & B). destruct past; [cbn; repeat split; auto; apply D|].
      eapply sim_bind; [now apply sim_top_and_pop|]. intros u1 u2 [U1 U2]. eapply sim_bind; [now apply sim_vget|]. intros o1 o2 Ho.
      eapply sim_bind; [apply sim_vput; [exact V|]; rewrite (h_add H), (h_div H), Ho, U1; now rewrite (proj2 Hm)|]. intros v1 v2 Hv. cbn. repeat split; cbn; auto; apply U2.
    + pose proof (sim_expr e _ _ Hs) as He. destruct past; [exact He|exact Logic.I].
  - change (sim rel_e (do s1' <- visit_cond past c1 m1 (lift_cond g c) s1; do p <- top_and_pop 0 (bst s1'); let s2' := with_b s1' (snd p) in if (fst p : bool) then visit_all past c1 m1 (map (lift_stmt g) t) s2' else Ok s2')
                      (do s1' <- visit_cond past c2 m2 c s2; do p <- top_and_pop 0 (bst s1'); let s2' := with_b s1' (snd p) in if (fst p : bool) then visit_all past c2 m2 t s2' else Ok s2')).
    eapply sim_bind; [now apply sim_cond|]. intros p q (V & D & B). rewrite B. eapply sim_bind; [apply sim_same|]. intros u ? <-. cbv zeta.
    assert (rel_e (with_b p (snd u)) (with_b q (snd u))) as Hr by (repeat split; cbn; auto; apply D). destruct (fst u); [now apply sim_all|exact Hr].
  - change (sim rel_e (do s1' <- visit_cond past c1 m1 (lift_cond g c) s1; do p <- top_and_pop 0 (bst s1'); let s2' := with_b s1' (snd p) in if (fst p : bool) then visit_all past c1 m1 (map (lift_stmt g) t) s2' else visit_all past c1 m1 (map (lift_stmt g) l) s2')
                      (do s1' <- visit_cond past c2 m2 c s2; do p <- top_and_pop 0 (bst s1'); let s2' := with_b s1' (snd p) in if (fst p : bool) then visit_all past c2 m2 t s2' else visit_all past c2 m2 l s2')).
    eapply sim_bind; [now apply sim_cond|]. intros p q (V & D & B). rewrite B. eapply sim_bind; [apply sim_same|]. intros u ? <-. cbv zeta.
    assert (rel_e (with_b p (snd u)) (with_b q (snd u))) as Hr by (repeat split; cbn; auto; apply D). destruct (fst u); now apply sim_all.
  - change (sim rel_e (visit_all past c1 m1 (map (lift_stmt g) l) s1) (visit_all past c2 m2 l s2)). now apply sim_all.
Qed.

End Eval.

(** ** The fuzzy evaluator *)
Section Fuzzy.
Variables (c1 : list (@num N1)) (c2 : list (@num N2)).
Hypothesis Hc : rel_list c1 c2.
Variables (d1 : @num N1) (d2 : @num N2).
Hypothesis Hd : h d1 = d2.
Definition rel_rows (a : list (list (@num N1))) (b : list (list (@num N2))) : Prop := map (map h) a = b.
Definition rel_f (s1 : @fstate N1) (s2 : @fstate N2) : Prop :=
  rel_e (base s1) (base s2) /\ rel_stack (fz s1) (fz s2) /\ rel_rows (store0 s1) (store0 s2) /\ rel_rows (store1 s1) (store1 s2) /\ lvl s1 = lvl s2.
Lemma h_degree op z x : h (degree_cmp d1 op (lift_fuzz g z) x) = degree_cmp d2 op z (h x).
Proof.
  unfold degree_cmp. cbn [lift_fuzz isDiscrete lb rb eps].
  assert (h (if n_ltb (g (eps z)) n_zero then d1 else g (eps z)) = (if n_ltb (eps z) n_zero then d2 else eps z)) as He.
  { rewrite (h_ltb H), (h_lift H), (h_zero H). destruct (n_ltb (eps z) n_zero); [exact Hd|apply H]. }
  set (e1 := if n_ltb (g (eps z)) n_zero then d1 else g (eps z)) in *. set (e2 := if n_ltb (eps z) n_zero then d2 else eps z) in *. clearbody e1 e2. subst e2.
  destruct op, (isDiscrete z); unfold bfly, bfly2, cspr, cspr2; cbv zeta; rewrite ?(h_ltb H), ?(h_neg H), ?(h_mul H), ?(h_half H), ?(h_lift H), ?(h_zero H);
    repeat match goal with |- context [n_ltb ?a ?b] => destruct (n_ltb a b) end; cbn [orb];
    rewrite ?(h_div H), ?(h_sub H), ?(h_add H), ?(h_abs H), ?(h_mul H), ?(h_half H), ?(h_lift H), ?(h_div H), ?(h_zero H), ?(h_one H), ?(h_lift H); reflexivity.
Qed.
Lemma rel_with_fz s1 s2 z1 z2 : rel_f s1 s2 -> rel_stack z1 z2 -> rel_f (with_fz s1 z1) (with_fz s2 z2).
Proof. intros (B & Z & S0 & S1 & L) Hz. unfold rel_f. cbn. tauto. Qed.
Lemma rel_with_base s1 s2 z1 z2 : rel_f s1 s2 -> rel_e z1 z2 -> rel_f (with_base s1 z1) (with_base s2 z2).
Proof. intros (B & Z & S0 & S1 & L) Hz. unfold rel_f. cbn. tauto. Qed.
Lemma rel_with_lvl s1 s2 l1 l2 : rel_f s1 s2 -> l1 = l2 -> rel_f (with_lvl s1 l1) (with_lvl s2 l2).
Proof. intros (B & Z & S0 & S1 & L) Hz. unfold rel_f. cbn. tauto. Qed.
Lemma sim_row m1 m2 i : rel_rows m1 m2 -> sim rel_list (vget m1 i) (vget m2 i).
Proof. intros <-. unfold vget. destruct (i <? 0); [exact Logic.I|]. rewrite nth_error_map. destruct (nth_error m1 (Z.to_nat i)); cbn; auto. reflexivity. Qed.
Lemma sim_put2 m1 m2 i j v1 v2 : rel_rows m1 m2 -> h v1 = v2 -> sim rel_rows (put2 m1 i j v1) (put2 m2 i j v2).
Proof.
  intros Hm Hv. unfold put2. eapply sim_bind; [now apply sim_row|]. intros r1 r2 Hr. eapply sim_bind; [now apply sim_vput|]. intros q1 q2 Hq.
  unfold rel_rows, rel_list in *. subst. unfold vput. rewrite map_length. destruct ((0 <=? i) && (i <? Z.of_nat (length m1))); [|exact Logic.I]. cbn.
  clear. generalize (Z.to_nat i). induction m1 as [|x l IH]; intros [|n]; cbn; auto. now rewrite IH.
Qed.
Lemma sim_get2 m1 m2 i j : rel_rows m1 m2 -> sim hv (get2 m1 i j) (get2 m2 i j).
Proof. intros Hm. unfold get2. eapply sim_bind; [now apply sim_row|]. intros r1 r2 Hr. now apply sim_vget. Qed.
Lemma sim_save0 af : forall s1 s2, rel_f s1 s2 -> sim rel_f (save0 af s1) (save0 af s2).
Proof.
  induction af as [|i r IH]; intros s1 s2 Hs; cbn [save0]; [exact Hs|]. destruct Hs as ((V & D & B) & Z & S0 & S1 & L).
  eapply sim_bind; [now apply sim_vget|]. intros v1 v2 Hv. rewrite L. eapply sim_bind; [now apply sim_put2|]. intros m1 m2 Hm. apply IH. unfold rel_f, rel_e. cbn. tauto.
Qed.
Lemma sim_swap1 af : forall s1 s2, rel_f s1 s2 -> sim rel_f (swap1 af s1) (swap1 af s2).
Proof.
  induction af as [|i r IH]; intros s1 s2 Hs; cbn [swap1]; [exact Hs|]. destruct Hs as ((V & D & B) & Z & S0 & S1 & L).
  eapply sim_bind; [now apply sim_vget|]. intros v1 v2 Hv. rewrite L. eapply sim_bind; [now apply sim_put2|]. intros m1 m2 Hm.
  eapply sim_bind; [now apply sim_get2|]. intros w1 w2 Hw. eapply sim_bind; [apply sim_vput; [exact V|exact Hw]|]. intros q1 q2 Hq. apply IH. unfold rel_f, rel_e. cbn. tauto.
Qed.
Lemma sim_blend t1 t2 af : h t1 = t2 -> forall s1 s2, rel_f s1 s2 -> sim rel_f (blend t1 af s1) (blend t2 af s2).
Proof.
  intros Ht. induction af as [|i r IH]; intros s1 s2 Hs; cbn [blend]; [exact Hs|]. destruct Hs as ((V & D & B) & Z & S0 & S1 & L).
  rewrite L. eapply sim_bind; [now apply sim_get2|]. intros w1 w2 Hw. eapply sim_bind; [now apply sim_vget|]. intros v1 v2 Hv.
  eapply sim_bind; [apply sim_vput; [exact V|]; rewrite (h_add H), !(h_mul H), (h_sub H), (h_one H), Ht, Hw, Hv; reflexivity|]. intros q1 q2 Hq. apply IH. unfold rel_f, rel_e. cbn. tauto.
Qed.
Section Sample.
Variables (m1 : @sample N1) (m2 : @sample N2).
Hypothesis Hm : rel_sample m1 m2.
Lemma fsim_cond c : forall s1 s2, rel_f s1 s2 -> sim rel_f (fvisit_cond c1 d1 m1 (lift_cond g c) s1) (fvisit_cond c2 d2 m2 c s2).
Proof.
  induction c as [f op z e|f a IHa b IHb|f a IHa b IHb|f a IHa| |]; intros s1 s2 Hs; cbn [lift_cond fvisit_cond].
  - destruct Hs as (B & Z & S0 & S1 & L). eapply sim_bind; [apply (sim_expr false c1 c2 Hc m1 m2 Hm e _ _ B)|]. intros p q (V & D & Bb).
    eapply sim_bind; [now apply sim_top_and_pop|]. intros u1 u2 [U1 U2]. eapply sim_bind; [apply sim_push; [exact Z|]; rewrite h_degree, U1; reflexivity|].
    intros z1 z2 Hz. cbn. unfold rel_f, rel_e. cbn. tauto.
  - eapply sim_bind; [now apply IHa|]. intros p q Hp. eapply sim_bind; [now apply IHb|]. clear p q Hp. intros p q Hp.
    eapply sim_bind; [apply sim_top_and_pop, Hp|]. intros u1 u2 [U1 U2]. eapply sim_bind; [apply sim_top_and_pop, U2|]. intros w1 w2 [W1 W2].
    eapply sim_bind; [apply sim_push; [exact W2|]; rewrite (h_mul H), U1, W1; reflexivity|]. intros z1 z2 Hz. cbn. now apply rel_with_fz.
  - eapply sim_bind; [now apply IHa|]. intros p q Hp. eapply sim_bind; [now apply IHb|]. clear p q Hp. intros p q Hp.
    eapply sim_bind; [apply sim_top_and_pop, Hp|]. intros u1 u2 [U1 U2]. eapply sim_bind; [apply sim_top_and_pop, U2|]. intros w1 w2 [W1 W2].
    eapply sim_bind; [apply sim_push; [exact W2|]; rewrite (h_sub H), (h_add H), (h_mul H), U1, W1; reflexivity|]. intros z1 z2 Hz. cbn. now apply rel_with_fz.
  - eapply sim_bind; [now apply IHa|]. intros p q Hp. assert (bst (base p) = bst (base q)) as E by apply Hp. rewrite E. eapply sim_bind; [apply sim_same|]. intros t ? <-.
    eapply sim_bind; [apply sim_same|]. intros b ? <-. cbn. apply rel_with_base; [exact Hp|]. destruct Hp as ((V & D & B) & _). unfold rel_e. cbn. tauto.
  - eapply sim_bind; [apply sim_push; [apply Hs|apply H]|]. intros z1 z2 Hz. cbn. now apply rel_with_fz.
  - eapply sim_bind; [apply sim_push; [apply Hs|apply H]|]. intros z1 z2 Hz. cbn. now apply rel_with_fz.
Qed.
Definition fsim_st (st : @stmt N2) : Prop := forall s1 s2, rel_f s1 s2 -> sim rel_f (fvisit_stmt c1 d1 m1 (lift_stmt g st) s1) (fvisit_stmt c2 d2 m2 st s2).
Lemma fsim_all l : Forall fsim_st l -> forall s1 s2, rel_f s1 s2 -> sim rel_f (fvisit_all c1 d1 m1 (map (lift_stmt g) l) s1) (fvisit_all c2 d2 m2 l s2).
Proof. induction 1 as [|st l H1 _ IH]; intros s1 s2 Hs; cbn [map fvisit_all]; [exact Hs|]. eapply sim_bind; [now apply H1|]. exact IH. Qed.
Lemma fsim_if f af c t e : Forall fsim_st t -> match e with None => True | Some l => Forall fsim_st l end -> fsim_st (SIf f af c t e).
Proof.
  intros Ht He s1 s2 Hs.
  change (sim rel_f
    (do s1' <- fvisit_cond c1 d1 m1 (lift_cond g c) (with_lvl s1 (lvl s1 + 1)); do p <- top_and_pop 0 (fz s1');
     let s2' := with_fz s1' (snd p) in let dt := fst p in
     do s6 <- (if surely dt then fvisit_all c1 d1 m1 (map (lift_stmt g) t) s2'
               else if never dt then match option_map (map (lift_stmt g)) e with None => Ok s2' | Some l => fvisit_all c1 d1 m1 l s2' end
               else do s3 <- save0 af s2'; do s4 <- fvisit_all c1 d1 m1 (map (lift_stmt g) t) s3; do s5 <- swap1 af s4;
                    do s6 <- match option_map (map (lift_stmt g)) e with None => Ok s5 | Some l => fvisit_all c1 d1 m1 l s5 end; blend dt af s6);
     Ok (with_lvl s6 (lvl s6 - 1)))
    (do s1' <- fvisit_cond c2 d2 m2 c (with_lvl s2 (lvl s2 + 1)); do p <- top_and_pop 0 (fz s1');
     let s2' := with_fz s1' (snd p) in let dt := fst p in
     do s6 <- (if surely dt then fvisit_all c2 d2 m2 t s2'
               else if never dt then match e with None => Ok s2' | Some l => fvisit_all c2 d2 m2 l s2' end
               else do s3 <- save0 af s2'; do s4 <- fvisit_all c2 d2 m2 t s3; do s5 <- swap1 af s4;
                    do s6 <- match e with None => Ok s5 | Some l => fvisit_all c2 d2 m2 l s5 end; blend dt af s6);
     Ok (with_lvl s6 (lvl s6 - 1)))).
  assert (forall a b, rel_f a b -> sim rel_f match option_map (map (lift_stmt g)) e with None => Ok a | Some l => fvisit_all c1 d1 m1 l a end
                                            match e with None => Ok b | Some l => fvisit_all c2 d2 m2 l b end) as Helse.
  { intros a b Hab. destruct e as [l|]; cbn [option_map]; [now apply fsim_all|exact Hab]. }
  eapply sim_bind; [apply fsim_cond, rel_with_lvl; [exact Hs|]; f_equal; apply Hs|]. intros p q Hp. eapply sim_bind; [apply sim_top_and_pop, Hp|]. intros u1 u2 [U1 U2]. cbv zeta.
  assert (rel_f (with_fz p (snd u1)) (with_fz q (snd u2))) as Hr by now apply rel_with_fz.
  eapply sim_bind; [|intros a b Hab; cbn; apply rel_with_lvl; [exact Hab|]; f_equal; apply Hab].
  rewrite (h_surely H), (h_never H), U1. destruct (surely (fst u2)); [now apply fsim_all|]. destruct (never (fst u2)); [now apply Helse|].
  eapply sim_bind; [now apply sim_save0|]. intros a3 b3 H3. eapply sim_bind; [now apply fsim_all|]. intros a4 b4 H4. eapply sim_bind; [now apply sim_swap1|]. intros a5 b5 H5.
  eapply sim_bind; [now apply Helse|]. intros a6 b6 H6. now apply sim_blend.
Qed.
Lemma fsim_stmt st : fsim_st st.
Proof.
  induction st as [v e|v e|f af c t Ht|f af c t l Ht Hl|l Hl] using stmt_ind'.
  - intros s1 s2 Hs. change (fvisit_stmt c1 d1 m1 (lift_stmt g (SAssign v e)) s1) with (do b <- visit_stmt false c1 m1 (lift_stmt g (SAssign v e)) (base s1); Ok (with_base s1 b)).
    change (fvisit_stmt c2 d2 m2 (SAssign v e) s2) with (do b <- visit_stmt false c2 m2 (SAssign v e) (base s2); Ok (with_base s2 b)).
    eapply sim_bind; [apply (sim_stmt false c1 c2 Hc m1 m2 Hm), Hs|]. intros a b Hab. cbn. now apply rel_with_base.
  - intros s1 s2 Hs. change (fvisit_stmt c1 d1 m1 (lift_stmt g (SPays v e)) s1) with (do b <- visit_stmt false c1 m1 (lift_stmt g (SPays v e)) (base s1); Ok (with_base s1 b)).
    change (fvisit_stmt c2 d2 m2 (SPays v e) s2) with (do b <- visit_stmt false c2 m2 (SPays v e) (base s2); Ok (with_base s2 b)).
    eapply sim_bind; [apply (sim_stmt false c1 c2 Hc m1 m2 Hm), Hs|]. intros a b Hab. cbn. now apply rel_with_base.
  - now apply fsim_if. 
  - now apply fsim_if.
  - intros s1 s2 Hs. change (sim rel_f (fvisit_all c1 d1 m1 (map (lift_stmt g) l) s1) (fvisit_all c2 d2 m2 l s2)). now apply fsim_all.
Qed.
End Sample.
Lemma fsim_events events p1 p2 : Forall2 rel_sample p1 p2 -> forall i s1 s2, rel_f s1 s2 ->
  sim rel_f (fvisit_events c1 d1 p1 i (lift_events g events) s1) (fvisit_events c2 d2 p2 i events s2).
Proof.
  intros Hp. induction events as [|evt r IH]; intros i s1 s2 Hs; cbn [lift_events map fvisit_events]; [exact Hs|].
  destruct evt as [|st evt]; cbn [map]; [now apply IH|].
  assert (match nth_error p1 i, nth_error p2 i with Some a, Some b => rel_sample a b | None, None => True | _, _ => False end) as Hn.
  { clear - Hp. revert i. induction Hp as [|a b l1 l2 Hab _ IH]; intros [|i]; cbn; auto. apply IH. }
  destruct (nth_error p1 i) as [m1|], (nth_error p2 i) as [m2|]; try contradiction; [|exact Logic.I].
  eapply sim_bind; [|intros a b Hab; exact (IH (S i) a b Hab)]. apply (fsim_all m1 m2 (st :: evt)); [|exact Hs].
  apply Forall_forall. intros x _. now apply fsim_stmt.
Qed.
Lemma fsim_simulate init events ps1 ps2 : Forall2 (Forall2 rel_sample) ps1 ps2 -> forall s1 s2, rel_f s1 s2 ->
  sim (fun a b => map (map h) a = b) (fuzzy_simulate c1 d1 (map g init) (lift_events g events) ps1 s1) (fuzzy_simulate c2 d2 init events ps2 s2).
Proof.
  induction 1 as [|p1 p2 r1 r2 Hp _ IH]; intros s1 s2 Hs; cbn [fuzzy_simulate]; [reflexivity|]. eapply sim_bind.
  - unfold fuzzy_evaluate. apply fsim_events; [exact Hp|]. destruct Hs as ((V & D & B) & Z & S0 & S1 & L). unfold rel_f, rel_e, rel_list. cbn [base vars dst bst fz store0 store1 lvl].
    repeat split; auto; try apply D; try apply Z; [|now rewrite B]. rewrite map_map. rewrite <- (map_id init) at 2. apply map_ext. apply H.
  - intros a b Hab. eapply sim_bind; [apply IH, Hab|]. intros u w Huw. cbn. rewrite Huw. f_equal. apply Hab.
Qed.
Lemma rel_new init rows : rel_f (fuzzy_new (map g init) rows) (fuzzy_new init rows).
Proof.
  unfold rel_f, fuzzy_new, rel_e, rel_list, rel_rows. cbn [base vars dst bst fz store0 store1 lvl]. rewrite map_map, map_length.
  assert (map (map h) (repeat (repeat n_zero (length init)) rows) = repeat (repeat n_zero (length init)) rows) as Hr.
  { assert (forall n, map h (repeat n_zero n) = repeat n_zero n) as Hz by (induction n as [|n IHn]; cbn; [reflexivity|]; now rewrite IHn, (h_zero H)).
    induction rows as [|n IHn]; cbn; [reflexivity|]. now rewrite IHn, Hz. }
  repeat split; auto. rewrite <- (map_id init) at 2. apply map_ext. apply H.
Qed.
End Fuzzy.
End Hom.
