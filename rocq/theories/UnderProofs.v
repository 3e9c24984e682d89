(** Proofs about the underdetermined search. *)
From Coq Require Import ZArith List Bool Lia Reals Lra.
From Verif Require Import Base DateTimeModel UnderModel UnderSpec.
Import ListNotations.
Local Open Scope Z_scope.

Lemma evaluated_app {X} (a b : list (call X)) : evaluated (a ++ b) = evaluated a ++ evaluated b.
Proof. induction a as [|[x|x] a IH]; cbn; congruence. Qed.
Lemma differentiated_app {X} (a b : list (call X)) : differentiated (a ++ b) = differentiated a ++ differentiated b.
Proof. induction a as [|[x|x] a IH]; cbn; congruence. Qed.
Lemma evals_app {X} (a b : list (call X)) : evaluations (a ++ b) = evaluations a + evaluations b.
Proof. unfold evaluations. rewrite evaluated_app, app_length. lia. Qed.
Lemma grads_app {X} (a b : list (call X)) : gradients (a ++ b) = gradients a + gradients b.
Proof. unfold gradients. rewrite differentiated_app, app_length. lia. Qed.
Lemma evals_nonneg {X} (a : list (call X)) : 0 <= evaluations a. Proof. unfold evaluations. lia. Qed.
Lemma grads_nonneg {X} (a : list (call X)) : 0 <= gradients a. Proof. unfold gradients. lia. Qed.
(** a run whose log satisfies nothing more than stated *)
Lemma bind_cases {X B C} (m : run X B) (k : B -> run X C) l r : bind m k = (l, r) ->
  (exists b l1 l2, m = (l1, Ok b) /\ k b = (l2, r) /\ l = l1 ++ l2) \/
  (exists o, m = (l, o) /\ (forall b, o <> Ok b) /\ (forall c, r <> Ok c) /\ (r = OutOfFuel -> o = OutOfFuel) /\ (r = UB -> o = UB) /\ (r = Throw -> o = Throw)).
Proof.
  destruct m as [l1 [b| | |]]; cbn [bind]; intros E.
  - left. destruct (k b) as [l2 r2] eqn:Ek. injection E as <- <-. exists b, l1, l2. auto.
  - right. injection E as <- <-. exists Throw. repeat split; congruence.
  - right. injection E as <- <-. exists UB. repeat split; congruence.
  - right. injection E as <- <-. exists OutOfFuel. repeat split; congruence.
Qed.
Lemma lift_cases {X B} (o : outcome B) l r : @lift X B o = (l, r) -> l = [] /\ r = o. Proof. unfold lift. intros E. injection E as <- <-. auto. Qed.

Section Search.
Context {A : Arith}.
Variable Jac : Type.
Variables (F : vec -> outcome vec) (grad : vec -> vec -> outcome Jac) (qp_step : vec -> Jac -> outcome vec) (secant : Jac -> vec -> vec -> Jac).
Let no_fuel {B} (o : outcome B) := o <> OutOfFuel.
Definition total_params : Prop := (forall x, F x <> OutOfFuel) /\ (forall x f, grad x f <> OutOfFuel) /\ (forall f j, qp_step f j <> OutOfFuel).
Lemma zip_fuel op a : forall b, zip op a b <> OutOfFuel.
Proof. induction a as [|x a IH]; intros [|y b]; cbn [zip]; try discriminate. specialize (IH b). destruct (zip op a b); cbn [obind]; congruence. Qed.
Lemma solved_fuel f : solved f <> OutOfFuel.
Proof. unfold solved, max_element, min_element. destruct f; cbn [obind]; [discriminate|]. destruct (nltb _ _); cbn [obind]; discriminate. Qed.

Lemma eval_ok tol e x l r : 0 <= e -> eval F tol e x = (l, r) -> 0 <= evaluations l <= e /\ gradients l = 0 /\ ((forall y, F y <> OutOfFuel) -> r <> OutOfFuel) /\
  forall g e', r = Ok (g, e') -> e' = e - evaluations l /\ 0 < evaluations l /\ l = [CallF x] /\ exists f, F x = Ok f /\ zip ndiv f tol = Ok g.
Proof.
  intros He E. unfold eval in E. destruct (Z.ltb_spec 0 e) as [Hp|Hp]; [|apply lift_cases in E as [-> ->]; cbn; repeat split; try lia; discriminate].
  apply bind_cases in E as [(f & l1 & l2 & Em & Ek & ->)|(o & Em & H1 & H2 & H3 & H4 & H5)].
  - injection Em as <- Ef. apply bind_cases in Ek as [(g & l3 & l4 & Em & Ek & ->)|(o & Em & H1 & H2 & H3 & H4 & H5)].
    + apply lift_cases in Em as [-> Eg]. unfold ret in Ek. injection Ek as <- <-. cbn. split; [lia|]. split; [reflexivity|]. split; [discriminate|]. intros g' e' Eq. injection Eq as <- <-. split; [lia|]. split; [lia|]. split; [reflexivity|]. exists f. auto.
    + apply lift_cases in Em as [-> Eo]. cbn. split; [lia|]. split; [reflexivity|]. split; [|intros g e' Eq; now apply H2 in Eq]. intros _ Er. apply H3 in Er. subst o. now apply zip_fuel in Er.
  - injection Em as <- Ef. cbn. split; [lia|]. split; [reflexivity|]. split; [|intros g e' Eq; now apply H2 in Eq]. intros Hf Er. apply H3 in Er. subst o. now apply (Hf x).
Qed.
Lemma jac_ok q x f l r : 0 <= q -> jacobian Jac grad q x f = (l, r) -> evaluations l = 0 /\ 0 <= gradients l <= q /\ ((forall y g, grad y g <> OutOfFuel) -> r <> OutOfFuel) /\ forall j q', r = Ok (j, q') -> q' = q - gradients l.
Proof.
  intros He E. unfold jacobian in E. destruct (Z.ltb_spec 0 q) as [Hp|Hp]; [|apply lift_cases in E as [-> ->]; cbn; repeat split; try lia; discriminate].
  apply bind_cases in E as [(j & l1 & l2 & Em & Ek & ->)|(o & Em & H1 & H2 & H3 & H4 & H5)].
  - injection Em as <- Ef. unfold ret in Ek. injection Ek as <- <-. cbn. split; [reflexivity|]. split; [lia|]. split; [discriminate|]. intros g' e' Eq. injection Eq as <- <-. lia.
  - injection Em as <- Ef. cbn. split; [reflexivity|]. split; [lia|]. split; [|intros g e' Eq; now apply H2 in Eq]. intros Hf Er. apply H3 in Er. subst o. now apply (Hf x f).
Qed.
(** what is known of a point that is returned *)
Definition accepted (tol x : vec) : Prop := exists f g, F x = Ok f /\ zip ndiv f tol = Ok g /\ solved g = Ok true.
Lemma line_ok c tol x_old f_old : forall tries s restart e l r, 0 <= e -> line_search F c tol x_old f_old tries s restart e = (l, r) ->
  0 <= evaluations l <= e /\ gradients l = 0 /\ ((forall y, F y <> OutOfFuel) -> r <> OutOfFuel) /\
  match r with
  | Ok (Found x) => accepted tol x /\ exists l', evaluated l = l' ++ [x]
  | Ok (Stepped _ _ _ _ e') => e' = e - evaluations l /\ 0 < evaluations l
  | Ok (Stuck _ e') => e' = e - evaluations l /\ (tries <> O -> 0 < evaluations l)
  | _ => True
  end.
Proof.
  induction tries as [|n IH]; intros s restart e l r He E; cbn [line_search] in E.
  { unfold ret in E. injection E as <- <-. cbn. split; [lia|]. split; [reflexivity|]. split; [discriminate|]. split; [lia|congruence]. }
  apply bind_cases in E as [(x & l1 & l2 & Em & Ek & ->)|(o & Em & H1 & H2 & H3 & H4 & H5)].
  2:{ apply lift_cases in Em as [-> Eo]. cbn. split; [lia|]. split; [reflexivity|]. split; [intros _ Er; apply H3 in Er; subst o; now apply zip_fuel in Er|]. destruct r as [b| | |]; auto. now destruct (H2 b). }
  apply lift_cases in Em as [-> Ex]. cbn [app]. apply bind_cases in Ek as [([f e1] & l1 & l3 & Em & Ek & ->)|(o & Em & H1 & H2 & H3 & H4 & H5)].
  2:{ destruct (eval_ok tol e x l2 o He Em) as (B1 & B2 & B3 & _). split; [assumption|]. split; [assumption|]. split; [intros Hf Er; apply H3 in Er; now apply (B3 Hf)|]. destruct r as [b| | |]; auto. now destruct (H2 b). }
  destruct (eval_ok tol e x l1 _ He Em) as (B1 & B2 & B3 & B4). destruct (B4 f e1 eq_refl) as (E1 & Hpos & El1 & f0 & Ef0 & Ez). rewrite evals_app, grads_app.
  apply bind_cases in Ek as [(b & l4 & l5 & Em2 & Ek & ->)|(o & Em2 & H1 & H2 & H3 & H4 & H5)].
  2:{ apply lift_cases in Em2 as [-> Eo]. cbn. split; [lia|]. split; [lia|]. split; [intros _ Er; apply H3 in Er; subst o; now apply solved_fuel in Er|]. destruct r as [b| | |]; auto. now destruct (H2 b). }
  apply lift_cases in Em2 as [-> Eb]. cbn [app]. destruct b.
  - unfold ret in Ek. injection Ek as <- <-. cbn. split; [lia|]. split; [lia|]. split; [discriminate|]. split; [exists f0, f; auto|]. exists []. rewrite app_nil_r, El1. reflexivity.
  - destruct (nltb (k_min f_old f) (backtrack_tol c)).
    + unfold ret in Ek. injection Ek as <- <-. cbn. split; [lia|]. split; [lia|]. split; [discriminate|]. lia.
    + apply IH in Ek as (C1 & C2 & C3 & C4); [|lia]. split; [lia|]. split; [lia|]. split; [exact C3|]. destruct r as [[y|y1 y2 y3 y4 y5|y1 y2]| | |]; auto.
      * destruct C4 as [C4 [l' C5]]. split; [assumption|]. exists (evaluated l1 ++ l'). rewrite evaluated_app, C5. now rewrite app_assoc.
      * lia.
      * split; [lia|]. intros _. lia.
Qed.
Lemma find_loop_ok c tol : forall fuel x f jac approx e q l r, 0 <= e -> 0 <= q -> find_loop Jac F grad qp_step secant c tol fuel x f jac approx e q = (l, r) ->
  0 <= evaluations l <= e /\ 0 <= gradients l <= q /\ (forall y, r = Ok y -> accepted tol y /\ exists l', evaluated l = l' ++ [y]) /\
  (total_params -> (0 < max_tries c \/ jac = None) -> e < Z.of_nat fuel -> r <> OutOfFuel).
Proof.
  induction fuel as [|n IH]; intros x f jac approx e q l r He Hq E; cbn [find_loop] in E.
  { apply lift_cases in E as [-> ->]. cbn. split; [lia|]. split; [lia|]. split; [discriminate|]. intros _ _ Hf. lia. }
  apply bind_cases in E as [([[j ap] q1] & l1 & l2 & Em & Ek & ->)|(o & Em & H1 & H2 & H3 & H4 & H5)].
  2:{ destruct jac as [j|]; [unfold ret in Em; injection Em as <- <-; now destruct (H1 (j, approx, q))|]. apply bind_cases in Em as [([j q1] & l1 & l2 & Em & Ek & ->)|(o' & Em & G1 & G2 & G3 & G4 & G5)]; [unfold ret in Ek; injection Ek as <- <-; now destruct (H1 (j, false, q1))|].
      destruct (jac_ok q x f l o' Hq Em) as (B1 & B2 & B3 & B4). split; [lia|]. split; [lia|]. split; [intros y Ey; now destruct (H2 y)|]. intros (T1 & T2 & T3) _ _ Er. apply H3, G3 in Er. now apply (B3 T2). }
  assert (evaluations l1 = 0 /\ 0 <= gradients l1 /\ q1 = q - gradients l1 /\ 0 <= q1 /\ (jac = None -> ap = false)) as (P1 & P2 & P3 & P4 & P5).
  { destruct jac as [j0|]; [unfold ret in Em; injection Em as <- <- <- <-; cbn; repeat split; try lia; discriminate|]. apply bind_cases in Em as [([j0 q2] & l3 & l4 & Em & Ek' & ->)|(o' & Em & G1 & G2 & _)]; [|now destruct (G2 (j, ap, q1))].
    unfold ret in Ek'. injection Ek' as <- <- <- <-. destruct (jac_ok q x f l3 _ Hq Em) as (B1 & B2 & B3 & B4). specialize (B4 _ _ eq_refl). rewrite app_nil_r. repeat split; try lia. }
  rewrite evals_app, grads_app, P1. apply bind_cases in Ek as [(s & l3 & l4 & Em2 & Ek & ->)|(o & Em2 & H1 & H2 & H3 & H4 & H5)].
  2:{ apply lift_cases in Em2 as [-> Eo]. cbn. split; [lia|]. split; [lia|]. split; [intros y Ey; now destruct (H2 y)|]. intros (T1 & T2 & T3) _ _ Er. apply H3 in Er. subst o. now apply (T3 f j). }
  apply lift_cases in Em2 as [-> Es]. cbn [app]. apply bind_cases in Ek as [(ln & l3 & l5 & Em3 & Ek & ->)|(o & Em3 & H1 & H2 & H3 & H4 & H5)].
  2:{ destruct (line_ok c tol x f _ s false e l4 o He Em3) as (B1 & B2 & B3 & _). split; [lia|]. split; [lia|]. split; [intros y Ey; now destruct (H2 y)|]. intros (T1 & T2 & T3) _ _ Er. apply H3 in Er. now apply (B3 T1). }
  destruct (line_ok c tol x f _ s false e l3 _ He Em3) as (B1 & B2 & B3 & B4). rewrite evals_app, grads_app. destruct ln as [y|y fy s' rs e'|rs e'].
  - unfold ret in Ek. injection Ek as <- <-. cbn. split; [lia|]. split; [lia|]. split; [|discriminate]. intros z Ez. injection Ez as <-. destruct B4 as [B4 [l' B5]]. split; [assumption|]. exists (evaluated l1 ++ l'). rewrite evaluated_app, app_nil_r, B5, app_assoc. reflexivity.
  - destruct B4 as [B4 B5]. destruct rs.
    + apply IH in Ek as (C1 & C2 & C3 & C4); [|lia|lia]. split; [lia|]. split; [lia|]. split.
      * intros z Ez. destruct (C3 z Ez) as [D1 [l' D2]]. split; [assumption|]. exists (evaluated (l1 ++ l3) ++ l'). rewrite app_assoc, evaluated_app, D2, app_assoc. reflexivity.
      * intros T Ht Hf. apply C4; auto. lia.
    + apply bind_cases in Ek as [(df & l6 & l7 & Em4 & Ek & ->)|(o & Em4 & H1 & H2 & H3 & H4 & H5)].
      2:{ apply lift_cases in Em4 as [-> Eo]. cbn. split; [lia|]. split; [lia|]. split; [intros z Ez; now destruct (H2 z)|]. intros _ _ _ Er. apply H3 in Er. subst o. now apply zip_fuel in Er. }
      apply lift_cases in Em4 as [-> Edf]. cbn [app]. apply IH in Ek as (C1 & C2 & C3 & C4); [|lia|lia]. split; [lia|]. split; [lia|]. split.
      * intros z Ez. destruct (C3 z Ez) as [D1 [l' D2]]. split; [assumption|]. exists (evaluated (l1 ++ l3) ++ l'). rewrite app_assoc, evaluated_app, D2, app_assoc. reflexivity.
      * intros T Ht Hf. apply C4; [assumption| |lia]. left. destruct (Z_lt_le_dec 0 (max_tries c)) as [|Hle]; [assumption|]. exfalso. replace (Z.to_nat (max_tries c)) with O in Em3 by lia. cbn [line_search] in Em3. unfold ret in Em3. discriminate.
  - destruct B4 as [B4 B5]. destruct ap.
    + apply IH in Ek as (C1 & C2 & C3 & C4); [|lia|lia]. split; [lia|]. split; [lia|]. split.
      * intros z Ez. destruct (C3 z Ez) as [D1 [l' D2]]. split; [assumption|]. exists (evaluated (l1 ++ l3) ++ l'). rewrite app_assoc, evaluated_app, D2, app_assoc. reflexivity.
      * intros T Ht Hf. destruct Ht as [Ht|Ht]; [|specialize (P5 Ht); discriminate]. apply C4; [assumption|now left|]. assert (Z.to_nat (max_tries c) <> O) by lia. specialize (B5 H). lia.
    + apply lift_cases in Ek as [-> ->]. cbn. split; [lia|]. split; [lia|]. split; [discriminate|]. intros; discriminate.
Qed.
End Search.
