(** C50: the underdetermined search. *)
From Coq Require Import ZArith List Bool Lia Reals Lra Floats.SpecFloat.
From Verif Require Import Base DateModel DateTimeModel UnderModel UnderSpec UnderProofs FloatReal.
Import ListNotations.
Local Open Scope Z_scope.

Section Any.
Context {A : Arith}.
Variable Jac : Type.
Variables (F : vec -> outcome vec) (grad : vec -> vec -> outcome Jac) (qp_step : vec -> Jac -> outcome vec) (secant : Jac -> vec -> vec -> Jac).
(** Budget, for every function, gradient, step and update, any numbers and also for runs that fail: the function is
    evaluated at most max_evals times and the gradient at most max_restarts times. *)
Theorem C50_budget c guess tol : 0 <= max_evals c -> 0 <= max_restarts c ->
  evaluations (fst (find Jac F grad qp_step secant c guess tol)) <= max_evals c /\ gradients (fst (find Jac F grad qp_step secant c guess tol)) <= max_restarts c.
Proof.
  intros He Hq. destruct (find _ _ _ _ _ c guess tol) as [l r] eqn:E. cbn [fst]. unfold find in E. apply bind_cases in E as [([f e1] & l1 & l2 & Em & Ek & ->)|(o & Em & _)].
  - destruct (eval_ok F tol _ guess l1 _ He Em) as (B1 & B2 & B3 & B4). destruct (B4 f e1 eq_refl) as (E1 & _). apply find_loop_ok in Ek as (C1 & C2 & _); [|lia|lia]. rewrite evals_app, grads_app. lia.
  - destruct (eval_ok F tol _ guess l _ He Em) as (B1 & B2 & _). lia.
Qed.
(** The search always ends: whatever the settings and whatever the parameters compute, it never loops. *)
Theorem C50_ends c guess tol : (forall x, F x <> OutOfFuel) -> (forall x f, grad x f <> OutOfFuel) -> (forall f j, qp_step f j <> OutOfFuel) ->
  snd (find Jac F grad qp_step secant c guess tol) <> OutOfFuel.
Proof.
  intros T1 T2 T3. destruct (find _ _ _ _ _ c guess tol) as [l r] eqn:E. cbn [snd]. unfold find in E. destruct (Z_lt_le_dec (max_evals c) 0) as [Hn|He].
  { unfold eval in E. destruct (Z.ltb_spec 0 (max_evals c)); [lia|]. cbn in E. injection E as <- <-. discriminate. }
  destruct (Z_lt_le_dec (max_restarts c) 0) as [Hq|Hq].
  - apply bind_cases in E as [([f e1] & l1 & l2 & Em & Ek & ->)|(o & Em & _ & _ & H3 & _)].
    + cbn [find_loop] in Ek. unfold jacobian in Ek. destruct (Z.ltb_spec 0 (max_restarts c)); [lia|]. cbn in Ek. injection Ek as <- <-. discriminate.
    + destruct (eval_ok F tol _ guess l _ He Em) as (_ & _ & B3 & _). intros Er. apply H3 in Er. now apply (B3 T1).
  - apply bind_cases in E as [([f e1] & l1 & l2 & Em & Ek & ->)|(o & Em & _ & _ & H3 & _)].
    + destruct (eval_ok F tol _ guess l1 _ He Em) as (B1 & B2 & B3 & B4). destruct (B4 f e1 eq_refl) as (E1 & E2 & _). apply find_loop_ok in Ek as (_ & _ & _ & C4); [|lia|lia]. apply C4; [now split|now right|lia].
    + destruct (eval_ok F tol _ guess l _ He Em) as (_ & _ & B3 & _). intros Er. apply H3 in Er. now apply (B3 T1).
Qed.
(** The function is evaluated at the guess first, and the point returned is the last one evaluated. *)
Theorem C50_last c guess tol x : snd (find Jac F grad qp_step secant c guess tol) = Ok x ->
  exists l, evaluated (fst (find Jac F grad qp_step secant c guess tol)) = guess :: l ++ [x].
Proof.
  intros H. destruct (find _ _ _ _ _ c guess tol) as [l r] eqn:E. cbn [fst snd] in *. subst r. unfold find in E. apply bind_cases in E as [([f e1] & l1 & l2 & Em & Ek & ->)|(o & Em & _ & H2 & _)]; [|now destruct (H2 x)].
  assert (0 < max_evals c) as He. { unfold eval in Em. destruct (Z.ltb_spec 0 (max_evals c)); [assumption|discriminate]. }
  destruct (eval_ok F tol (max_evals c) guess l1 _ (Z.lt_le_incl _ _ He) Em) as (B1 & B2 & B3 & B4). destruct (B4 f e1 eq_refl) as (E1 & E2 & El1 & _). assert (0 <= e1) as He1 by lia. clear B1 E1 E2. subst l1.
  assert (0 <= max_restarts c) as Hq. { destruct (Z_lt_le_dec (max_restarts c) 0); [|assumption]. cbn [find_loop] in Ek. unfold jacobian in Ek. destruct (Z.ltb_spec 0 (max_restarts c)); [lia|]. discriminate. }
  apply find_loop_ok in Ek as (_ & _ & C3 & _); [|assumption|assumption]. destruct (C3 x eq_refl) as [_ [l' El]]. exists l'. cbn. now rewrite El.
Qed.
Lemma find_accepted c guess tol x : snd (find Jac F grad qp_step secant c guess tol) = Ok x -> accepted F tol x.
Proof.
  intros H. destruct (find _ _ _ _ _ c guess tol) as [l r] eqn:E. cbn [fst snd] in *. subst r. unfold find in E. apply bind_cases in E as [([f e1] & l1 & l2 & Em & Ek & ->)|(o & Em & _ & H2 & _)]; [|now destruct (H2 x)].
  assert (0 < max_evals c) as He. { unfold eval in Em. destruct (Z.ltb_spec 0 (max_evals c)); [assumption|discriminate]. }
  destruct (eval_ok F tol (max_evals c) guess l1 _ (Z.lt_le_incl _ _ He) Em) as (B1 & B2 & B3 & B4). destruct (B4 f e1 eq_refl) as (E1 & E2 & El1 & _). assert (0 <= e1) as He1 by lia. clear B1 E1 E2. subst l1.
  assert (0 <= max_restarts c) as Hq. { destruct (Z_lt_le_dec (max_restarts c) 0); [|assumption]. cbn [find_loop] in Ek. unfold jacobian in Ek. destruct (Z.ltb_spec 0 (max_restarts c)); [lia|]. discriminate. }
  apply find_loop_ok in Ek as (_ & _ & C3 & _); [|assumption|assumption]. now apply C3.
Qed.

(** Approximate: with at least one evaluation and one gradient allowed, the counters never stop it: if the function, its
    gradient and the steps succeed (with the right sizes) so does the search, within both budgets. *)
Variable approx_step : vec -> vec -> Jac -> outcome vec.
Lemma zip_total op (a : list num) : forall b, length a = length b -> exists g, zip op a b = Ok g /\ length g = length b.
Proof.
  induction a as [|x a IH]; intros [|y b] H; cbn in H; try discriminate; [now exists []|]. destruct (IH b ltac:(lia)) as (g & E & L). exists (op x y :: g). cbn [zip]. rewrite E. cbn [obind length]. auto.
Qed.
Lemma eval_total tol e x f : 0 < e -> F x = Ok f -> length f = length tol -> exists g, eval F tol e x = ([CallF x], Ok (g, e - 1)) /\ length g = length tol.
Proof. intros He Ef L. destruct (zip_total ndiv f tol L) as (g & Eg & Lg). exists g. unfold eval. destruct (Z.ltb_spec 0 e); [|lia]. rewrite Ef. cbn [bind lift]. rewrite Eg. cbn [bind ret app]. auto. Qed.
Lemma approx_loop_ok c tol d : 1 <= max_evals c -> 1 <= max_restarts c -> (forall x, length x = d -> exists f, F x = Ok f /\ length f = length tol) ->
  (forall x f, exists j, grad x f = Ok j) -> (forall x f j, length x = d -> exists s, approx_step x f j = Ok s /\ length s = d) ->
  forall fuel ie ticker x f jac j0 total, length x = d -> length f = length tol -> (jac = None -> ticker <= 0) -> 0 <= j0 -> 0 <= total ->
  ie = 3 + j0 + total -> max_restarts c * total >= j0 * max_evals c - ticker -> ticker <= max_evals c -> max_evals c - ie < Z.of_nat fuel -> (1 <= fuel)%nat ->
  exists l y, approx_loop Jac F grad secant approx_step c tol fuel ie ticker x f jac (max_evals c - 1 - total) (max_restarts c - j0) = (l, Ok y) /\ evaluations l <= Z.max 0 (max_evals c - 1 - total) /\ gradients l <= Z.max 0 (max_restarts c - j0) /\ length y = d.
Proof.
  intros HE HR HF Hg Hs. induction fuel as [|n IH]; intros ie ticker x f jac j0 total Lx Lf Hjac Hj0 Htot Eie Hinv Htk Hfuel Hfuel1; [lia|]. cbn [approx_loop]. destruct (Z.ltb_spec ie (max_evals c)) as [Hlt|Hge]; cbn [negb].
  2:{ exists [], x. cbn. split; [reflexivity|]. split; [lia|]. split; [lia|]. assumption. }
  set (E := max_evals c) in *. set (R := max_restarts c) in *.
  assert (exists l1 j j1 ticker1 ie1, (if ticker <=? 0 then bind (jacobian Jac grad (R - j0) x f) (fun '(j, r) => ret (Some j, r, E, ie + 1)) else ret (jac, R - j0, ticker, ie)) = (l1, Ok (Some j, R - j1, ticker1, ie1)) /\
    evaluations l1 = 0 /\ gradients l1 = j1 - j0 /\ j0 <= j1 <= R /\ ie1 = 3 + j1 + total /\ R * total >= j1 * E - ticker1 /\ 0 < ticker1 <= E) as (l1 & j & j1 & tk1 & ie1 & Eq & L1 & L2 & Hj1 & Hie1 & Hinv1 & Htk1).
  { destruct (Z.leb_spec ticker 0) as [Hz|Hz].
    - assert (j0 < R) as HjR. { destruct (Z_lt_le_dec j0 R) as [|Hge]; [assumption|]. exfalso. assert (R * E <= j0 * E) by (apply Z.mul_le_mono_nonneg_r; lia). assert (R * E <= R * total) by nia. assert (E <= total) by (apply (Zmult_le_reg_r _ _ R); lia). lia. }
      destruct (Hg x f) as [j Ej]. unfold jacobian. destruct (Z.ltb_spec 0 (R - j0)); [|lia]. rewrite Ej. cbn [bind ret app]. exists [CallJ x], j, (j0 + 1), E, (ie + 1). split; [replace (R - (j0 + 1)) with (R - j0 - 1) by lia; reflexivity|]. change (evaluations [CallJ x]) with 0. change (gradients [CallJ x]) with 1. repeat split; try lia.
    - destruct jac as [j|]; [|specialize (Hjac eq_refl); lia]. exists [], j, j0, ticker, ie. split; [reflexivity|]. change (@evaluations vec []) with 0. change (@gradients vec []) with 0. repeat split; try lia. destruct (Z_le_gt_dec j0 R) as [|Hgt]; [assumption|]. exfalso.
      assert ((R + 1) * E <= j0 * E) by (apply Z.mul_le_mono_nonneg_r; lia). assert (R * E <= R * total) by nia. assert (E <= total) by (apply (Zmult_le_reg_r _ _ R); lia). lia. }
  rewrite Eq. cbn [bind]. destruct (Hs x f j Lx) as (s & Es & Ls). rewrite Es. cbn [bind lift]. destruct (zip_total nadd x s ltac:(lia)) as (xn & Exn & Lxn). rewrite Exn. cbn [bind lift].
  destruct (HF xn ltac:(lia)) as (fn & Efn & Lfn). assert (0 < E - 1 - total) as He by lia. destruct (eval_total tol (E - 1 - total) xn fn He Efn Lfn) as (g & Eg & Lg). rewrite Eg. cbn [bind].
  match goal with |- context [bind (if ?b then ?u else ?v) _] => assert (exists j', (if b then u else v) = ([], Ok j')) as [j' Ej'] end.
  { destruct (_ <? tk1); [|eexists; reflexivity]. destruct (zip_total nsub g f ltac:(congruence)) as (df & Edf & _). rewrite Edf. cbn. eexists. reflexivity. }
  rewrite Ej'. cbn [bind]. destruct (IH (ie1 + 1) (tk1 - R) xn g (Some j') j1 (total + 1)) as (l & y & El & B1 & B2 & B3); try lia; try discriminate.
  { replace (E - 1 - total - 1) with (E - 1 - (total + 1)) by lia. rewrite El. eexists. exists y. split; [reflexivity|]. cbn [app]. rewrite !evals_app, !grads_app, L1, L2.
    assert (evaluations (CallF xn :: l) = 1 + evaluations l /\ gradients (CallF xn :: l) = gradients l) as [Q1 Q2] by (unfold evaluations, gradients; cbn [evaluated differentiated length]; lia).
    rewrite Q1, Q2. fold E R in B1, B2. split; [|split; [|assumption]]; lia. }
Qed.
Theorem C50_approximate c guess tol : 1 <= max_evals c -> 1 <= max_restarts c -> (forall x, length x = length guess -> exists f, F x = Ok f /\ length f = length tol) ->
  (forall x f, exists j, grad x f = Ok j) -> (forall x f j, length x = length guess -> exists s, approx_step x f j = Ok s /\ length s = length guess) ->
  exists l y, approximate Jac F grad secant approx_step c guess tol = (l, Ok y) /\ evaluations l <= max_evals c /\ gradients l <= max_restarts c /\ length y = length guess.
Proof.
  intros HE HR HF Hg Hs. unfold approximate. destruct (HF guess eq_refl) as (f & Ef & Lf). destruct (eval_total tol (max_evals c) guess f ltac:(lia) Ef Lf) as (g & Eg & Lg). rewrite Eg. cbn [bind].
  destruct (approx_loop_ok c tol (length guess) HE HR HF Hg Hs (Z.to_nat (max_evals c)) 3 0 guess g None 0 0) as (l & y & El & B1 & B2 & B3); try lia. rewrite !Z.sub_0_r in El. rewrite El. eexists. exists y. split; [reflexivity|].
  rewrite evals_app, grads_app. change (evaluations [CallF guess]) with 1. change (gradients [CallF guess]) with 0. lia.
Qed.
End Any.
Print Assumptions C50_budget.
Print Assumptions C50_ends.
Print Assumptions C50_last.
Print Assumptions C50_approximate.

(** Exact arithmetic. *)
Section Real.
Local Open Scope R_scope.
Lemma fold_max (v : list R) : forall m, m <= fold_left (fun m y => if nltb (Arith := RealArith) m y then y else m) v m /\ Forall (fun y => y <= fold_left (fun m y => if nltb (Arith := RealArith) m y then y else m) v m) v.
Proof.
  induction v as [|x v IH]; intros m; cbn [fold_left]; [split; [lra|constructor]|]. destruct (nltb (Arith := RealArith) m x) eqn:H; cbn [nltb RealArith] in H; destruct (Rlt_dec m x) as [H'|H']; try discriminate; [destruct (IH x) as [A B]|destruct (IH m) as [A B]]; (split; [lra|]); constructor; try assumption; lra.
Qed.
Lemma fold_min (v : list R) : forall m, fold_left (fun m y => if nltb (Arith := RealArith) y m then y else m) v m <= m /\ Forall (fun y => fold_left (fun m y => if nltb (Arith := RealArith) y m then y else m) v m <= y) v.
Proof.
  induction v as [|x v IH]; intros m; cbn [fold_left]; [split; [lra|constructor]|]. destruct (nltb (Arith := RealArith) x m) eqn:H; cbn [nltb RealArith] in H; destruct (Rlt_dec x m) as [H'|H']; try discriminate; [destruct (IH x) as [A B]|destruct (IH m) as [A B]]; (split; [lra|]); constructor; try assumption; lra.
Qed.
Lemma solved_real (g : list R) : solved (A := RealArith) g = Ok true -> Forall (fun r => -1 < r < 1) g.
Proof.
  unfold solved, max_element, min_element. destruct g as [|x v]; [discriminate|]. cbn [obind]. destruct (fold_max v x) as [A1 A2]. destruct (fold_min v x) as [B1 B2]. set (hi := fold_left (fun m y => if nltb (Arith := RealArith) m y then y else m) v x) in *. destruct (nltb (Arith := RealArith) hi (of_Z (Arith := RealArith) 1)) eqn:Eh; [|discriminate]. set (lo := fold_left (fun m y => if nltb (Arith := RealArith) y m then y else m) v x) in *.
  intros El. assert (nltb (Arith := RealArith) (nsub (of_Z 0) (of_Z 1)) lo = true) as El' by congruence. cbn [nltb nsub of_Z RealArith] in *. destruct (Rlt_dec hi 1) as [H1|]; [|discriminate]. destruct (Rlt_dec (0 - 1) lo) as [H2|]; [|discriminate].
  constructor; [lra|]. rewrite Forall_forall in *. intros y Hy. specialize (A2 y Hy). specialize (B2 y Hy). cbv beta in *. lra.
Qed.
Lemma zip_div (f : list R) : forall tol g, zip (A := RealArith) Rdiv f tol = Ok g -> Forall (fun t => t <> 0) tol -> Forall (fun r => -1 < r < 1) g -> Forall2 (fun r t => Rabs r < Rabs t) f tol.
Proof.
  induction f as [|x f IH]; intros [|t tol] g E Ht Hg; cbn [zip] in E; try discriminate; [constructor|]. destruct (zip (A := RealArith) Rdiv f tol) as [g'| | |] eqn:E'; try discriminate. cbn [obind] in E. change (@Ok (list R) (x / t :: g') = @Ok (list R) g) in E. assert (g = x / t :: g') as -> by congruence. inversion_clear Ht. inversion_clear Hg.
  constructor; [|now apply (IH tol g')]. replace x with (x / t * t) by (field; assumption). rewrite Rabs_mult. pose proof (Rabs_pos_lt t H). assert (Rabs (x / t) < 1) by (apply Rabs_def1; lra). nra.
Qed.
(** The point returned has every residual within its tolerance (in exact arithmetic), whatever the gradient, the steps
    and the settings; in every other case the search reports failure. *)
Theorem C50_root Jac F grad qp_step secant c (guess tol x : list R) : Forall (fun t => t <> 0) tol -> snd (find (A := RealArith) Jac F grad qp_step secant c guess tol) = Ok x ->
  exists f, F x = Ok f /\ Forall2 (fun r t => Rabs r < Rabs t) f tol.
Proof.
  intros Ht E. apply (find_accepted (A := RealArith)) in E as (f & g & Ef & Ez & Es). exists f. split; [assumption|]. apply (zip_div f tol g Ez Ht). now apply solved_real.
Qed.
Example C50_root_ex : snd (find (A := RealArith) unit (fun x => Ok x) (fun _ _ => Ok tt) (fun f _ => Ok (map Ropp f)) (fun j _ _ => j) (Controls 2 1 5 (4 / 10) (1 / 10) (8 / 10)) [5] [1]) = Ok [0].
Proof.
  unfold find, eval. cbn [max_evals max_restarts Z.ltb Z.compare]. cbn [bind lift zip obind ret app ndiv RealArith find_loop jacobian Z.ltb Z.compare Z.sub Z.add Z.opp Z.pos_sub]. unfold jacobian. cbn [Z.ltb Z.compare bind lift ret app]. change (Z.to_nat (max_tries _)) with 5%nat.
  cbn [line_search zip obind lift bind map nadd RealArith]. unfold eval. cbn [Z.ltb Z.compare bind lift zip obind ret app ndiv RealArith]. replace (5 + - (5 / 1)) with 0 by field. replace (0 / 1) with 0 by field.
  assert (solved (A := RealArith) [0] = Ok true) as Es. { unfold solved, max_element, min_element. cbn [fold_left obind nltb nsub of_Z RealArith]. destruct (Rlt_dec 0 1); [|lra]. destruct (Rlt_dec (0 - 1) 0); [reflexivity|lra]. }
  match goal with |- context [@solved ?a ?v] => assert (@solved a v = Ok true) as Es' by exact Es; rewrite Es' end. cbn [bind lift ret app snd]. reflexivity.
Qed.
End Real.
Print Assumptions C50_root.

(** binary64: when no quotient overflows, the same holds of the computed residuals and tolerances. *)
Section Float.
Local Open Scope R_scope.
Definition finite_list (v : list spec_float) : Prop := Forall (fun y => exists a, holds y a) v.
Lemma ffold_max (v : list spec_float) : forall m a, holds m a -> finite_list v -> exists b, holds (fold_left (fun m y => if nltb (Arith := FloatArith) m y then y else m) v m) b /\ a <= b /\ Forall (fun y => forall q, holds y q -> q <= b) v.
Proof.
  induction v as [|x v IH]; intros m a Hm Hv; cbn [fold_left]; [exists a; repeat split; [assumption|lra|constructor]|]. inversion_clear Hv. destruct H as [q Hq]. change (nltb (Arith := FloatArith) m x) with (SFltb m x). destruct (SFltb m x) eqn:E.
  - apply (holds_ltb m x a q Hm Hq) in E. destruct (IH x q Hq H0) as (b & B1 & B2 & B3). exists b. split; [assumption|]. split; [lra|]. constructor; [|assumption]. intros q' Hq'. now rewrite (holds_fun _ _ _ Hq' Hq).
  - assert (q <= a) as Hle. { apply Rnot_lt_le. intros Hlt. apply (holds_ltb m x a q Hm Hq) in Hlt. congruence. } destruct (IH m a Hm H0) as (b & B1 & B2 & B3). exists b. split; [assumption|]. split; [lra|]. constructor; [|assumption]. intros q' Hq'. rewrite (holds_fun _ _ _ Hq' Hq). lra.
Qed.
Lemma ffold_min (v : list spec_float) : forall m a, holds m a -> finite_list v -> exists b, holds (fold_left (fun m y => if nltb (Arith := FloatArith) y m then y else m) v m) b /\ b <= a /\ Forall (fun y => forall q, holds y q -> b <= q) v.
Proof.
  induction v as [|x v IH]; intros m a Hm Hv; cbn [fold_left]; [exists a; repeat split; [assumption|lra|constructor]|]. inversion_clear Hv. destruct H as [q Hq]. change (nltb (Arith := FloatArith) x m) with (SFltb x m). destruct (SFltb x m) eqn:E.
  - apply (holds_ltb x m q a Hq Hm) in E. destruct (IH x q Hq H0) as (b & B1 & B2 & B3). exists b. split; [assumption|]. split; [lra|]. constructor; [|assumption]. intros q' Hq'. now rewrite (holds_fun _ _ _ Hq' Hq).
  - assert (a <= q) as Hle. { apply Rnot_lt_le. intros Hlt. apply (holds_ltb x m q a Hq Hm) in Hlt. congruence. } destruct (IH m a Hm H0) as (b & B1 & B2 & B3). exists b. split; [assumption|]. split; [lra|]. constructor; [|assumption]. intros q' Hq'. rewrite (holds_fun _ _ _ Hq' Hq). lra.
Qed.
Lemma minus_one : holds (fsub (fl_of_Z 0) (fl_of_Z 1)) (-1).
Proof. rewrite fsub_Z by (cbn; lia). apply (holds_Z (-1)). cbn. lia. Qed.
Lemma solved_float (g : list spec_float) : finite_list g -> solved (A := FloatArith) g = Ok true -> Forall (fun r => forall q, holds r q -> -1 < q < 1) g.
Proof.
  unfold solved, max_element, min_element. destruct g as [|x v]; [intros _; discriminate|]. intros Hf. inversion_clear Hf. destruct H as [a Ha]. cbn [obind]. destruct (ffold_max v x a Ha H0) as (hi & A0 & A1 & A2). destruct (ffold_min v x a Ha H0) as (lo & B0 & B1 & B2).
  change (nltb (Arith := FloatArith)) with SFltb in *. set (h := fold_left (fun m y => if SFltb m y then y else m) v x) in *. set (l := fold_left (fun m y => if SFltb y m then y else m) v x) in *. change (nsub (Arith := FloatArith)) with fsub. change (of_Z (Arith := FloatArith)) with fl_of_Z.
  match goal with |- context [if ?b then Ok _ else Ok false] => destruct b eqn:Eh; [|discriminate] end. change (SFltb h (fl_of_Z 1) = true) in Eh. intros El. assert (SFltb (fsub (fl_of_Z 0) (fl_of_Z 1)) l = true) as El' by (change (Ok (SFltb (fsub (fl_of_Z 0) (fl_of_Z 1)) l) = Ok true) in El; congruence). apply (holds_ltb h _ hi 1 A0 (holds_Z 1 ltac:(cbn; lia))) in Eh. apply (holds_ltb _ l (-1) lo minus_one B0) in El'.
  constructor; [intros q Hq; rewrite (holds_fun _ _ _ Hq Ha); lra|]. rewrite Forall_forall in *. intros y Hy q Hq. specialize (A2 y Hy q Hq). specialize (B2 y Hy q Hq). cbv beta in *. lra.
Qed.
(** a finite residual and a finite positive tolerance whose quotient does not overflow *)
Definition divisible (r t : spec_float) : Prop := exists a b, holds r a /\ holds t b /\ 0 < b /\ Rabs (a / b) <= big.
Lemma rnd_one : rnd 1 = 1. Proof. apply (rnd_Z 1). cbn. lia. Qed.
Lemma zip_fdiv (f : list spec_float) : forall tol g, zip (A := FloatArith) fdiv f tol = Ok g -> Forall2 divisible f tol -> finite_list g /\
  (Forall (fun r => forall q, holds r q -> -1 < q < 1) g -> Forall2 (fun r t => forall a b, holds r a -> holds t b -> Rabs a < b) f tol).
Proof.
  induction f as [|x f IH]; intros [|t tol] g E Hd; cbn [zip] in E; try discriminate; [assert (g = []) as -> by congruence; split; constructor|]. destruct (zip (A := FloatArith) fdiv f tol) as [g'| | |] eqn:E'; try discriminate. cbn [obind] in E. change (@Ok (list spec_float) (fdiv x t :: g') = @Ok (list spec_float) g) in E. assert (g = fdiv x t :: g') as -> by congruence. inversion_clear Hd.
  destruct H as (a & b & Ha & Hb & Hpos & Hbig). pose proof (holds_div x t a b Ha Hb ltac:(lra) Hbig) as Hq. destruct (IH tol g' E' H0) as [I1 I2]. split; [constructor; [eauto|assumption]|]. intros Hg. inversion_clear Hg. constructor; [|now apply I2].
  intros a' b' Ha' Hb'. rewrite (holds_fun _ _ _ Ha' Ha), (holds_fun _ _ _ Hb' Hb). specialize (H _ Hq). destruct H as [L1 L2].
  assert (a / b < 1) as M1. { apply Rnot_le_lt. intros Hc. apply rnd_le in Hc. rewrite rnd_one in Hc. lra. }
  assert (-1 < a / b) as M2. { apply Rnot_le_lt. intros Hc. apply rnd_le in Hc. replace (-1) with (- (1)) in Hc by lra. rewrite rnd_opp, rnd_one in Hc. lra. }
  replace a with (a / b * b) by (field; lra). apply Rabs_def1; nra.
Qed.
(** The point returned has every residual within its tolerance, in binary64 arithmetic. *)
Theorem C50_root_binary64 Jac F grad qp_step secant c (guess tol x f : list spec_float) : snd (find (A := FloatArith) Jac F grad qp_step secant c guess tol) = Ok x -> F x = Ok f ->
  Forall2 divisible f tol -> Forall2 (fun r t => forall a b, holds r a -> holds t b -> Rabs a < b) f tol.
Proof.
  intros E Ef Hd. apply (find_accepted (A := FloatArith)) in E as (f' & g & Ef' & Ez & Es). assert (f' = f) as -> by congruence. destruct (zip_fdiv f tol g Ez Hd) as [A B]. apply B. now apply solved_float.
Qed.
End Float.
Print Assumptions C50_root_binary64.

(** A residual that is not a number is accepted when it is not the first one: the function below never has a root. *)
Theorem C50_nan_refuted : exists F grad qp_step secant c guess tol x, snd (find (A := FloatArith) unit F grad qp_step secant c guess tol) = Ok x /\ F x = Ok [fl_of_Z 0; S754_nan].
Proof.
  exists (fun _ => Ok [fl_of_Z 0; S754_nan]), (fun _ _ => Ok tt), (fun _ _ => Ok [fl_of_Z 0]), (fun j _ _ => j), (Controls (A := FloatArith) 10 10 5 (fl_of_Z 1) (fl_of_Z 1) (fl_of_Z 1)), [fl_of_Z 0], [fl_of_Z 1; fl_of_Z 1], [fl_of_Z 0]. split; vm_compute; reflexivity.
Qed.
Print Assumptions C50_nan_refuted.

(** A guess that is already a root is not recognised: it is evaluated a second time, so that a budget of one evaluation
    fails; and a function without residuals is undefined behaviour. *)
Theorem C50_guess_refuted : snd (find (A := FloatArith) unit (fun _ => Ok [fl_of_Z 0]) (fun _ _ => Ok tt) (fun _ _ => Ok [fl_of_Z 0]) (fun j _ _ => j) (Controls (A := FloatArith) 1 10 5 (fl_of_Z 1) (fl_of_Z 1) (fl_of_Z 1)) [fl_of_Z 0] [fl_of_Z 1]) = Throw /\
  snd (find (A := FloatArith) unit (fun _ => Ok []) (fun _ _ => Ok tt) (fun _ _ => Ok [fl_of_Z 0]) (fun j _ _ => j) (Controls (A := FloatArith) 9 10 5 (fl_of_Z 1) (fl_of_Z 1) (fl_of_Z 1)) [fl_of_Z 0] []) = UB.
Proof. split; vm_compute; reflexivity. Qed.
Print Assumptions C50_guess_refuted.

(** The fraction by which a step is shortened is meant to minimise the interpolated residual k old + (1 - k) new, but
    another fraction gives a smaller one. *)
Theorem C50_k_min_refuted : exists old new k : R, let kc := k_min (A := RealArith) [old] [new] in (((k * old + (1 - k) * new) * (k * old + (1 - k) * new) < (kc * old + (1 - kc) * new) * (kc * old + (1 - kc) * new))%R).
Proof.
  exists 1%R, (-1 / 2)%R, (1 / 3)%R. assert (k_min (A := RealArith) [1%R] [(-1 / 2)%R] = (2 / 7)%R) as E; [|cbv zeta; match goal with |- context [@k_min ?a ?u ?v] => replace (@k_min a u v) with (2 / 7)%R by (symmetry; exact E) end; lra]. unfold k_min, inner, half. cbn [inner_from nadd nmul ndiv nsub of_Z RealArith]. match goal with |- @eq _ ?a ?b => change (@eq R a b) end. field.
Qed.
Print Assumptions C50_k_min_refuted.
