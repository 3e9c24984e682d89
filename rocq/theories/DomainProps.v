(** C16: dead-branch elimination. *)
From Coq Require Import ZArith List Bool Reals Lra Lia.
From Coq Require Import Floats.SpecFloat.
From Verif Require Import Base StringModel ScriptModel ScriptSpec ScriptNum ScriptEval FuzzySpec DateModel DomainModel DomainSpec DomainProofs DomainSound DomainScript DomainGrid DomainFits.
Import ListNotations.
Local Open Scope R_scope.

Section C16.
Variables (f_log f_sqrt f_exp : R -> R) (f_pow : R -> R -> R).
#[local] Hint Extern 0 Num => exact (RNum f_log f_sqrt f_exp f_pow) : typeclass_instances.
Local Notation RN := (RNum f_log f_sqrt f_exp f_pow).
(** The trees are indexed (C13), carry the lists of affected variables (C17) and fit the evaluator's stacks (C19); the past
    events leave the variables at [init]; no division by zero happens on the path, logarithms and roots on it are not
    negative, numeraires are positive, MAX and MIN have two arguments. *)
Definition ready (consts : list R) (nvars : nat) (dmax : Z) (past future : list (list (@stmt RN))) (scen : list (@sample RN)) (init : list R) : Prop :=
  Forall (@wf_all RN (Z.of_nat nvars) consts) (past ++ future) /\ Forall (Forall (@marked RN)) (past ++ future) /\ Forall (fits_all dmax) (past ++ future) /\
  (payments_events past + dmax <= 128)%Z /\ (length future <= length scen)%nat /\
  @past_evaluate RN consts nvars past = Ok init /\
  inside_past f_log f_sqrt f_exp f_pow past (repeat 0 nvars) /\ inside_future f_log f_sqrt f_exp f_pow future scen init.
(** For every script, every such path and any functions in place of log, sqrt, exp and pow: when the analysis (of the past
    events, then of the future ones, in one go, with or without the fuzzy option) succeeds, evaluating what is left of the
    future events gives every variable the value it has without the elimination.  Comparisons of bounds are exact here. *)
Theorem C16_dead_branches : forall fuzzy consts nvars dmax past future scen init vd evs (st : @estate RN),
  ready consts nvars dmax past future scen init ->
  dom_events (D := exact_tests f_log f_sqrt f_exp f_pow) fuzzy (past ++ future) (@dom_init RN nvars) = Ok (vd, evs) ->
  exists s1 s2, evaluate consts init scen future st = Ok s1 /\
                evaluate consts init scen (cc_events (skipn (length past) evs)) st = Ok s2 /\ vars s2 = vars s1.
Proof.
  intros fuzzy consts nvars dmax past future scen init vd evs st (Hw & Hm & Hf & Hpay & Hlen & Hinit & Ip & If) H.
  pose proof (proj1 (Forall_app _ _ _) Hw) as [Wp Wf]. pose proof (proj1 (Forall_app _ _ _) Hf) as [Fp Ff].
  rewrite (@past_evaluate_ok RN consts nvars past dmax Wp Fp Hpay) in Hinit. injection Hinit as <-.
  assert (Hmax : (dmax <= 128)%Z).
  { assert (0 <= payments_events past)%Z; [|lia]. clear. induction past as [|e r IH]; unfold payments_events; cbn [fold_right]; [lia|]. fold (payments_events r). pose proof (payments_all_nonneg e). lia. }
  pose proof (dom_events_app _ _ _ _ _ _ _ _ _ _ H) as (v1 & p' & q' & E1 & E2 & Q & L).
  destruct (@events_good RN (exact_tests f_log f_sqrt f_exp f_pow) fuzzy (Z.of_nat nvars) consts dmax future v1 vd q' Wf Ff E2) as (W2 & F2 & L2).
  assert (Hs : skipn (length past) evs = q') by (rewrite Q, <- L, skipn_app, skipn_all, Nat.sub_diag; reflexivity).
  pose proof (script_sound f_log f_sqrt f_exp f_pow fuzzy consts past future scen nvars vd evs Hm Hw Ip If H) as [_ S2]. rewrite Hs in *.
  set (init := exec_past past (repeat (@n_zero RN) nvars)) in *.
  assert (Li : Z.of_nat (length init) = Z.of_nat nvars).
  { destruct (init_ok f_log f_sqrt f_exp f_pow nvars) as [D0 E0]. apply Forall_app in Hm as [Mp _].
    apply (past_sound f_log f_sqrt f_exp f_pow fuzzy (Z.of_nat nvars) consts past (dom_init nvars) v1 p' (repeat 0 nvars) Mp Wp ltac:(now rewrite repeat_length) D0 E0 Ip E1). }
  rewrite <- Li in Wf, W2.
  destruct (@evaluate_ok RN consts init scen future dmax st Wf Ff Hmax Hlen) as (s1 & A1 & A2).
  destruct (@evaluate_ok RN consts init scen (cc_events q') dmax st W2 F2 Hmax ltac:(unfold cc_events; rewrite map_length, L2; exact Hlen)) as (s2 & B1 & B2).
  exists s1, s2. split; [exact A1|]. split; [exact B1|]. rewrite A2, B2. exact S2.
Qed.
(** The same for the comparisons the code makes - with its tolerance 2e-14 and 1e29 standing for infinity - on scripts that
    keep away from them: all bounds are multiples of some 1/d coarser than the tolerance and at most 1e28. *)
Theorem C16_dead_branches_code : forall fuzzy consts nvars dmax past future scen init vd evs (st : @estate RN),
  ready consts nvars dmax past future scen init -> plain_events f_log f_sqrt f_exp f_pow 1 0 (past ++ future) ->
  dom_events (D := real_code_tests f_log f_sqrt f_exp f_pow) fuzzy (past ++ future) (@dom_init RN nvars) = Ok (vd, evs) ->
  exists s1 s2, evaluate consts init scen future st = Ok s1 /\
                evaluate consts init scen (cc_events (skipn (length past) evs)) st = Ok s2 /\ vars s2 = vars s1.
Proof.
  intros fuzzy consts nvars dmax past future scen init vd evs st Hr Hp H. rewrite (events_same f_log f_sqrt f_exp f_pow fuzzy 1 0 (past ++ future) Hp (dom_init nvars) (init_grid f_log f_sqrt f_exp f_pow nvars)) in H.
  now apply (C16_dead_branches fuzzy consts nvars dmax past future scen init vd evs).
Qed.
(** A condition judged always true (false) is true (false) wherever every variable is in its domain. *)
Theorem C16_verdicts : forall fuzzy past smp (vd : list (@domain RN)) env c v c',
  doms_ok f_log f_sqrt f_exp f_pow vd -> env_in f_log f_sqrt f_exp f_pow env vd -> inside_cond f_log f_sqrt f_exp f_pow past smp env c ->
  dom_cond (D := exact_tests f_log f_sqrt f_exp f_pow) fuzzy vd c = Ok (v, c') ->
  (v = AlwaysTrue -> truth past smp env c = true) /\ (v = AlwaysFalse -> truth past smp env c = false) /\ truth past smp env (cc_cond c') = truth past smp env c.
Proof.
  intros fuzzy past smp vd env c v c' H1 H2 H3 H4. destruct (dom_cond_ok f_log f_sqrt f_exp f_pow past smp fuzzy vd env c v c' H1 H2 H3 H4) as (A & _ & B).
  split; [intros ->; exact A|]. split; [intros ->; exact A|exact B].
Qed.
End C16.
Print Assumptions C16_dead_branches.
Print Assumptions C16_dead_branches_code.
Print Assumptions C16_verdicts.

(** * An example: x = 1 in the past; then IF x > 0 THEN x = MAX(SPOT(), 0) ELSE x PAYS 1, on a spot of 7 *)
Section Example16.
Local Notation RE := (RNum ln sqrt exp Rpower).
#[local] Hint Extern 0 Num => exact (RNum ln sqrt exp Rpower) : typeclass_instances.
Definition r_f : flags := Flags false false.
Definition r_z : @fuzz RE := @Fuzz RE false 0 0 0.
Definition r_x : lhs := LVar None [] 0.
Definition r_past : list (list (@stmt RE)) := [[SAssign r_x (@EConst RE 1)]].
Definition r_future : list (list (@stmt RE)) :=
  [[SIf r_f [0%Z] (CCmp r_f Sup r_z (@EVar RE None [] 0)) [SAssign r_x (EBin None Max (@ESpot RE None) (@EConst RE 0) [])] (Some [SPays r_x (@EConst RE 1)])]].
Definition r_scen : list (@sample RE) := [@Sample RE 7 1].
Definition r_end : outcome (list (@domain RE) * list (list (@stmt RE))) :=
  Ok ([[Interval (@Fin RE 0) PInf]], [[SAssign r_x (@EConst RE 1)];
    [SIf (Flags true false) [0%Z] (CCmp (Flags true false) Sup r_z (@EVar RE None [] 0)) [SAssign r_x (EBin None Max (@ESpot RE None) (@EConst RE 0) [])] (Some [SPays r_x (@EConst RE 1)])]]).
Example C16_example : ready ln sqrt exp Rpower [] 1 2 r_past r_future r_scen [1] /\ plain_events ln sqrt exp Rpower 1 0 (r_past ++ r_future) /\
  dom_events (D := exact_tests ln sqrt exp Rpower) false (r_past ++ r_future) (@dom_init RE 1) = r_end /\
  dom_events (D := real_code_tests ln sqrt exp Rpower) false (r_past ++ r_future) (@dom_init RE 1) = r_end.
Proof.
  assert (H1 : room 1 1) by (unfold room, r_eps; split; [lia|lra]). assert (H0 : room 1 0) by (unfold room, r_eps; split; [lia|lra]).
  assert (G1 : on_grid 1 1 1) by (split; [exists 1%Z; ring|rewrite Rabs_R1; lra]). assert (G0 : on_grid 1 0 0) by (split; [exists 0%Z; ring|rewrite Rabs_R0; lra]).
  assert (P : plain_events ln sqrt exp Rpower 1 0 (r_past ++ r_future)).
  { cbn [app r_past r_future]. apply plain_econs with (D1 := 1%Z) (M1 := 1).
    - eapply plain_cons; [|now apply plain_nil]. apply plain_assign; [apply Z.divide_refl|lra|now apply plain_const].
    - apply plain_econs with (D1 := 1%Z) (M1 := 1); [|constructor]. eapply plain_cons; [|now apply plain_nil]. apply plain_else with (D1 := 1%Z) (M1 := 1).
      + exists 1%Z, 1. now apply plain_var.
      + eapply plain_cons; [|now apply plain_nil]. apply plain_assign; [apply Z.divide_refl|lra|]. apply plain_max; [now left|now apply plain_spot|].
        apply (plain_more _ _ _ _ _ _ _ 1 0); [now apply plain_const|apply Z.divide_refl|lra|exact H1].
      + eapply plain_cons; [|now apply plain_nil]. apply plain_pays with (m := 1); [apply Z.divide_refl|exact H1|now apply plain_const]. }
  assert (J : judge (D := exact_tests ln sqrt exp Rpower) false Sup (@dom_of RE 1) r_z = (AlwaysTrue, r_z)).
  { unfold judge, judge_sup, can_be_positive, can_be_negative, dom_of, single. cbn [last ileft iright t_pos t_neg exact_tests DomainSpec.blt]. rewrite (rltb_true 0 1) by lra. reflexivity. }
  assert (K : lift2 (D := exact_tests ln sqrt exp Rpower) (i_max (D := exact_tests ln sqrt exp Rpower)) (@dom_of RE 0) [@line RE] = Ok [Interval (@Fin RE 0) PInf]) by reflexivity.
  assert (E : dom_events (D := exact_tests ln sqrt exp Rpower) false (r_past ++ r_future) (@dom_init RE 1) = r_end).
  { unfold r_past, r_future, r_end, r_x.
    cbn [app dom_events dom_all dom_stmt dom_cond dom_expr obind fst snd vput].
    change (vput (@dom_init RE 1) 0 (@dom_of RE 1)) with (@Ok (list (@domain RE)) [@dom_of RE 1]). cbn [obind fst snd].
    change (vget [@dom_of RE 1] 0) with (@Ok (@domain RE) (@dom_of RE 1)). cbn [obind fst snd]. rewrite J. cbn [obind fst snd rev app fold_left]. rewrite K. reflexivity. }
  split; [|split; [exact P|split; [exact E|]]].
  - unfold ready. split; [repeat constructor; cbn; lia|]. split.
    { constructor; [repeat constructor|]. constructor; [|constructor]. constructor; [|constructor]. cbn. split; [|tauto]. split; [cbn; auto|]. intros i. cbn. tauto. }
    split; [repeat constructor; cbn; lia|]. split; [cbn; lia|]. split; [cbn; lia|]. split; [reflexivity|]. split; [cbn; auto|].
    cbn. rewrite (rltb_true 0 1) by lra. repeat split; discriminate.
  - rewrite (events_same ln sqrt exp Rpower false 1 0 _ P (dom_init 1) (init_grid ln sqrt exp Rpower 1)). exact E.
Qed.
End Example16.

(** * Where the elimination changes the outcome *)
(** LOG is given the range of values at least 0: IF LOG(SPOT()) >= 0 THEN x = 1 becomes x = 1. *)
Section Log16.
Local Notation RE := (RNum ln sqrt exp Rpower).
#[local] Hint Extern 0 Num => exact (RNum ln sqrt exp Rpower) : typeclass_instances.
Definition log_script : list (list (@stmt RE)) :=
  [[SIf r_f [0%Z] (CCmp r_f SupEqual r_z (EUn None Log (@ESpot RE None))) [SAssign r_x (@EConst RE 1)] None]].
Theorem C16_log_refuted : exists vd evs, dom_events (D := real_code_tests ln sqrt exp Rpower) false log_script (@dom_init RE 1) = Ok (vd, evs) /\
  exec_events log_script [@Sample RE (/ 2) 1] [0] = [0] /\ exec_events (cc_events evs) [@Sample RE (/ 2) 1] [0] = [1].
Proof.
  assert (J : judge (D := real_code_tests ln sqrt exp Rpower) false SupEqual [Interval (@Fin RE 0) PInf] r_z = (AlwaysTrue, r_z)).
  { unfold judge, judge_sup, can_be_positive, can_be_negative. cbn [last ileft iright t_pos t_neg real_code_tests code_tests negb]. unfold code_pos, code_neg. cbn [is_plus is_minus orb negb real n_ltb n_neg RNum].
    rewrite (rltb_false 0 (- r_eps)) by (unfold r_eps; lra). reflexivity. }
  eexists _, _. split; [|split].
  - unfold log_script, r_x. cbn [app dom_events dom_all dom_stmt dom_cond dom_expr obind fst snd].
    change (apply1 (D := real_code_tests ln sqrt exp Rpower) n_log (Interval (Fin n_zero) PInf) [line]) with (@Ok (@domain RE) [Interval (@Fin RE 0) PInf]). cbn [obind]. rewrite J. reflexivity.
  - cbn. rewrite (rltb_true (ln (/ 2)) 0); [reflexivity|]. rewrite ln_Rinv by lra. assert (0 < ln 2) by (rewrite <- ln_1; apply ln_increasing; lra). lra.
  - reflexivity.
Qed.
End Log16.
Print Assumptions C16_log_refuted.
(** In binary64, with the comparisons of the code *)
Section Float16.
Local Existing Instance FNum.
Definition f_tests : DomNum FNum := code_tests (fl_of_Z 1) (fl_lit 1 2) f_eps (fl_of_Z (10 ^ 29)) SFabs.
#[local] Hint Extern 0 (DomNum _) => exact f_tests : typeclass_instances.
Definition g_z : fuzz := Fuzz false f_zero f_zero f_zero.
Definition num_ (n d : Z) : expr := EConst (fl_lit n d).
Definition set_x (n : Z) : list stmt := [SAssign (LVar None [] 0) (num_ n 1)].
Definition when (op : cmp) (e : expr) : list (list stmt) := [[SIf r_f [0%Z] (CCmp r_f op g_z e) (set_x 1) None]].
Definition before_after (events : list (list stmt)) (spot_ : Z) : outcome (list num) * outcome (list num) :=
  let scen := [Sample (fl_of_Z spot_) (fl_of_Z 1)] in
  (do s <- evaluate [] [f_zero] scen events (EState [] empty_stack empty_stack); Ok (vars s),
   do p <- dom_events false events (dom_init 1); do s <- evaluate [] [f_zero] scen (cc_events (snd p)) (EState [] empty_stack empty_stack); Ok (vars s)).
(** IF MAX(0, 0, 1) > 0: the analysis uses all three arguments, the evaluator the first two *)
Theorem C16_max_refuted : before_after (when Sup (EBin None Max (num_ 0 1) (num_ 0 1) [num_ 1 1])) 100 = (Ok [f_zero], Ok [fl_of_Z 1]).
Proof. vm_compute. reflexivity. Qed.
(** IF 1e-15 > 0: the analysis has a tolerance, the evaluator has none *)
Theorem C16_tolerance_refuted : before_after (when Sup (num_ 1 (10 ^ 15))) 100 = (Ok [fl_of_Z 1], Ok [f_zero]).
Proof. vm_compute. reflexivity. Qed.
(** IF 1e-15 * SPOT() > 0: a factor within the tolerance of zero is taken for zero *)
Theorem C16_small_factor_refuted : before_after (when Sup (EBin None Mul (num_ 1 (10 ^ 15)) (ESpot None) [])) 100 = (Ok [fl_of_Z 1], Ok [f_zero]).
Proof. vm_compute. reflexivity. Qed.
(** IF MAX(1e30, SPOT()) - 1e30 > 0: infinite bounds hold 1e29, so 1e30 is beyond infinity *)
Theorem C16_infinity_refuted : before_after (when Sup (EBin None Sub (EBin None Max (num_ (10 ^ 30) 1) (ESpot None) []) (num_ (10 ^ 30) 1) [])) (10 ^ 31) = (Ok [fl_of_Z 1], Ok [f_zero]).
Proof. vm_compute. reflexivity. Qed.
(** Analysing a second time what the elimination left reads a verdict that was never pushed, as after
    IF 1 > 0 AND SPOT() > 0 *)
Theorem C16_second_time_refuted : match dom_events false
    [[SIf r_f [0%Z] (CAnd r_f (CCmp r_f Sup g_z (num_ 1 1)) (CCmp r_f Sup g_z (ESpot None))) (set_x 1) None]] (dom_init 1) with
  | Ok p => match dom_events false (cc_events (snd p)) (dom_init 1) with UB => true | _ => false end
  | _ => false
  end = true.
Proof. vm_compute. reflexivity. Qed.
(** Dividing by the constant 0 stops the analysis, even where the evaluator never divides *)
Theorem C16_division_refuted : exists events, match dom_events false events (dom_init 1) with Throw => true | _ => false end = true /\
  (do s <- evaluate [] [f_zero] [Sample (fl_of_Z 100) (fl_of_Z 1)] events (EState [] empty_stack empty_stack); Ok (vars s)) = Ok [f_zero].
Proof.
  exists [[SIf r_f [0%Z] (CCmp r_f Sup g_z (EBin None Sub (ESpot None) (num_ 200 1) [])) [SAssign (LVar None [] 0) (EBin None Div (num_ 1 1) (num_ 0 1) [])] None]].
  split; vm_compute; reflexivity.
Qed.
End Float16.
Print Assumptions C16_max_refuted.
Print Assumptions C16_tolerance_refuted.
Print Assumptions C16_small_factor_refuted.
Print Assumptions C16_infinity_refuted.
Print Assumptions C16_second_time_refuted.
Print Assumptions C16_division_refuted.
