(** Proofs for C87: the Black-Scholes model on real numbers. *)
From Coq Require Import String List ZArith Bool Permutation Lia Reals Lra.
From Coq Require Import Floats.SpecFloat.
From Verif Require Import Base Vec StringModel StringSpec ScriptEval ScriptIndex FuzzyModel FuzzySpec FuzzyProofs FuzzyProps SimModel SimProofs DomainModel DomainSpec DomainProofs DomainGrid DomainProps ValueModel ValueSpec ValueProofs ValueTrees ValueReal ValueMain ValueSound ScriptModel ScriptSpec DrawModel DrawSpec BsSpec PriceModel PriceSpec PriceProofs.
From Verif Require BsModel BsProofs.
Import ListNotations.
Open Scope Z_scope.

Section Dates.
Context {N : Num} {D : DomNum N}.
Lemma pre_dates years today fuzzy skip payoff past dates future r : pre_process years today fuzzy skip (new_product payoff past dates future) = Ok r -> event_dates (snd r) = dates.
Proof.
  unfold pre_process. assert (E0 : event_dates (index_variables (new_product payoff past dates future)) = dates) by (unfold index_variables; destruct (index_events _ _); reflexivity).
  set (p := index_variables _) in *. unfold past_values. destruct (past_evaluate _ _ _) as [v| | |]; cbn [obind]; try discriminate.
  set (p1 := Product _ _ _ _ _ _ _ _ _ _). assert (E1 : event_dates p1 = dates) by exact E0. clearbody p1.
  destruct (fuzzy || negb skip)%bool; cbn [obind]; [|intros H; injection H as <-; exact E1].
  unfold if_process. destruct (if_events _ _) as [a| | |]; cbn [obind fst snd]; try discriminate.
  set (p2 := split_events p1 (snd a)). assert (E2 : event_dates p2 = dates) by exact E1. clearbody p2.
  unfold domain_process. destruct (dom_events _ _ _) as [b| | |]; cbn [obind fst snd]; try discriminate. intros H. injection H as <-. exact E2.
Qed.
End Dates.

Section Real.
Variables (f_log f_sqrt f_exp : R -> R) (f_pow : R -> R -> R).
Local Notation RN := (RNum f_log f_sqrt f_exp f_pow).
#[local] Hint Extern 0 Num => exact (RNum f_log f_sqrt f_exp f_pow) : typeclass_instances.
Local Notation bs_path := (bs_path f_log f_sqrt f_exp f_pow).
Local Notation bs_generate := (bs_generate f_log f_sqrt f_exp f_pow).
Local Notation blank_path := (blank_path f_log f_sqrt f_exp f_pow).
Lemma nth_true {A} (l : list A) i : (i < List.length l)%nat -> nth i (map (fun _ => true) l) false = true.
Proof. revert i. induction l as [|x l IH]; intros i H; cbn in *; [lia|]. destruct i; [reflexivity|]. apply IH. lia. Qed.
Lemma bs_maker {A} m times (l : list A) st : timeline_ok times -> List.length l = List.length times -> (0 < BsModel.b_spot m)%R -> BsProofs.ready m times (map (fun _ => true) l) st ->
  path_maker (List.length (from_today times) - 1) (bs_generate m (map (fun _ => true) l) st) (blank_path (List.length (map (fun _ : A => true) l))) (fun v => bs_path m times (map real_of v)).
Proof.
  intros Hok Hl Hs Hr. exists (fun p => List.length p = List.length times). split; [unfold PriceModel.blank_path; rewrite repeat_length, map_length; exact Hl|].
  intros v old Hv Ho. split; [|unfold PriceSpec.bs_path; now rewrite map_length, seq_length].
  unfold PriceModel.bs_generate.
  destruct (BsProofs.generate_ok m times (map (fun _ => true) l) st (map real_of v) (map (to_model f_log f_sqrt f_exp f_pow) old) Hok) as (p & Ep & Lp & Hi); try assumption; try (rewrite ?map_length; lia).
  rewrite Ep. cbn [obind]. f_equal. unfold PriceSpec.bs_path.
  apply (nth_ext _ _ (of_model f_log f_sqrt f_exp f_pow BsProofs.dummy) (of_model f_log f_sqrt f_exp f_pow BsProofs.dummy)); [now rewrite !map_length, seq_length|].
  intros i Hlt. rewrite map_length, Lp in Hlt. rewrite map_nth.
  erewrite (nth_indep (map _ (seq _ _))); [|rewrite map_length, seq_length; exact Hlt]. rewrite (map_nth (fun i => @Sample RN _ _) _ 0%nat), seq_nth by exact Hlt. cbn [Nat.add].
  destruct (Hi i Hlt) as [H1 H2]. rewrite nth_true in H2 by lia. unfold of_model. now rewrite H1, H2.
Qed.

Section Value.
Context {B : Type}.
Variable sobol_skip : Z -> B -> outcome B.
Variable sobol_fill : B -> outcome (list spec_float * B).
Variable sobol_new : nat -> B.
Variable inverse_ncdf : spec_float -> spec_float.
Variable bridged : list spec_float -> list spec_float.
Variable D : DomNum RN.
Variable tests_fine : list (list (@stmt RN)) -> Prop.
Hypothesis tests_marks : forall l l', map (map (bare f_log f_sqrt f_exp f_pow)) l' = map (map (bare f_log f_sqrt f_exp f_pow)) l -> tests_fine l -> tests_fine l'.
Hypothesis sound : forall fuzzy consts nvars dmax past future scen init vd evs (st : @estate RN),
  ready f_log f_sqrt f_exp f_pow consts nvars dmax past future scen init -> tests_fine (past ++ future) ->
  @dom_events RN D fuzzy (past ++ future) (@dom_init RN nvars) = Ok (vd, evs) ->
  exists s1 s2, @evaluate RN consts init scen future st = Ok s1 /\ @evaluate RN consts init scen (cc_events (skipn (List.length past) evs)) st = Ok s2 /\ vars s2 = vars s1.
Local Notation safe_past := (safe_past f_log f_sqrt f_exp f_pow).
Local Notation safe_future := (safe_future f_log f_sqrt f_exp f_pow).
Lemma bs_value_ok d years today m past dates future n method use_bb n_paths pool ts order vec :
  let times := map (fun t => years (t - today)) dates in
  valid d past future -> depth_events (past ++ future) <= 128 -> tests_fine (past ++ future) -> is_payoff [] (past ++ future) n -> safe_past past all_zero ->
  (List.length future <= List.length dates)%nat -> timeline_ok times -> (0 < BsModel.b_spot m)%R ->
  (forall gauss, safe_future future (bs_path m times gauss) (perform_past past all_zero)) ->
  (exists r, @pre_process RN D years today false false (new_product [] past dates future) = Ok r) ->
  tasks n_paths (Z.of_nat (num_threads pool)) = Ok ts -> any_schedule pool (List.length ts) order ->
  (forall generate blank path eval p, path_maker (List.length (from_today times) - 1) generate blank path ->
    priced sobol_skip sobol_fill sobol_new inverse_ncdf bridged generate blank eval p method (List.length (from_today times) - 1) use_bb n_paths pool order =
      mc_simulation eval p (fun _ first i => path (vec first i)) n_paths pool order) ->
  @bs_value f_log f_sqrt f_exp f_pow B sobol_skip sobol_fill sobol_new inverse_ncdf bridged D years today m past dates future method use_bb n_paths pool order =
    Ok (Rdiv (@sum_batches RN ts (fun first i => final past future n (bs_path m times (map real_of (vec first i))))) (IZR n_paths)).
Proof.
  intros times V Dp Tf Y Sp Lf Hok Hs Hsafe ((level & q) & E) Et Ho Hp. unfold bs_value. rewrite E. cbn [obind snd].
  pose proof (pre_dates _ _ _ _ _ _ _ _ _ E) as Ed. cbn [snd] in Ed. rewrite Ed.
  destruct (eliminated_path f_log f_sqrt f_exp f_pow D tests_fine tests_marks sound d years today false [] past dates future level q n V Dp Tf Y Sp E) as [Tq Ev].
  assert (Tq' : @time_line RN q = times) by exact Tq. rewrite !Tq'. assert (Lt : List.length dates = List.length times) by (unfold times; now rewrite map_length).
  destruct (BsProofs.init_ready m times (map (fun _ => true) dates) fresh_model Hok) as (st2 & Ei & Hr); [now rewrite map_length|].
  destruct (BsModel.allocate fresh_model times) as [st1| | |] eqn:Ea; cbn [obind] in Ei |- *; try discriminate. rewrite Ei. cbn [obind].
  assert (Es : BsModel.sim_dim st2 = (List.length (from_today times) - 1)%nat) by (unfold BsModel.sim_dim; destruct Hr as (-> & _); reflexivity). rewrite Es.
  rewrite (Hp _ _ _ _ q (bs_maker m times dates st2 Hok Lt Hs Hr)).
  rewrite (simulation_ok (evaluator q) q (final past future n) (fun scen => (List.length future <= List.length scen)%nat /\ safe_future future scen (perform_past past all_zero))
    (fun _ first i => bs_path m times (map real_of (vec first i))) n_paths pool order ts Ev); [reflexivity| |exact Et|exact Ho].
  intros f i. split; [|apply Hsafe]. unfold PriceSpec.bs_path. rewrite map_length, seq_length. lia.
Qed.
End Value.
End Real.
