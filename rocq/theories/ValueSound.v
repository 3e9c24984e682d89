(** Proofs about valuing scripts on real numbers, with the analysis of domains. *)
From Coq Require Import ZArith List Bool Lia ZifyBool Permutation Reals Lra.
From Verif Require Import Base Vec StringModel StringSpec ScriptEval ScriptIndex FuzzyModel FuzzySpec FuzzyProofs FuzzyProps SimModel SimProofs DomainModel DomainSpec DomainProofs DomainGrid DomainProps ValueModel ValueSpec ValueProofs ValueTrees ValueReal ValueMain ScriptModel ScriptSpec.
Import ListNotations.
Open Scope Z_scope.

Section Real.
Variables (f_log f_sqrt f_exp : R -> R) (f_pow : R -> R -> R).
Local Notation RN := (RNum f_log f_sqrt f_exp f_pow).
#[local] Hint Extern 0 Num => exact (RNum f_log f_sqrt f_exp f_pow) : typeclass_instances.
Local Notation bare := (bare f_log f_sqrt f_exp f_pow).
Local Notation safe_past := (safe_past f_log f_sqrt f_exp f_pow).
Local Notation safe_future := (safe_future f_log f_sqrt f_exp f_pow).

(** the preprocessed product with elimination: a path leaves the payoff as written *)
Section Eliminated.
Variable D : DomNum RN.
Variable tests_fine : list (list (@stmt RN)) -> Prop.
Hypothesis tests_marks : forall l l', map (map bare) l' = map (map bare) l -> tests_fine l -> tests_fine l'.
Hypothesis sound : forall fuzzy consts nvars dmax past future scen init vd evs (st : @estate RN),
  ready f_log f_sqrt f_exp f_pow consts nvars dmax past future scen init -> tests_fine (past ++ future) ->
  @dom_events RN D fuzzy (past ++ future) (@dom_init RN nvars) = Ok (vd, evs) ->
  exists s1 s2, @evaluate RN consts init scen future st = Ok s1 /\
                @evaluate RN consts init scen (cc_events (skipn (length past) evs)) st = Ok s2 /\ vars s2 = vars s1.
Lemma bare_plain (l l' : list (list (@stmt RN))) : map (map plain_stmt) l = map (map plain_stmt) l' -> map (map bare) l = map (map bare) l'.
Proof.
  intros H. assert (E : forall m : list (list (@stmt RN)), map (map bare) m = map (map unmarked) (map (map plain_stmt) m)).
  { intros m. rewrite map_map. apply map_ext. intros e. rewrite map_map. reflexivity. }
  now rewrite !E, H.
Qed.
Lemma plain_unmarked (s : @stmt RN) : unmarked (plain_stmt s) = plain_stmt (unmarked s).
Proof.
  assert (HF : forall l : list (@stmt RN), Forall (fun s => unmarked (plain_stmt s) = plain_stmt (unmarked s)) l -> map unmarked (map plain_stmt l) = map plain_stmt (map unmarked l)).
  { induction 1 as [|x l Hx _ IH]; cbn [map]; congruence. }
  induction s as [v e|v e|f af c t Ht|f af c t l Ht Hl|l Hl] using stmt_ind'; cbn [plain_stmt unmarked option_map]; rewrite ?HF by assumption; reflexivity.
Qed.
Lemma bare_unmarked (l l' : list (list (@stmt RN))) : map (map unmarked) l = map (map unmarked) l' -> map (map bare) l = map (map bare) l'.
Proof.
  intros H. assert (E : forall m : list (list (@stmt RN)), map (map bare) m = map (map plain_stmt) (map (map unmarked) m)).
  { intros m. rewrite map_map. apply map_ext. intros e. rewrite map_map. apply map_ext. intros s. apply plain_unmarked. }
  now rewrite !E, H.
Qed.
Lemma eliminated_path d years today fuzzy payoff past dates future level (q : @product RN) n :
  valid d past future -> depth_events (past ++ future) <= 128 -> tests_fine (past ++ future) -> is_payoff payoff (past ++ future) n -> safe_past past all_zero ->
  @pre_process RN D years today fuzzy false (new_product payoff past dates future) = Ok (level, q) ->
  time_line q = map (fun t => years (t - today)) dates /\
  forall scen st, (length future <= length scen)%nat /\ safe_future future scen (perform_past past all_zero) ->
    exists s, evaluator q scen st = Ok s /\ vget (vars s) (payoff_at q) = Ok (final past future n scen).
Proof.
  intros V Dp Tf Y Sp E. unfold pre_process in E. pose proof (index_ok d payoff past dates future V) as J. set (p := index_variables (new_product payoff past dates future)) in *.
  unfold past_values in E. rewrite (past_ok d payoff past dates future p V J) in E. cbn [obind] in E. rewrite orb_true_r in E.
  pose proof (start_agrees d payoff past dates future p V J) as A0. set (init := start p) in *.
  set (p1 := Product _ _ _ _ _ init _ _ _ _) in E.
  unfold if_process in E.
  assert (Q1 : map (map plain_stmt) (all_events p1) = map (map plain_stmt) (past ++ future)).
  { unfold all_events. cbn [past_events events p1]. rewrite !map_app. now rewrite (i_past _ _ _ _ _ J), (i_future _ _ _ _ _ J). }
  destruct (C17_affected_variables (all_events p1)) as (si & l & Ei & _ & Ul & Ml); [rewrite (depth_events_same _ _ Q1); exact Dp|].
  rewrite Ei in E. cbn [obind fst snd] in E. unfold domain_process in E.
  set (p2 := split_events p1 l) in E.
  assert (A2 : all_events p2 = l) by (unfold all_events, p2, split_events, with_events; cbn [past_events events]; apply firstn_skipn).
  rewrite A2 in E. change (var_names p2) with (var_names p) in E.
  destruct (@dom_events RN D fuzzy l (dom_init (length (var_names p)))) as [[vd evs]| | |] eqn:Ed; try discriminate. cbn [obind fst snd] in E.
  destruct (map_split (map unmarked) (past_events p) (events p) l Ul) as [U1 U2].
  assert (S2 : past_events p2 = firstn (length (past_events p)) l /\ events p2 = skipn (length (past_events p)) l) by (split; reflexivity). destruct S2 as [S21 S22].
  injection E as _ <-.
  cbn [const_cond_process with_events split_events payoff_at time_line past_events events event_dates var_names const_values var_values ValueModel.payoff const_names p2 p1].
  split; [now rewrite (i_times _ _ _ _ _ J), (i_dates _ _ _ _ _ J)|]. intros scen st [L Sf]. unfold evaluator. cbn [const_values var_values events].
  assert (Lf : length (firstn (length (past_events p)) l) = length (past_events p)).
  { rewrite <- (map_length (map unmarked) (firstn _ l)), U1, map_length. reflexivity. }
  rewrite Lf.
  assert (Rd : ready f_log f_sqrt f_exp f_pow (const_values p) (length (var_names p)) d (past_events p2) (events p2) scen init).
  { unfold ready. rewrite S21, S22. rewrite firstn_skipn. split; [|split; [exact Ml|split; [|split; [|split; [|split; [|split]]]]]].
    - apply (same_lists unmarked (wf_stmt (Z.of_nat (length (var_names p))) (const_values p)) (wf_unmarked _ _) (past_events p ++ events p)); [symmetry; exact Ul|exact (i_wf _ _ _ _ _ J)].
    - apply (same_lists unmarked (fits d) (fits_unmarked d) (past_events p ++ events p)); [symmetry; exact Ul|]. apply Forall_app. split; [exact (fits_past d payoff past dates future p V J)|exact (fits_future d payoff past dates future p V J)].
    - rewrite (payments_events_same unmarked payments_unmarked _ _ U1). exact (pays_past d payoff past dates future p V J).
    - rewrite <- (map_length (map unmarked) (skipn _ l)), U2, map_length. exact (path_length payoff past dates future p J scen L).
    - rewrite (past_evaluate_ok _ _ _ d); [| | |].
      + f_equal. unfold init, start. now apply exec_past_unmarked.
      + apply (same_lists unmarked (wf_stmt (Z.of_nat (length (var_names p))) (const_values p)) (wf_unmarked _ _) (past_events p)); [symmetry; exact U1|]. pose proof (i_wf _ _ _ _ _ J) as W. apply Forall_app in W. tauto.
      + apply (same_lists unmarked (fits d) (fits_unmarked d) (past_events p)); [symmetry; exact U1|exact (fits_past d payoff past dates future p V J)].
      + rewrite (payments_events_same unmarked payments_unmarked _ _ U1). exact (pays_past d payoff past dates future p V J).
    - rewrite (inside_past_unmarked f_log f_sqrt f_exp f_pow _ _ _ U1). apply (safe_inside_past f_log f_sqrt f_exp f_pow (var_names p)) with (w := all_zero).
      + exact (targets_past d payoff past dates future p V J).
      + exact (known_past payoff past dates future p J).
      + exact (zero_agrees (var_names p)).
      + apply (safe_past_plain f_log f_sqrt f_exp f_pow _ past); [exact (i_past _ _ _ _ _ J)|exact Sp].
    - rewrite (inside_future_unmarked f_log f_sqrt f_exp f_pow _ _ _ _ U2). apply (safe_inside_future f_log f_sqrt f_exp f_pow (var_names p)) with (w := perform_past past all_zero).
      + exact (targets_future d payoff past dates future p V J).
      + exact (known_future payoff past dates future p J).
      + exact A0.
      + apply (safe_future_plain f_log f_sqrt f_exp f_pow _ future); [exact (i_future _ _ _ _ _ J)|exact Sf]. }
  assert (Tq : tests_fine (past_events p2 ++ events p2)).
  { rewrite S21, S22, firstn_skipn. apply (tests_marks (past ++ future)); [|exact Tf]. transitivity (map (map bare) (all_events p1)); [now apply bare_unmarked|now apply bare_plain]. }
  destruct (sound fuzzy _ _ _ _ _ _ _ vd evs st Rd Tq) as (s1 & s2 & E1 & E2 & Es).
  { rewrite S21, S22, firstn_skipn. exact Ed. }
  rewrite S21, Lf in E2. exists s2. split; [exact E2|]. rewrite Es.
  destruct (@evaluate_ok RN (const_values p) init scen (events p2) d st) as (s1' & E1' & V1).
  { unfold init. rewrite (start_length d payoff past dates future p V J). destruct Rd as (W & _). apply Forall_app in W. tauto. }
  { destruct Rd as (_ & _ & F & _). apply Forall_app in F. tauto. }
  { exact (d_bound d payoff past dates future p V J). }
  { apply Rd. }
  rewrite E1' in E1. injection E1 as <-. rewrite V1, S22, (exec_events_unmarked _ _ scen init U2).
  exact (path_value d payoff past dates future p V J n scen Y).
Qed.
End Eliminated.

(** sums of reals over batches *)
Lemma fold_plus (l : list R) : forall a, fold_left Rplus l a = (a + fold_left Rplus l 0)%R.
Proof. induction l as [|x l IH]; intros a; cbn [fold_left]; [ring|]. rewrite IH, (IH (0 + x)%R). ring. Qed.
Lemma sum_zrange (g : Z -> R) k : forall a, fold_left Rplus (map (fun i => g (a + Z.of_nat i)) (seq 0 k)) 0%R = fold_left Rplus (map g (zrange a k)) 0%R.
Proof.
  induction k as [|k IH]; intros a; [reflexivity|]. cbn [seq map zrange fold_left]. rewrite (fold_plus (map g _)), (fold_plus (map _ (seq 1 k))). f_equal; [now replace (a + Z.of_nat 0)%Z with a by lia|].
  rewrite <- IH. f_equal. rewrite <- seq_shift, map_map. apply map_ext. intros i. f_equal. lia.
Qed.
Lemma sum_concat (g : Z -> R) (l : list (list Z)) : fold_left Rplus (map (fun m => fold_left Rplus (map g m) 0%R) l) 0%R = fold_left Rplus (map g (concat l)) 0%R.
Proof.
  induction l as [|m l IH]; cbn [map concat fold_left]; [reflexivity|]. rewrite map_app, fold_left_app, (fold_plus (map (fun m => fold_left Rplus (map g m) 0%R) l)), IH, (fold_plus (map g (concat l)) (fold_left Rplus (map g m) 0%R)). ring.
Qed.
Lemma sum_batches_all ts k (g : Z -> R) : concat (map paths_of ts) = zrange 0 k -> @sum_batches RN ts (fun f i => g (f + Z.of_nat i)) = @sum_up RN k (fun i => g (Z.of_nat i)).
Proof.
  intros C. unfold sum_batches, sum_up. cbn [n_add n_zero RNum].
  transitivity (fold_left Rplus (map (fun m => fold_left Rplus (map g m) 0%R) (map paths_of ts)) 0%R).
  - f_equal. rewrite map_map. apply map_ext. intros [f m]. cbn [fst snd]. unfold paths_of. cbn [fst snd]. apply sum_zrange.
  - rewrite sum_concat, C, <- (sum_zrange g k 0). reflexivity.
Qed.
End Real.
