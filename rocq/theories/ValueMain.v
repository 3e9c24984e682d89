(** Proofs about valuing scripts: from the script as written to the sum over the paths. *)
From Coq Require Import ZArith List Bool Lia ZifyBool Permutation.
From Verif Require Import Base Vec StringModel StringSpec StringProofs ScriptEval ScriptIndex FuzzyModel FuzzySpec FuzzyProofs SimModel ValueModel ValueSpec ValueProofs ValueTrees ScriptModel ScriptSpec.
Import ListNotations.
Open Scope Z_scope.

Section Main.
Context {N : Num}.
Lemma map_split {A B : Type} (f : A -> B) (a b l : list A) : map f l = map f (a ++ b) -> map f (firstn (length a) l) = map f a /\ map f (skipn (length a) l) = map f b.
Proof.
  intros H. split.
  - rewrite <- firstn_map, H, map_app, firstn_app, map_length, Nat.sub_diag. cbn [firstn]. rewrite app_nil_r. rewrite <- (map_length f a). apply firstn_all.
  - rewrite <- skipn_map, H, map_app, skipn_app, map_length, Nat.sub_diag. cbn [skipn]. rewrite <- (map_length f a), skipn_all. reflexivity.
Qed.
Lemma fits_lists d (l : list (list stmt)) : Forall (fits_all d) l = Forall (Forall (fits d)) l.
Proof. reflexivity. Qed.
Lemma variables_plain (l l' : list (list stmt)) : map (map plain_stmt) l = map (map plain_stmt) l' -> variables_of l = variables_of l'.
Proof. intros H. unfold variables_of. now rewrite (all_vars_plain l l' H). Qed.
Lemma zero_agrees names : agree names (repeat n_zero (length names)) all_zero.
Proof. split; [apply repeat_length|]. intros n i H. unfold all_zero. apply nth_repeat. Qed.

(** what indexing makes of a product just built *)
Record indexed (payoff : str) (past : list (list stmt)) (dates : list Z) (future : list (list stmt)) (p : product) : Prop := {
  i_past : map (map plain_stmt) (past_events p) = map (map plain_stmt) past;
  i_future : map (map plain_stmt) (events p) = map (map plain_stmt) future;
  i_apart : forall i j x y, nth_error (var_names p) i = Some x -> nth_error (var_names p) j = Some y -> ci_eqb x y = true -> i = j;
  i_names : var_names p = variables_of (past ++ future);
  i_known : Forall (known_at (var_names p)) (all_vars (past_events p ++ events p));
  i_wf : Forall (wf_all (Z.of_nat (length (var_names p))) (const_values p)) (past_events p ++ events p);
  i_payoff : payoff_at p = payoff_index (var_names p) payoff;
  i_dates : event_dates p = dates;
  i_times : time_line p = [] }.
Lemma index_ok d payoff past dates future : valid d past future -> indexed payoff past dates future (index_variables (new_product payoff past dates future)).
Proof.
  intros (V & O & F & P). unfold index_variables, all_events. cbn [past_events events new_product ValueModel.payoff payoff_at].
  change (Maps [] []) with no_maps. destruct (index_events (past ++ future) no_maps) as [m l] eqn:E.
  destruct (index_events_took _ _ _ _ E) as [(T1 & T2 & T3 & T4) Q]. destruct (map_split (map plain_stmt) past future l Q) as [Q1 Q2].
  cbn [split_events with_events new_product ValueModel.payoff payoff_at past_events event_dates events var_values var_names const_names const_values time_line].
  assert (A : forall i j x y, nth_error (v_names m) i = Some x -> nth_error (v_names m) j = Some y -> ci_eqb x y = true -> i = j) by (rewrite T1; apply add_names_nodup; intros [|?] ? ? ? H; discriminate).
  assert (W : Forall (wf_all (Z.of_nat (length (v_names m))) (map snd (c_names m))) l).
  { apply (index_events_wf (past ++ future)); [exact E|exact V|]. apply (one_value_same (all_consts (past ++ future))); [|exact O]. symmetry. now apply all_consts_plain. }
  assert (Nm : v_names m = variables_of (past ++ future)).
  { rewrite <- (variables_plain l _ Q), T1, add_names_first. reflexivity. }
  constructor; cbn [past_events event_dates events var_names const_values payoff_at time_line]; rewrite ?firstn_skipn; auto.
  - rewrite Forall_forall. intros [n i] Hin. destruct (T3 n i Hin) as [Hi Hf]. split; assumption.
  - unfold payoff_index. destruct (find_name (v_names m) payoff) as [i|] eqn:Ef; [|reflexivity]. replace (Z.of_nat i =? -1) with false by lia. reflexivity.
Qed.
Lemma payoff_found payoff past dates future p n : indexed payoff past dates future p -> is_payoff payoff (past ++ future) n ->
  exists i, find_name (var_names p) n = Some i /\ payoff_at p = Z.of_nat i.
Proof.
  intros H Y. rewrite (i_payoff _ _ _ _ _ H). pose proof (i_apart _ _ _ _ _ H) as A. pose proof (i_names _ _ _ _ _ H) as Nm. unfold is_payoff in Y. rewrite <- Nm in Y.
  destruct Y as [(Hin & Hc)|(Hno & r & Hr)].
  - apply ci_eqb_iff in Hc. destruct (In_nth_error _ _ Hin) as (i & Hi). exists i. rewrite (find_name_nth _ _ _ A Hi). split; [reflexivity|]. unfold payoff_index. rewrite <- (find_name_ci _ _ _ Hc), (find_name_nth _ _ _ A Hi). reflexivity.
  - exists (length r). split.
    + apply find_name_nth; [exact A|]. rewrite Hr, nth_error_app2, Nat.sub_diag by lia. reflexivity.
    + unfold payoff_index. destruct (find_name (var_names p) payoff) as [i|] eqn:E.
      * exfalso. destruct (find_name_some _ _ _ E) as (m & Hm & C). apply nth_error_In in Hm. apply (Hno m Hm). now apply ci_eqb_iff.
      * rewrite Hr, app_length. cbn [length]. lia.
Qed.
(** the past, and a path, from the script as written *)
Section Indexed.
Variables (d : Z) (payoff : str) (past : list (list stmt)) (dates : list Z) (future : list (list stmt)) (p : product).
Hypothesis V : valid d past future.
Hypothesis H : indexed payoff past dates future p.
Lemma fits_past : Forall (fits_all d) (past_events p).
Proof.
  destruct V as (_ & _ & F & _). apply Forall_app in F as [F _]. rewrite fits_lists in *. apply (same_lists plain_stmt (fits d) (fits_plain d) past); [symmetry; exact (i_past _ _ _ _ _ H)|exact F].
Qed.
Lemma fits_future : Forall (fits_all d) (events p).
Proof.
  destruct V as (_ & _ & F & _). apply Forall_app in F as [_ F]. rewrite fits_lists in *. apply (same_lists plain_stmt (fits d) (fits_plain d) future); [symmetry; exact (i_future _ _ _ _ _ H)|exact F].
Qed.
Lemma pays_past : payments_events (past_events p) + d <= 128.
Proof. destruct V as (_ & _ & _ & P). now rewrite (payments_events_same plain_stmt payments_plain _ _ (i_past _ _ _ _ _ H)). Qed.
Lemma targets_past : Forall (Forall var_targets) (past_events p).
Proof. destruct V as (T & _). apply Forall_app in T as [T _]. apply (targets_plain past); [symmetry; exact (i_past _ _ _ _ _ H)|exact T]. Qed.
Lemma targets_future : Forall (Forall var_targets) (events p).
Proof. destruct V as (T & _). apply Forall_app in T as [_ T]. apply (targets_plain future); [symmetry; exact (i_future _ _ _ _ _ H)|exact T]. Qed.
Lemma known_past : Forall (known_at (var_names p)) (all_vars (past_events p)).
Proof. pose proof (i_known _ _ _ _ _ H) as K. unfold all_vars in *. rewrite flat_map_app, Forall_app in K. tauto. Qed.
Lemma known_future : Forall (known_at (var_names p)) (all_vars (events p)).
Proof. pose proof (i_known _ _ _ _ _ H) as K. unfold all_vars in *. rewrite flat_map_app, Forall_app in K. tauto. Qed.
Definition start : list num := exec_past (past_events p) (repeat n_zero (length (var_names p))).
Lemma start_agrees : agree (var_names p) start (perform_past past all_zero).
Proof.
  unfold start. rewrite <- (perform_past_plain _ _ all_zero (i_past _ _ _ _ _ H)). apply perform_past_ok; [apply targets_past|apply known_past|apply zero_agrees].
Qed.
Lemma start_length : length start = length (var_names p).
Proof. apply start_agrees. Qed.
Lemma past_ok : past_evaluate (const_values p) (length (var_names p)) (past_events p) = Ok start.
Proof.
  apply (past_evaluate_ok _ _ _ d); [|apply fits_past|apply pays_past]. pose proof (i_wf _ _ _ _ _ H) as W. apply Forall_app in W. tauto.
Qed.
Lemma d_bound : d <= 128.
Proof.
  pose proof pays_past. assert (0 <= payments_events (past_events p)); [|lia]. clear. induction (past_events p) as [|e r IH]; unfold payments_events; cbn [fold_right]; [lia|]. fold (payments_events r). pose proof (payments_all_nonneg e). lia.
Qed.
Lemma path_length (scen : list sample) : (length future <= length scen)%nat -> (length (events p) <= length scen)%nat.
Proof. intros L. rewrite <- (map_length (map plain_stmt) (events p)), (i_future _ _ _ _ _ H), map_length. exact L. Qed.
Lemma path_ok scen st : (length future <= length scen)%nat -> exists s, evaluate (const_values p) start scen (events p) st = Ok s /\ vars s = exec_events (events p) scen start.
Proof.
  intros L. apply (evaluate_ok _ _ _ _ d); [|apply fits_future|apply d_bound|now apply path_length]. rewrite start_length. pose proof (i_wf _ _ _ _ _ H) as W. apply Forall_app in W. tauto.
Qed.
Lemma path_value n scen : is_payoff payoff (past ++ future) n -> vget (exec_events (events p) scen start) (payoff_at p) = Ok (final past future n scen).
Proof.
  intros Y. destruct (payoff_found _ _ _ _ _ _ H Y) as (i & Fi & ->).
  assert (A : agree (var_names p) (exec_events (events p) scen start) (perform_future future scen (perform_past past all_zero))).
  { rewrite <- (perform_future_plain _ _ scen (perform_past past all_zero) (i_future _ _ _ _ _ H)). apply perform_future_ok; [apply targets_future|apply known_future|apply start_agrees]. }
  destruct A as [A1 A2]. rewrite (vget_ok _ _ n_zero), Nat2Z.id; [|rewrite A1; pose proof (find_name_bound _ _ _ Fi); lia]. unfold final. now rewrite (A2 n i Fi).
Qed.
End Indexed.

(** the whole simulation *)
Lemma threads_in pool (order : list (nat * nat)) : Forall (fun p => In (snd p) (thread_numbers pool)) order -> Forall (fun p => (snd p < num_threads pool)%nat) order.
Proof.
  intros F. eapply Forall_impl; [|exact F]. cbn beta. intros p [<-|Hin]; [unfold num_threads; lia|]. apply in_map_iff in Hin as (i & <- & Hi). rewrite in_seq in Hi. unfold num_threads. lia.
Qed.
Lemma simulation_ok eval p value (usable : list sample -> Prop) draw n_paths pool order ts :
  (forall scen st, usable scen -> exists s, eval scen st = Ok s /\ vget (vars s) (payoff_at p) = Ok (value scen)) ->
  (forall f i, usable (draw (time_line p) f i)) -> tasks n_paths (Z.of_nat (num_threads pool)) = Ok ts -> any_schedule pool (length ts) order ->
  mc_simulation eval p draw n_paths pool order = Ok (sum_batches ts (fun f i => value (draw (time_line p) f i))).
Proof.
  intros He Hu Ht [P F]. unfold mc_simulation. rewrite Ht. cbn [obind].
  rewrite (run_all_tasks eval (payoff_at p) value usable He (draw (time_line p)) ts order (repeat (new_state p) (num_threads pool)) Hu P); [reflexivity|].
  rewrite repeat_length. now apply threads_in.
Qed.
End Main.
