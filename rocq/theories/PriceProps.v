(** C87: the price of a script from the generator to the value. *)
From Coq Require Import String ZArith List Bool Lia ZifyBool Permutation Reals Lra.
From Coq Require Import Floats.SpecFloat.
From Verif Require Import Base Vec StringModel StringSpec StringProofs ScriptEval ScriptIndex ScriptNum ScriptProps FuzzyModel FuzzySpec FuzzyProofs SimModel SimProofs SimProps DateModel DomainModel DomainSpec DomainProofs DomainGrid DomainProps
  ValueModel ValueSpec ValueProofs ValueTrees ValueReal ValueMain ValueSound ValueProps ScriptModel ScriptSpec RandomModel RandomSpec DrawModel DrawSpec DrawProofs DrawProps BsSpec PriceModel PriceSpec PriceProofs PriceReal.
From Verif Require BsModel.
Import ListNotations.
Open Scope Z_scope.

Section C87.
Context {N : Num} {B : Type}.
Variable sobol_skip : Z -> B -> outcome B.
Variable sobol_fill : B -> outcome (list spec_float * B).
Variable sobol_new : nat -> B.
Variable inverse_ncdf : spec_float -> spec_float.
Variable bridged : list spec_float -> list spec_float.
Local Notation price := (priced sobol_skip sobol_fill sobol_new inverse_ncdf bridged).
(** In any arithmetic, with any model that makes its paths from the draws: with mrg32 the total is the same for every order of the tasks and
    every choice of their threads, although a thread goes on with the generator, the path and the evaluator its last task left behind. *)
Theorem C87_mrg32 : forall (D : DomNum N) years today payoff past dates future n generate blank path method dim use_bb n_paths pool order ts d,
  same_up_to_case method (lit "mrg32") -> 0 <= n_paths < 2 ^ 31 -> n_paths * Z.of_nat dim < 2 ^ 64 ->
  (forall v, List.length v = dim -> List.length (bridged v) = dim) -> path_maker dim generate blank path ->
  valid d past future -> is_payoff payoff (past ++ future) n -> (forall v, List.length v = dim -> (List.length future <= List.length (path v))%nat) ->
  tasks n_paths (Z.of_nat (num_threads pool)) = Ok ts -> some_schedule pool (List.length ts) order ->
  exists q, pre_process years today false true (new_product payoff past dates future) = Ok (0, q) /\
    price generate blank (evaluator q) q method dim use_bb n_paths pool order =
      Ok (sum_batches ts (fun first i => final past future n (path (dressed bridged use_bb (mrg_vector inverse_ncdf dim first i))))).
Proof.
  intros D years today payoff past dates future n generate blank path method dim use_bb n_paths pool order ts d Em%ci_eqb_iff Hn Hd Hb Hm V Y L Et Ho.
  destruct (C68_batches D years today payoff past dates future n (fun _ first i => path (dressed bridged use_bb (mrg_vector inverse_ncdf dim first i))) n_paths pool order ts d V Y) as (q & E & _ & M); [|exact Et|exact Ho|].
  - intros first i. apply L. apply (dressed_length bridged dim use_bb); [exact Hb|apply mrg_length].
  - exists q. split; [exact E|]. rewrite <- M. apply mrg_priced with (ts := ts); assumption.
Qed.
(** With Sobol numbers it is the sum, batch by batch, over the numbers of the paths. *)
Theorem C87_sobol : forall (D : DomNum N) years today payoff past dates future n generate blank path method dim use_bb n_paths pool order ts d vector,
  same_up_to_case method (lit "sobol") -> 0 <= n_paths < 2 ^ 31 -> sequence sobol_skip sobol_fill vector (sobol_new dim) -> (forall k, List.length (vector k) = dim) ->
  (forall v, List.length v = dim -> List.length (bridged v) = dim) -> path_maker dim generate blank path ->
  valid d past future -> is_payoff payoff (past ++ future) n -> (forall v, List.length v = dim -> (List.length future <= List.length (path v))%nat) ->
  tasks n_paths (Z.of_nat (num_threads pool)) = Ok ts -> some_schedule pool (List.length ts) order ->
  exists q, pre_process years today false true (new_product payoff past dates future) = Ok (0, q) /\
    price generate blank (evaluator q) q method dim use_bb n_paths pool order =
      Ok (sum_batches ts (fun first i => final past future n (path (dressed bridged use_bb (vector (first + Z.of_nat i)))))).
Proof.
  intros D years today payoff past dates future n generate blank path method dim use_bb n_paths pool order ts d vector Em%ci_eqb_iff Hn Hv Hl Hb Hm V Y L Et Ho.
  destruct (C68_batches D years today payoff past dates future n (fun _ first i => path (dressed bridged use_bb (vector (first + Z.of_nat i)))) n_paths pool order ts d V Y) as (q & E & _ & M); [|exact Et|exact Ho|].
  - intros first i. apply L. apply (dressed_length bridged dim use_bb); [exact Hb|apply Hl].
  - exists q. split; [exact E|]. rewrite <- M. apply sobol_priced with (ts := ts); assumption.
Qed.
(** Run compiled, a simulation with mrg32 gives the same total as interpreted. *)
Theorem C87_compiled : forall (D : DomNum N) years today payoff past dates future n generate blank path method dim use_bb n_paths pool order ts d,
  same_up_to_case method (lit "mrg32") -> 0 <= n_paths < 2 ^ 31 -> n_paths * Z.of_nat dim < 2 ^ 64 ->
  (forall v, List.length v = dim -> List.length (bridged v) = dim) -> path_maker dim generate blank path ->
  laws -> valid d past future -> is_payoff payoff (past ++ future) n ->
  Forall (Forall fresh_stmt) (past ++ future) -> Forall (fun evt => low_all 0 (-1) evt <> None) future ->
  (forall v, List.length v = dim -> (List.length future <= List.length (path v))%nat) ->
  tasks n_paths (Z.of_nat (num_threads pool)) = Ok ts -> some_schedule pool (List.length ts) order ->
  exists q c, pre_process years today false true (new_product payoff past dates future) = Ok (0, q) /\ compile q = Ok c /\
    forall fuel, Forall (fun evt => (List.length (fst (comp_all evt ([], []))) < fuel)%nat) (events c) ->
      price generate blank (compiled_evaluator fuel c) c method dim use_bb n_paths pool order = price generate blank (evaluator q) q method dim use_bb n_paths pool order.
Proof.
  intros D years today payoff past dates future n generate blank path method dim use_bb n_paths pool order ts d Em Hn Hd Hb Hm HL V Y Fr Lo L Et Ho.
  destruct (C87_mrg32 D years today payoff past dates future n generate blank path method dim use_bb n_paths pool order ts d Em Hn Hd Hb Hm V Y L Et Ho) as (q & E & Pq).
  apply ci_eqb_iff in Em.
  destruct (C68_compiled D years today payoff past dates future n (fun _ first i => path (dressed bridged use_bb (mrg_vector inverse_ncdf dim first i))) n_paths pool order ts d HL V Y Fr Lo) as (q' & c & E' & Ec & M); [|exact Et|exact Ho|].
  - intros first i. apply L. apply (dressed_length bridged dim use_bb); [exact Hb|apply mrg_length].
  - rewrite E in E'. injection E' as <-. exists q, c. split; [exact E|]. split; [exact Ec|]. intros fuel Hf. rewrite Pq, <- (M fuel Hf). apply mrg_priced with (ts := ts); assumption.
Qed.
(** A method with another name is refused. *)
Theorem C87_unknown_method : forall generate blank eval p method dim use_bb n_paths pool order,
  ~ same_up_to_case method (lit "sobol") -> ~ same_up_to_case method (lit "mrg32") -> ~ same_up_to_case method (lit "irn") ->
  price generate blank eval p method dim use_bb n_paths pool order = Throw.
Proof.
  intros generate blank eval p method dim use_bb n_paths pool order H1 H2 H3. unfold priced, kind_of.
  destruct (ci_eqb method (lit "sobol")) eqn:E1; [apply ci_eqb_iff in E1; contradiction|]. destruct (ci_eqb method (lit "mrg32")) eqn:E2; [apply ci_eqb_iff in E2; contradiction|].
  destruct (ci_eqb method (lit "irn")) eqn:E3; [apply ci_eqb_iff in E3; contradiction|]. reflexivity.
Qed.
End C87.
Print Assumptions C87_mrg32.
Print Assumptions C87_sobol.
Print Assumptions C87_compiled.
Print Assumptions C87_unknown_method.

(** ** ValueByMonteCarlo with the Black-Scholes model, on real numbers *)
Section C87Real.
Variables (f_log f_sqrt f_exp : R -> R) (f_pow : R -> R -> R).
Local Notation RN := (RNum f_log f_sqrt f_exp f_pow).
#[local] Hint Extern 0 Num => exact (RNum f_log f_sqrt f_exp f_pow) : typeclass_instances.
Context {B : Type}.
Variable sobol_skip : Z -> B -> outcome B.
Variable sobol_fill : B -> outcome (list spec_float * B).
Variable sobol_new : nat -> B.
Variable inverse_ncdf : spec_float -> spec_float.
Variable bridged : list spec_float -> list spec_float.
Local Notation value D := (@bs_value f_log f_sqrt f_exp f_pow B sobol_skip sobol_fill sobol_new inverse_ncdf bridged D).
Local Notation bs_path := (bs_path f_log f_sqrt f_exp f_pow).
(** what is asked of a valuation: a script with IFs at most 128 deep (C17), an event for a date at most, dates in order and none past, a
    positive spot, and the past and the paths of the model safe (C68) *)
Definition can_price (times : list R) (m : BsModel.bs) (past : list (list (@stmt RN))) (dates : list Z) (future : list (list (@stmt RN))) (n : str) : Prop :=
  (exists d, valid d past future) /\ depth_events (past ++ future) <= 128 /\ is_payoff [] (past ++ future) n /\ safe_past f_log f_sqrt f_exp f_pow past all_zero /\
  (List.length future <= List.length dates)%nat /\ timeline_ok times /\ (0 < BsModel.b_spot m)%R /\
  (forall gauss, safe_future f_log f_sqrt f_exp f_pow future (bs_path m times gauss) (perform_past past all_zero)).
Section Methods.
Variable D : DomNum RN.
Variable tests_fine : list (list (@stmt RN)) -> Prop.
Hypothesis tests_marks : forall l l', map (map (bare f_log f_sqrt f_exp f_pow)) l' = map (map (bare f_log f_sqrt f_exp f_pow)) l -> tests_fine l -> tests_fine l'.
Hypothesis sound : forall fuzzy consts nvars dmax past future scen init vd evs (st : @estate RN),
  ready f_log f_sqrt f_exp f_pow consts nvars dmax past future scen init -> tests_fine (past ++ future) ->
  @dom_events RN D fuzzy (past ++ future) (@dom_init RN nvars) = Ok (vd, evs) ->
  exists s1 s2, @evaluate RN consts init scen future st = Ok s1 /\ @evaluate RN consts init scen (cc_events (skipn (List.length past) evs)) st = Ok s2 /\ vars s2 = vars s1.
Lemma mrg_value years today m past dates future n method use_bb n_paths pool ts order :
  let times := map (fun t => years (t - today)) dates in
  let dim := (List.length (from_today times) - 1)%nat in
  can_price times m past dates future n -> tests_fine (past ++ future) -> (exists r, @pre_process RN D years today false false (new_product [] past dates future) = Ok r) ->
  same_up_to_case method (lit "mrg32") -> 0 <= n_paths < 2 ^ 31 -> n_paths * Z.of_nat dim < 2 ^ 64 -> (forall v, List.length v = dim -> List.length (bridged v) = dim) ->
  tasks n_paths (Z.of_nat (num_threads pool)) = Ok ts -> some_schedule pool (List.length ts) order ->
  value D years today m past dates future method use_bb n_paths pool order =
    Ok (Rdiv (@sum_batches RN ts (fun first i => final past future n (bs_path m times (map real_of (dressed bridged use_bb (mrg_vector inverse_ncdf dim first i)))))) (IZR n_paths)).
Proof.
  intros times dim ((d & V) & Dp & Y & Sp & Lf & Hok & Hs & Hsafe) Tf Hp Em%ci_eqb_iff Hn Hd Hb Et Ho.
  apply (bs_value_ok f_log f_sqrt f_exp f_pow sobol_skip sobol_fill sobol_new inverse_ncdf bridged D tests_fine tests_marks sound d years today m past dates future n method use_bb n_paths pool ts order
    (fun first i => dressed bridged use_bb (mrg_vector inverse_ncdf dim first i))); try assumption.
  intros generate blank path eval p Hm. apply mrg_priced with (ts := ts); assumption.
Qed.
Lemma sobol_value years today m past dates future n method use_bb n_paths pool order vector :
  let times := map (fun t => years (t - today)) dates in
  let dim := (List.length (from_today times) - 1)%nat in
  can_price times m past dates future n -> tests_fine (past ++ future) -> (exists r, @pre_process RN D years today false false (new_product [] past dates future) = Ok r) ->
  same_up_to_case method (lit "sobol") -> 0 <= n_paths < 2 ^ 31 -> ~ (n_paths = 2 ^ 31 - 1 /\ (pool <= 1)%nat) ->
  sequence sobol_skip sobol_fill vector (sobol_new dim) -> (forall k, List.length (vector k) = dim) -> (forall v, List.length v = dim -> List.length (bridged v) = dim) ->
  (forall ts, tasks n_paths (Z.of_nat (num_threads pool)) = Ok ts -> some_schedule pool (List.length ts) order) ->
  value D years today m past dates future method use_bb n_paths pool order =
    Ok (Rdiv (@sum_up RN (Z.to_nat n_paths) (fun i => final past future n (bs_path m times (map real_of (dressed bridged use_bb (vector (Z.of_nat i))))))) (IZR n_paths)).
Proof.
  intros times dim ((d & V) & Dp & Y & Sp & Lf & Hok & Hs & Hsafe) Tf Hp Em%ci_eqb_iff Hn Hlim Hv Hl Hb Ho.
  destruct (C21_partition n_paths (Z.of_nat (num_threads pool))) as (ts & room & Et & _ & C & _ & _); [lia|unfold num_threads; lia|unfold num_threads; intros [A1 A2]; apply Hlim; split; [exact A1|lia]|].
  rewrite <- (sum_batches_all f_log f_sqrt f_exp f_pow ts (Z.to_nat n_paths) (fun k => final past future n (bs_path m times (map real_of (dressed bridged use_bb (vector k))))) C).
  apply (bs_value_ok f_log f_sqrt f_exp f_pow sobol_skip sobol_fill sobol_new inverse_ncdf bridged D tests_fine tests_marks sound d years today m past dates future n method use_bb n_paths pool ts order
    (fun first i => dressed bridged use_bb (vector (first + Z.of_nat i)))); try assumption; [now apply Ho|].
  intros generate blank path eval p Hm. apply sobol_priced with (ts := ts); try assumption. now apply Ho.
Qed.
End Methods.

(** With mrg32 the value is the mean of the payoff, read off the script as written, over the paths of the model, each made of its own
    draws: whatever the order of the tasks and whichever thread runs which.  The comparisons of bounds in the analysis are exact here. *)
Theorem C87_bs_mrg32 : forall years today m past dates future n method use_bb n_paths pool ts order,
  let times := map (fun t => years (t - today)) dates in
  let dim := (List.length (from_today times) - 1)%nat in
  can_price times m past dates future n -> (exists r, pre_process (D := exact_tests f_log f_sqrt f_exp f_pow) years today false false (new_product [] past dates future) = Ok r) ->
  same_up_to_case method (lit "mrg32") -> 0 <= n_paths < 2 ^ 31 -> n_paths * Z.of_nat dim < 2 ^ 64 -> (forall v, List.length v = dim -> List.length (bridged v) = dim) ->
  tasks n_paths (Z.of_nat (num_threads pool)) = Ok ts -> some_schedule pool (List.length ts) order ->
  value (exact_tests f_log f_sqrt f_exp f_pow) years today m past dates future method use_bb n_paths pool order =
    Ok (Rdiv (@sum_batches RN ts (fun first i => final past future n (bs_path m times (map real_of (dressed bridged use_bb (mrg_vector inverse_ncdf dim first i)))))) (IZR n_paths)).
Proof.
  intros years today m past dates future n method use_bb n_paths pool ts order times dim Hc Hp. intros.
  apply (mrg_value (exact_tests f_log f_sqrt f_exp f_pow) (fun _ => True)); auto. intros. eapply C16_dead_branches; eassumption.
Qed.
(** With Sobol numbers it is the mean over the first n vectors of the sequence, so it does not depend on the number of threads either. *)
Theorem C87_bs_sobol : forall years today m past dates future n method use_bb n_paths pool order vector,
  let times := map (fun t => years (t - today)) dates in
  let dim := (List.length (from_today times) - 1)%nat in
  can_price times m past dates future n -> (exists r, pre_process (D := exact_tests f_log f_sqrt f_exp f_pow) years today false false (new_product [] past dates future) = Ok r) ->
  same_up_to_case method (lit "sobol") -> 0 <= n_paths < 2 ^ 31 -> ~ (n_paths = 2 ^ 31 - 1 /\ (pool <= 1)%nat) ->
  sequence sobol_skip sobol_fill vector (sobol_new dim) -> (forall k, List.length (vector k) = dim) -> (forall v, List.length v = dim -> List.length (bridged v) = dim) ->
  (forall ts, tasks n_paths (Z.of_nat (num_threads pool)) = Ok ts -> some_schedule pool (List.length ts) order) ->
  value (exact_tests f_log f_sqrt f_exp f_pow) years today m past dates future method use_bb n_paths pool order =
    Ok (Rdiv (@sum_up RN (Z.to_nat n_paths) (fun i => final past future n (bs_path m times (map real_of (dressed bridged use_bb (vector (Z.of_nat i))))))) (IZR n_paths)).
Proof.
  intros years today m past dates future n method use_bb n_paths pool order vector times dim Hc Hp. intros.
  apply (sobol_value (exact_tests f_log f_sqrt f_exp f_pow) (fun _ => True)); auto. intros. eapply C16_dead_branches; eassumption.
Qed.
(** The same with the comparisons the code makes, for scripts whose numbers keep away from their tolerance (C68). *)
Theorem C87_bs_mrg32_code : forall years today m past dates future n method use_bb n_paths pool ts order,
  let times := map (fun t => years (t - today)) dates in
  let dim := (List.length (from_today times) - 1)%nat in
  can_price times m past dates future n -> plain_events f_log f_sqrt f_exp f_pow 1 0 (past ++ future) ->
  (exists r, pre_process (D := real_code_tests f_log f_sqrt f_exp f_pow) years today false false (new_product [] past dates future) = Ok r) ->
  same_up_to_case method (lit "mrg32") -> 0 <= n_paths < 2 ^ 31 -> n_paths * Z.of_nat dim < 2 ^ 64 -> (forall v, List.length v = dim -> List.length (bridged v) = dim) ->
  tasks n_paths (Z.of_nat (num_threads pool)) = Ok ts -> some_schedule pool (List.length ts) order ->
  value (real_code_tests f_log f_sqrt f_exp f_pow) years today m past dates future method use_bb n_paths pool order =
    Ok (Rdiv (@sum_batches RN ts (fun first i => final past future n (bs_path m times (map real_of (dressed bridged use_bb (mrg_vector inverse_ncdf dim first i)))))) (IZR n_paths)).
Proof.
  intros years today m past dates future n method use_bb n_paths pool ts order times dim Hc Hf Hp. intros.
  apply (mrg_value (real_code_tests f_log f_sqrt f_exp f_pow) (plain_events f_log f_sqrt f_exp f_pow 1 0)); auto.
  - intros l l' E Hx. now apply (far_events f_log f_sqrt f_exp f_pow 1 0 l).
  - intros. eapply C16_dead_branches_code; eassumption.
Qed.
Theorem C87_bs_sobol_code : forall years today m past dates future n method use_bb n_paths pool order vector,
  let times := map (fun t => years (t - today)) dates in
  let dim := (List.length (from_today times) - 1)%nat in
  can_price times m past dates future n -> plain_events f_log f_sqrt f_exp f_pow 1 0 (past ++ future) ->
  (exists r, pre_process (D := real_code_tests f_log f_sqrt f_exp f_pow) years today false false (new_product [] past dates future) = Ok r) ->
  same_up_to_case method (lit "sobol") -> 0 <= n_paths < 2 ^ 31 -> ~ (n_paths = 2 ^ 31 - 1 /\ (pool <= 1)%nat) ->
  sequence sobol_skip sobol_fill vector (sobol_new dim) -> (forall k, List.length (vector k) = dim) -> (forall v, List.length v = dim -> List.length (bridged v) = dim) ->
  (forall ts, tasks n_paths (Z.of_nat (num_threads pool)) = Ok ts -> some_schedule pool (List.length ts) order) ->
  value (real_code_tests f_log f_sqrt f_exp f_pow) years today m past dates future method use_bb n_paths pool order =
    Ok (Rdiv (@sum_up RN (Z.to_nat n_paths) (fun i => final past future n (bs_path m times (map real_of (dressed bridged use_bb (vector (Z.of_nat i))))))) (IZR n_paths)).
Proof.
  intros years today m past dates future n method use_bb n_paths pool order vector times dim Hc Hf Hp. intros.
  apply (sobol_value (real_code_tests f_log f_sqrt f_exp f_pow) (plain_events f_log f_sqrt f_exp f_pow 1 0)); auto.
  - intros l l' E Hx. now apply (far_events f_log f_sqrt f_exp f_pow 1 0 l).
  - intros. eapply C16_dead_branches_code; eassumption.
Qed.
End C87Real.
Print Assumptions C87_bs_mrg32.
Print Assumptions C87_bs_sobol.
Print Assumptions C87_bs_mrg32_code.
Print Assumptions C87_bs_sobol_code.

(** ** Examples: the script of C68's example, a year and two years from now, two draws a path *)
Section Example87.
#[local] Hint Extern 0 Num => exact (RNum ln sqrt exp Rpower) : typeclass_instances.
Definition p_model : BsModel.bs := {| BsModel.b_spot := 100; BsModel.b_vol := 1/5; BsModel.b_rate := 1/20; BsModel.b_div := 0 |}%R.
Definition p_skip (n : Z) (g : Z) : outcome Z := Ok n.
Definition p_fill (g : Z) : outcome (list spec_float * Z) := Ok ([fl_of_Z g; fl_of_Z 1], g + 1).
Definition p_times : list R := map (fun t => v_years (t - 100)) [465; 830].
Lemma p_line : p_times = [1; 2]%R.
Proof. unfold p_times, v_years. cbn [map]. f_equal; [|f_equal]; cbn; lra. Qed.
Example C87_case : can_price ln sqrt exp Rpower p_times p_model [] [465; 830] v_future (lit "pay") /\ (List.length (from_today p_times) - 1 = 2)%nat /\
  (exists r, pre_process (D := exact_tests ln sqrt exp Rpower) v_years 100 false false (new_product [] [] [465; 830] v_future) = Ok r) /\
  sequence p_skip p_fill (fun n => [fl_of_Z n; fl_of_Z 1]) 0 /\ (forall v : list spec_float, List.length v = 2%nat -> List.length (rev v) = 2%nat) /\
  tasks 2500 (Z.of_nat (num_threads 3)) = Ok [(0, 1024); (1024, 1024); (2048, 452)] /\ some_schedule 3 3 [(2, 0); (1, 2); (0, 0)]%nat.
Proof.
  destruct C68_case as (((m & _) & V & Dp & Y & Sp & _) & _ & Hp & _).
  split; [|split; [|split; [exact Hp|split; [|split; [|split; [vm_compute; reflexivity|]]]]]].
  - unfold can_price. split; [exact V|]. split; [exact Dp|]. split; [exact Y|]. split; [exact Sp|]. split; [cbn; lia|]. rewrite p_line. split; [cbn; lra|]. split; [cbn; lra|].
    intros gauss. unfold bs_path. cbn [List.length seq map]. cbn. split; [auto|]. split; [|exact I]. split; [|exact I]. split; [exact I|].
    destruct (rltb 0 _); [|exact I]. repeat split; discriminate.
  - rewrite p_line. unfold from_today. destruct (Req_EM_T 1 0) as [H|H]; [lra|reflexivity].
  - exists (fun g n => g = n). split; [eauto|]. split; [intros g n k -> _; exists k; split; reflexivity|]. intros g n ->. exists (n + 1). split; reflexivity.
  - intros v Hv. now rewrite rev_length.
  - split; [cbn; apply (Permutation_rev [2; 1; 0]%nat)|repeat (apply Forall_cons; [cbn; auto|]); apply Forall_nil].
Qed.
End Example87.
