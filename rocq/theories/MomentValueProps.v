(** C89 for ValueByMonteCarlo itself: the value of an option is an average whose expectation is the formula's price. *)
From Coq Require Import String Reals List ZArith Permutation Lra Lia.
From Coq Require Import Floats.SpecFloat.
From Verif Require Import Base StringModel StringSpec BlackModel BlackSpec BlackNormal ExpectSpec ExpectProps MomentSpec MomentProofs MomentProps ScriptModel ScriptSpec FuzzySpec DomainSpec DomainModel ValueModel ValueSpec ValueProps
  SimModel SimProps DateModel DrawModel DrawSpec DrawProps StringProofs BsSpec PriceModel PriceSpec PriceProps.
From Verif Require BsModel.
Import ListNotations.
Local Open Scope R_scope.

Lemma never_below (x : R) : rltb x x = false.
Proof. unfold rltb. destruct (Rlt_dec x x); [lra|reflexivity]. Qed.
Lemma same_bound a b c d (x : R) : beq a b c d (@Fin (RNum a b c d) x) (@Fin (RNum a b c d) x) = true.
Proof. unfold beq, blt. now rewrite never_below. Qed.

Lemma zrange_length a n : List.length (zrange a n) = n.
Proof. revert a. induction n as [|n IH]; intros a; [reflexivity|]. cbn [zrange List.length]. now rewrite IH. Qed.

Section Value.
Variables (f_log f_sqrt f_exp : R -> R) (f_pow : R -> R -> R).
Local Notation RN := (RNum f_log f_sqrt f_exp f_pow).
#[local] Hint Extern 0 Num => exact (RNum f_log f_sqrt f_exp f_pow) : typeclass_instances.
Context {B : Type}.
Variable sobol_skip : Z -> B -> outcome B.
Variable sobol_fill : B -> outcome (list spec_float * B).
Variable sobol_new : nat -> B.
Variable inverse_ncdf : spec_float -> spec_float.
Variable bridged : list spec_float -> list spec_float.
Local Notation value := (@bs_value f_log f_sqrt f_exp f_pow B sobol_skip sobol_fill sobol_new inverse_ncdf bridged (exact_tests f_log f_sqrt f_exp f_pow)).
Local Notation bs_path := (bs_path f_log f_sqrt f_exp f_pow).
Local Notation european := (european f_log f_sqrt f_exp f_pow).
(** what the script pays on the path the draws make *)
Definition paid (m : BsModel.bs) (T k : R) (t : option_type) (zs : list R) : R := final [] (european t k) (lit "pay") (bs_path m [T] zs).
Lemma european_ready years today day k t : exists r, @pre_process RN (exact_tests f_log f_sqrt f_exp f_pow) years today false false (new_product [] [] [day] (european t k)) = Ok r.
Proof.
  clear. unfold pre_process. destruct (past_values _) as [p1| | |] eqn:E1; [|destruct t; cbn in E1; discriminate ..]. cbn [obind]. change (false || negb false)%bool with true. cbn iota.
  destruct t; cbn in E1; injection E1 as <-; unfold if_process, domain_process; cbn.
  all: unfold lift2, i_div, i_inv, i_sub, i_max, i_neg, i_add, i_mul, mk; cbn.
  all: repeat (first [rewrite never_below | rewrite same_bound]; cbn). all: eexists; reflexivity.
Qed.
Lemma sum_total (k : nat) (g : list R -> R) (vec : nat -> list R) : @sum_up RN k (fun i => g (vec i)) = total g (map vec (seq 0 k)).
Proof. clear. unfold sum_up, total. rewrite map_map. reflexivity. Qed.
Lemma total_app {A} (f : A -> R) l l' : total f (l ++ l') = total f l + total f l'.
Proof. clear. induction l as [|a l IH]; cbn [app]; [unfold total at 2; cbn; lra|]. rewrite !total_cons, IH. lra. Qed.
Lemma batches_total (ts : list (Z * Z)) (g : list R -> R) (vec : Z -> nat -> list R) :
  @sum_batches RN ts (fun first i => g (vec first i)) = total g (flat_map (fun t => map (vec (fst t)) (seq 0 (Z.to_nat (snd t)))) ts).
Proof.
  clear. unfold sum_batches. match goal with |- fold_left _ ?l _ = _ => transitivity (total (fun x : R => x) l) end; [unfold total; now rewrite map_id|].
  induction ts as [|t ts IH]; [reflexivity|]. cbn [map flat_map]. rewrite total_cons, total_app, <- IH. f_equal. apply sum_total.
Qed.
(** for independent normal draws the average of what the option pays has the formula's discounted price for its expectation, and a mean square
    error that falls with the number of paths *)
Definition unbiased (N n : R -> R) (m : BsModel.bs) (T k : R) (t : option_type) (paths : nat) : Prop :=
  exists x v, black_opt N (forward m T) (BsModel.b_vol m * sqrt T) k t = Ok x /\ let price := exp (- (BsModel.b_rate m * T)) * x in
    simulated n 1 paths (average (paid m T k t)) price /\
    simulated n 1 paths (fun l => (average (paid m T k t) l - price) * (average (paid m T k t) l - price)) (v / INR paths).
Lemma one_time T : 0 < T -> (List.length (from_today [T]) - 1)%nat = 1%nat.
Proof. clear. intros HT. unfold from_today, position. cbn [nth]. destruct (Req_EM_T T 0); [lra|]. reflexivity. Qed.
Lemma spans_length l n : Forall (fun x => 0 < snd x)%Z l -> concat (map paths_of l) = zrange 0 n -> 
  forall vec : Z -> nat -> list R, List.length (flat_map (fun t => map (vec (fst t)) (seq 0 (Z.to_nat (snd t)))) l) = n.
Proof.
  clear. intros F E vec. assert (L : List.length (concat (map paths_of l)) = n) by (rewrite E; apply zrange_length). rewrite <- L. clear.
  induction l as [|a l IH]; [reflexivity|]. cbn [flat_map map concat]. rewrite !app_length, IH. f_equal. rewrite map_length, seq_length. unfold paths_of. destruct a. now rewrite zrange_length.
Qed.
(** With mrg32 numbers the value of a call or put on one date is the average of what it pays over the vectors the tasks draw, as many as there are
    paths; and such an average is unbiased for the price the formula gives. *)
Theorem C89_value_mrg32 N n years today day m k t method use_bb n_paths pool ts order : let T := years (day - today)%Z in
  normal_law N n -> 0 < BsModel.b_spot m -> 0 < T -> 0 < k -> t = Call \/ t = Put -> epsilon <= BsModel.b_vol m * sqrt T -> epsilon <= forward m T * k ->
  same_up_to_case method (lit "mrg32") -> (0 < n_paths < 2 ^ 31)%Z -> ~ (n_paths = 2 ^ 31 - 1 /\ (pool <= 1)%nat)%Z -> (forall v, List.length v = 1%nat -> List.length (bridged v) = 1%nat) ->
  tasks n_paths (Z.of_nat (num_threads pool)) = Ok ts -> some_schedule pool (List.length ts) order ->
  let vectors := flat_map (fun s => map (fun i => map real_of (dressed bridged use_bb (mrg_vector inverse_ncdf 1 (fst s) i))) (seq 0 (Z.to_nat (snd s)))) ts in
  value years today m [] [day] (european t k) method use_bb n_paths pool order = Ok (average (paid m T k t) vectors) /\
  List.length vectors = Z.to_nat n_paths /\ unbiased N n m T k t (Z.to_nat n_paths).
Proof.
  intros T HN Hs HT Hk Ht Hv Hf Em Hn Hx Hb Et Ho vectors.
  assert (L : List.length vectors = Z.to_nat n_paths).
  { destruct (C21_partition n_paths (Z.of_nat (num_threads pool))) as (l & room & El & _ & C & F & _); [lia|unfold num_threads; lia|unfold num_threads; lia|].
    rewrite Et in El. injection El as <-. apply (spans_length ts _ F C (fun first i => map real_of (dressed bridged use_bb (mrg_vector inverse_ncdf 1 first i)))). }
  split; [|split; [exact L|]].
  - pose proof (C87_bs_mrg32 f_log f_sqrt f_exp f_pow sobol_skip sobol_fill sobol_new inverse_ncdf bridged years today m [] [day] (european t k) (lit "pay") method use_bb n_paths pool ts order) as H.
    cbv zeta in H. cbn [map] in H. fold T in H. rewrite (one_time T HT) in H. rewrite H; [|now apply C88_can_price|apply european_ready|assumption|lia|lia|assumption|assumption|assumption]. clear H.
    apply f_equal. unfold average. rewrite L, INR_IZR_INZ, Z2Nat.id by lia. apply (f_equal (fun x : R => x / IZR n_paths)). apply (batches_total ts (paid m T k t)).
  - destruct (C89_european f_log f_sqrt f_exp f_pow N n m T k t HN Hs HT Hk Ht Hv Hf) as (x & v & Ex & H). exists x, v. split; [exact Ex|]. apply H. lia.
Qed.
(** With Sobol numbers it is the average over the first vectors of the sequence. *)
Theorem C89_value_sobol N n years today day m k t method use_bb n_paths pool order vector : let T := years (day - today)%Z in
  normal_law N n -> 0 < BsModel.b_spot m -> 0 < T -> 0 < k -> t = Call \/ t = Put -> epsilon <= BsModel.b_vol m * sqrt T -> epsilon <= forward m T * k ->
  same_up_to_case method (lit "sobol") -> (0 < n_paths < 2 ^ 31)%Z -> ~ (n_paths = 2 ^ 31 - 1 /\ (pool <= 1)%nat)%Z ->
  sequence sobol_skip sobol_fill vector (sobol_new 1) -> (forall k, List.length (vector k) = 1%nat) -> (forall v, List.length v = 1%nat -> List.length (bridged v) = 1%nat) ->
  (forall ts, tasks n_paths (Z.of_nat (num_threads pool)) = Ok ts -> some_schedule pool (List.length ts) order) ->
  let vectors := map (fun i => map real_of (dressed bridged use_bb (vector (Z.of_nat i)))) (seq 0 (Z.to_nat n_paths)) in
  value years today m [] [day] (european t k) method use_bb n_paths pool order = Ok (average (paid m T k t) vectors) /\
  List.length vectors = Z.to_nat n_paths /\ unbiased N n m T k t (Z.to_nat n_paths).
Proof.
  intros T HN Hs HT Hk Ht Hv Hf Em Hn Hx Hq Hl Hb Ho vectors.
  assert (L : List.length vectors = Z.to_nat n_paths) by (unfold vectors; now rewrite map_length, seq_length).
  split; [|split; [exact L|]].
  - pose proof (C87_bs_sobol f_log f_sqrt f_exp f_pow sobol_skip sobol_fill sobol_new inverse_ncdf bridged years today m [] [day] (european t k) (lit "pay") method use_bb n_paths pool order vector) as H.
    cbv zeta in H. cbn [map] in H. fold T in H. rewrite (one_time T HT) in H. rewrite H; [|now apply C88_can_price|apply european_ready|assumption|lia|assumption|assumption|assumption|assumption|assumption]. clear H.
    apply f_equal. unfold average. rewrite L, INR_IZR_INZ, Z2Nat.id by lia. apply (f_equal (fun x : R => x / IZR n_paths)). apply (sum_total (Z.to_nat n_paths) (paid m T k t)).
  - destruct (C89_european f_log f_sqrt f_exp f_pow N n m T k t HN Hs HT Hk Ht Hv Hf) as (x & v & Ex & H). exists x, v. split; [exact Ex|]. apply H. lia.
Qed.
End Value.
Print Assumptions C89_value_mrg32.
Print Assumptions C89_value_sobol.
(** a year, 20 per cent, 5 per cent, strike 110, 2500 paths on three threads *)
Example C89_value_case : let T := v_years (465 - 100) in let m := p_model in
  (exists N n, normal_law N n) /\ 0 < T /\ epsilon <= BsModel.b_vol m * sqrt T /\ epsilon <= forward m T * 110 /\ same_up_to_case (lit "MRG32") (lit "mrg32") /\
  tasks 2500 (Z.of_nat (num_threads 3)) = Ok [(0, 1024); (1024, 1024); (2048, 452)]%Z /\ some_schedule 3 3 [(2, 0); (1, 2); (0, 0)]%nat /\
  sequence p_skip (fun g => Ok ([fl_of_Z g], g + 1)%Z) (fun n => [fl_of_Z n]) 0%Z.
Proof.
  assert (E : v_years (465 - 100) = 1) by (unfold v_years; cbn; lra). cbn zeta. rewrite E. destruct C88_european_case as (A & B). destruct C87_case as (_ & _ & _ & _ & _ & Ct & Co).
  split; [apply normal_law_exists|]. split; [lra|]. split; [exact A|]. split; [exact B|]. split; [apply ci_eqb_iff; reflexivity|]. split; [exact Ct|]. split; [exact Co|].
  exists (fun g n => g = n). split; [eauto|]. split; [intros g n k -> _; exists k; split; reflexivity|]. intros g n ->. exists (n + 1)%Z. split; reflexivity.
Qed.
