(** C85: the numbers a simulation draws do not depend on which thread runs which task, nor in which order. *)
From Coq Require Import List ZArith Bool Permutation Lia String.
From Coq Require Import Floats.SpecFloat.
From Verif Require Import DateModel Base Vec StringModel StringSpec StringProofs SimModel SimProofs SimProps RandomModel RandomSpec RandomProofs DrawModel DrawSpec DrawProofs.
Import ListNotations.
Open Scope Z_scope.

Section Created.
Context {B : Type}.
Variable sobol_skip : Z -> B -> outcome B.
Variable sobol_fill : B -> outcome (list spec_float * B).
Variable sobol_new : nat -> B.
Variable inverse_ncdf : spec_float -> spec_float.
Variable bridged : list spec_float -> list spec_float.
Notation draws_of := (simulation_draws sobol_skip sobol_fill sobol_new inverse_ncdf bridged).
Definition dressed (use_bb : bool) (v : list spec_float) : list spec_float := if use_bb then bridged v else v.

(** With the Sobol generator, if it keeps to one sequence, path n has vector n of the sequence: whatever the schedule, and however many
    threads there are. *)
Theorem C85_sobol : forall method dim use_bb n pool ts order vector, same_up_to_case method (lit "sobol") -> sequence sobol_skip sobol_fill vector (sobol_new dim) ->
  0 <= n < 2 ^ 31 -> (0 < pool)%nat -> ~ (n = 2 ^ 31 - 1 /\ pool = 1%nat) ->
  tasks n (Z.of_nat (num_threads pool)) = Ok ts -> some_schedule pool (Datatypes.length ts) order ->
  exists res, draws_of method dim use_bb n pool order = Ok res /\ List.concat res = map (fun p => dressed use_bb (vector p)) (zrange 0 (Z.to_nat n)).
Proof.
  intros method dim use_bb n pool ts order vector Em%ci_eqb_iff (stands & (n0 & H0) & Hskip & Hfill) Hn Hp Hlim Et Hs. unfold simulation_draws, kind_of. rewrite Em. cbn [obind].
  set (dress := if use_bb then bridged else fun v => v).
  rewrite (simulate_ok sobol_skip sobol_fill dress stands (fun z => z) (fun z => z + 1) vector (fun z => 0 <= z)) with (ts := ts);
    [|intros g p m; apply Hskip|exact Hfill|exists n0; exact H0|exact Et| |exact Hs].
  - eexists. split; [reflexivity|]. destruct (C21_partition n (Z.of_nat (num_threads pool)) Hn) as (l & room & E & _ & C & _); [unfold num_threads; lia|unfold num_threads; lia|].
    rewrite Et in E. injection E as <-. rewrite <- C, concat_map, map_map. f_equal. apply map_ext. intros t. unfold task_draws, paths_of, path_of. rewrite zrange_map, map_map. apply map_ext. intros i.
    rewrite iter_succ. unfold dressed, dress. destruct use_bb; reflexivity.
  - eapply Forall_impl; [|exact (task_firsts _ _ _ Hn Et)]. cbn beta. lia.
Qed.

(** With mrg32 the vector of a path depends on the first path of its task and on its place in the task only. *)
Theorem C85_mrg32 : forall method dim use_bb n pool ts order, same_up_to_case method (lit "mrg32") -> 0 <= n < 2 ^ 31 -> n * Z.of_nat dim < 2 ^ 64 ->
  tasks n (Z.of_nat (num_threads pool)) = Ok ts -> some_schedule pool (Datatypes.length ts) order ->
  draws_of method dim use_bb n pool order = Ok (map (fun t => map (fun i => dressed use_bb (mrg_vector inverse_ncdf dim (fst t) i)) (seq 0 (Z.to_nat (snd t)))) ts).
Proof.
  intros method dim use_bb n pool ts order Em%ci_eqb_iff Hn Hd Et Hs. unfold simulation_draws, kind_of.
  rewrite (other _ _ (lit "sobol") Em eq_refl), Em. cbn [obind]. set (dress := if use_bb then bridged else fun v => v).
  rewrite (simulate_ok (skip_to mrg_skip) (fill_normal mrg_next inverse_ncdf dim) dress (mrg_stands dim) (fun z => Z.to_nat (z * Z.of_nat dim / 2)) (fun k => k + dim)%nat
    (fun k => map inverse_ncdf (map (deviate 1024 1025) (seq k dim))) (fun z => 0 <= z <= n)) with (ts := ts);
    [|intros g p m Hg Hm; apply (mrg_skip_stands _ _ p); [exact Hg|nia]|intros g p; apply mrg_fill_stands|exists 0%nat; apply mrg_stands_new|exact Et|exact (task_firsts _ _ _ Hn Et)|exact Hs].
  f_equal. apply map_ext. intros t. unfold task_draws, path_of. apply map_ext. intros i. rewrite iter_add. unfold mrg_vector, dressed, dress. destruct use_bb; reflexivity.
Qed.

(** With irn and a single task (one thread, or no more than 1024 paths), the vectors are the first n the generator makes. *)
Theorem C85_irn_one_task : forall method dim use_bb n pool, same_up_to_case method (lit "irn") ->
  tasks n (Z.of_nat (num_threads pool)) = Ok [(0, n)] ->
  exists g vs, irn_of_seed 1024 = Ok g /\ normals irn_next inverse_ncdf (Z.to_nat n) (rng_new g dim) = Ok vs /\
    forall order, some_schedule pool 1 order -> draws_of method dim use_bb n pool order = Ok [map (dressed use_bb) vs].
Proof.
  intros method dim use_bb n pool Em%ci_eqb_iff Et. destruct (irn_new_ok 1024) as (g & Eg & Hg). exists g.
  set (dress := if use_bb then bridged else fun v => v).
  destruct (irn_fills_ok inverse_ncdf dress dim (Z.to_nat n) (rng_new g dim)) as (vs & g' & Ef & En & _); [apply repeat_length|exact Hg|].
  exists vs. split; [exact Eg|]. split; [exact En|]. intros order [Pm F]. unfold simulation_draws, kind_of.
  rewrite (other _ _ (lit "sobol") Em eq_refl), (other _ _ (lit "mrg32") Em eq_refl), Em, Eg. cbn [obind]. fold dress. unfold simulate. rewrite Et. cbn [obind Datatypes.length repeat].
  destruct order as [|[k th] r]; [apply Permutation_length in Pm; discriminate|]. destruct r as [|x r]; [|apply Permutation_length in Pm; discriminate].
  cbn [map fst seq] in Pm. apply Permutation_length_1 in Pm. subst k. inversion F as [|? ? Ht _]; subst. cbn [snd] in Ht.
  assert (Hth : (th < num_threads pool)%nat) by (unfold thread_numbers, num_threads in *; destruct Ht as [<-|Ht]; [lia|]; apply in_map_iff in Ht as (i & <- & Hi); apply in_seq in Hi; lia).
  cbn [run_draws get nth_error]. rewrite (get_ok _ th (rng_new g dim)) by (now rewrite repeat_length). rewrite nth_repeat. cbn [obind fst snd]. rewrite irn_skip_id. cbn [obind]. rewrite Ef. cbn [obind fst snd].
  rewrite put_ok by (now rewrite repeat_length). cbn [obind]. unfold put. cbn. do 2 f_equal. apply map_ext. intros v. unfold dressed, dress. destruct use_bb; reflexivity.
Qed.

(** With irn and several tasks it does depend: 1025 paths, a pool of two threads.  The last path has the generator's last vector when its
    task is run last by the thread that ran the other, its first vector when its task is run by another thread, or before the other. *)
Theorem C85_irn_refuted : forall dim use_bb, tasks 1025 (Z.of_nat (num_threads 2)) = Ok [(0, 1024); (1024, 1)] /\
  exists g vs, irn_of_seed 1024 = Ok g /\ normals irn_next inverse_ncdf 1025 (rng_new g dim) = Ok vs /\ Datatypes.length vs = 1025%nat /\
    draws_of (lit "irn") dim use_bb 1025 2 [(0, 0); (1, 0)]%nat = Ok [map (dressed use_bb) (firstn 1024 vs); map (dressed use_bb) (skipn 1024 vs)] /\
    draws_of (lit "irn") dim use_bb 1025 2 [(0, 0); (1, 1)]%nat = Ok [map (dressed use_bb) (firstn 1024 vs); map (dressed use_bb) (firstn 1 vs)] /\
    draws_of (lit "irn") dim use_bb 1025 2 [(1, 0); (0, 0)]%nat = Ok [map (dressed use_bb) (skipn 1 vs); map (dressed use_bb) (firstn 1 vs)].
Proof.
  intros dim use_bb. assert (Et : tasks 1025 (Z.of_nat (num_threads 2)) = Ok [(0, 1024); (1024, 1)]) by (vm_compute; reflexivity). split; [exact Et|].
  destruct (irn_new_ok 1024) as (g & Eg & Hg). exists g.
  set (dress := if use_bb then bridged else fun v => v). set (fill := fill_normal irn_next inverse_ncdf dim).
  assert (Ed : forall l, map dress l = map (dressed use_bb) l) by (intros l; apply map_ext; intros v; unfold dressed, dress; destruct use_bb; reflexivity).
  assert (L0 : Datatypes.length (cache (rng_new g dim)) = dim) by apply repeat_length.
  destruct (irn_fills_ok inverse_ncdf dress dim (Z.to_nat 1024) (rng_new g dim) L0 Hg) as (v1 & g1 & E1 & _ & Lv1 & L1 & H1 & N1).
  destruct (irn_fills_ok inverse_ncdf dress dim (Z.to_nat 1) g1 L1 H1) as (v2 & g2 & E2 & M2 & Lv2 & _).
  destruct (irn_fills_ok inverse_ncdf dress dim (Z.to_nat 1) (rng_new g dim) L0 Hg) as (w1 & h1 & F1 & _ & Lw1 & K1 & J1 & P1).
  destruct (irn_fills_ok inverse_ncdf dress dim (Z.to_nat 1024) h1 K1 J1) as (w2 & h2 & F2 & Q2 & Lw2 & _).
  specialize (N1 (Z.to_nat 1)). specialize (P1 (Z.to_nat 1024)). rewrite M2 in N1. rewrite Q2 in P1. cbn [obind] in N1, P1.
  assert (S1 : (Z.to_nat 1024 + Z.to_nat 1 = 1025)%nat) by reflexivity. assert (S2 : (Z.to_nat 1 + Z.to_nat 1024 = 1025)%nat) by reflexivity. rewrite S1 in N1. rewrite S2 in P1.
  assert (Ew : v1 ++ v2 = w1 ++ w2) by congruence. change (Z.to_nat 1024) with 1024%nat in Lv1. change (Z.to_nat 1) with 1%nat in Lw1.
  exists (v1 ++ v2). split; [exact Eg|]. split; [exact N1|]. split; [rewrite app_length, Lv1, Lv2; reflexivity|].
  assert (A1 : firstn 1024 (v1 ++ v2) = v1) by (rewrite <- Lv1; apply front).
  assert (A2 : skipn 1024 (v1 ++ v2) = v2) by (rewrite <- Lv1; apply rest_of).
  assert (A3 : firstn 1 (v1 ++ v2) = w1) by (rewrite Ew, <- Lw1; apply front).
  assert (A4 : skipn 1 (v1 ++ v2) = w2) by (rewrite Ew, <- Lw1; apply rest_of).
  rewrite A1, A2, A3, A4, <- !Ed. fold fill in E1, E2, F1, F2. unfold simulation_draws. change (kind_of (lit "irn")) with (Ok KIrn). cbn [obind]. rewrite Eg. cbn [obind]. fold dress fill.
  unfold simulate. rewrite Et. cbn [obind]. change (num_threads 2) with 2%nat. cbn [repeat Datatypes.length].
  split; [|split]; cbn [run_draws get put nth_error set_nth obind fst snd Datatypes.length Nat.ltb Nat.leb]; rewrite ?irn_skip_id; cbn [obind].
  - rewrite E1. cbn [obind fst snd get put nth_error set_nth Datatypes.length Nat.ltb Nat.leb]. rewrite ?irn_skip_id. cbn [obind]. rewrite E2. reflexivity.
  - rewrite E1. cbn [obind fst snd get put nth_error set_nth Datatypes.length Nat.ltb Nat.leb]. rewrite ?irn_skip_id. cbn [obind]. rewrite F1. reflexivity.
  - rewrite F1. cbn [obind fst snd get put nth_error set_nth Datatypes.length Nat.ltb Nat.leb]. rewrite ?irn_skip_id. cbn [obind]. rewrite F2. reflexivity.
Qed.

(** Any other name is refused; the three names are taken in upper and lower case. *)
Theorem C85_names : forall method dim use_bb n pool order,
  ~ same_up_to_case method (lit "sobol") -> ~ same_up_to_case method (lit "mrg32") -> ~ same_up_to_case method (lit "irn") ->
  draws_of method dim use_bb n pool order = Throw.
Proof.
  intros method dim use_bb n pool order H1 H2 H3. unfold simulation_draws, kind_of. rewrite <- ci_eqb_iff in H1, H2, H3.
  destruct (ci_eqb method (lit "sobol")); [now destruct H1|]. destruct (ci_eqb method (lit "mrg32")); [now destruct H2|]. destruct (ci_eqb method (lit "irn")); [now destruct H3|]. reflexivity.
Qed.
End Created.
(** and these vectors are not the same: the first number of the simulation (before the inverse distribution is applied), in two schedules. *)
Theorem C85_irn_first_refuted : forall (skip : Z -> unit -> outcome unit) fill new, exists a b,
  simulation_draws skip fill new (fun u => u) (fun v => v) (lit "irn") 1 false 1025 2 [(0, 0); (1, 0)]%nat = Ok a /\
  simulation_draws skip fill new (fun u => u) (fun v => v) (lit "irn") 1 false 1025 2 [(1, 0); (0, 0)]%nat = Ok b /\ a <> b.
Proof.
  intros skip fill new. destruct (C85_irn_refuted skip fill new (fun u => u) (fun v => v) 1 false) as (_ & g & vs & Eg & En & L & E1 & _ & E3). eexists _, _. split; [exact E1|]. split; [exact E3|].
  destruct vs as [|x [|y vs]]; [discriminate L|discriminate L|]. intros H. assert (Hxy : x = y).
  { apply (f_equal (fun l => nth 0 (nth 0 l []) [])) in H. cbn [nth skipn] in H. change (firstn 1024 (x :: y :: vs)) with (x :: firstn 1023 (y :: vs)) in H. cbn [map nth] in H. unfold dressed in H. rewrite H. destruct vs; reflexivity. }
  destruct (two_ok g vs x y Eg En) as (u & v & E2 & Hx & Hy). pose proof two_differ as D. rewrite E2 in D. apply D. congruence.
Qed.
Print Assumptions C85_sobol.
Print Assumptions C85_mrg32.
Print Assumptions C85_irn_one_task.
Print Assumptions C85_irn_refuted.
Print Assumptions C85_irn_first_refuted.
Print Assumptions C85_names.
(** 2500 paths on three threads: the tasks run backwards, two of them by the waiting thread; a counter for the Sobol sequence *)
Definition counter_skip (n : Z) (g : Z) : outcome Z := Ok n.
Definition counter_fill (g : Z) : outcome (list spec_float * Z) := Ok ([fl_of_Z g], g + 1).
Example C85_case : sequence counter_skip counter_fill (fun n => [fl_of_Z n]) 0 /\ same_up_to_case (lit "Sobol") (lit "sobol") /\ same_up_to_case (lit "MRG32") (lit "mrg32") /\
  tasks 2500 (Z.of_nat (num_threads 3)) = Ok [(0, 1024); (1024, 1024); (2048, 452)] /\ some_schedule 3 3 [(2, 0); (1, 2); (0, 0)]%nat /\
  (exists res, simulation_draws counter_skip counter_fill (fun _ => 0) (fun u => u) (@rev _) (lit "Sobol") 1 true 2500 3 [(2, 0); (1, 2); (0, 0)]%nat = Ok res /\
     nth 2 res [] = map (fun n => [fl_of_Z n]) (zrange 2048 452)) /\
  tasks 1000 (Z.of_nat (num_threads 3)) = Ok [(0, 1000)] /\ some_schedule 3 1 [(0, 2)]%nat.
Proof.
  split; [|split; [apply ci_eqb_iff; reflexivity|split; [apply ci_eqb_iff; reflexivity|split; [vm_compute; reflexivity|split; [|split; [|split; [vm_compute; reflexivity|]]]]]]].
  - exists (fun g n => g = n). split; [eauto|]. split; [intros g n m -> _; exists m; split; reflexivity|]. intros g n ->. exists (n + 1). split; reflexivity.
  - split; [cbn; apply (Permutation_rev [2; 1; 0]%nat)|repeat (apply Forall_cons; [cbn; auto|]); apply Forall_nil].
  - eexists. split; vm_compute; reflexivity.
  - split; [cbn; apply Permutation_refl|repeat (apply Forall_cons; [cbn; auto|]); apply Forall_nil].
Qed.
