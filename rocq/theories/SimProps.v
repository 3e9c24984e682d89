(** C21: the batches of the parallel simulation. *)
From Coq Require Import ZArith List Bool Lia ZifyBool Permutation.
From Verif Require Import Base Vec SimModel SimProofs RandomModel RandomProps.
Import ListNotations.
Open Scope Z_scope.

(** For every number of paths an int can hold (one value excepted, see below) and of threads: the tasks cover the paths
    0 .. n-1 in order, each once; no task is empty; and the room reserved for the results is enough, so that the references
    tasks hold to their results stay valid. *)
Theorem C21_partition : forall n t, 0 <= n < 2 ^ 31 -> 0 < t -> ~ (n = 2 ^ 31 - 1 /\ t = 1) ->
  exists l room, tasks n t = Ok l /\ reserved n t = Ok room /\ concat (map paths_of l) = zrange 0 (Z.to_nat n) /\ Forall (fun x => 0 < snd x) l /\ Z.of_nat (length l) <= room.
Proof.
  intros n t Hn Ht H. destruct (batch_size_ok n t Hn Ht H) as (bs & E & Hb). unfold tasks, reserved. rewrite E. cbn [obind]. rewrite to_int_id by lia.
  destruct (spawn_ok bs ltac:(lia) (Z.to_nat n) 0 n) as (l & El & C & F & L); [lia|]. exists l, (n / bs + 1). split; [exact El|]. split; [reflexivity|]. split; [exact C|]. split; [eapply Forall_impl; [|exact F]; cbn; lia|].
  assert ((n + bs - 1) / bs <= n / bs + 1). { replace (n / bs + 1) with ((n + 1 * bs) / bs) by (rewrite Z.div_add; lia). apply Z.div_le_mono; lia. } assert (0 <= n / bs) by (apply Z.div_pos; lia). lia.
Qed.
(** Whatever order the tasks are run in and whatever thread of the pool runs each, no per-thread area is indexed out of
    range and the results together contain every path 0 .. n-1 exactly once. *)
Theorem C21_every_path_once : forall n pool ts order, 0 <= n < 2 ^ 31 -> (0 < pool)%nat -> ~ (n = 2 ^ 31 - 1 /\ pool = 1%nat) ->
  tasks n (Z.of_nat (num_threads pool)) = Ok ts -> Permutation (map fst order) (seq 0 (length ts)) -> Forall (fun p => In (snd p) (thread_numbers pool)) order ->
  (exists res, run_double ts order (num_threads pool) (repeat [] (length ts)) = Ok res /\ Permutation (concat res) (zrange 0 (Z.to_nat n))) /\
  (exists res, run_aad ts order (repeat [] (num_threads pool)) = Ok res /\ Permutation (concat res) (zrange 0 (Z.to_nat n))).
Proof.
  intros n pool ts order Hn Hp H Et Ho Hth. destruct (C21_partition n (Z.of_nat (num_threads pool)) Hn) as (l & room & El & _ & C & _ & _); [unfold num_threads; lia|unfold num_threads; intros [A B]; apply H; split; [exact A|lia]|].
  rewrite Et in El. injection El as <-.
  assert (Ht : Forall (fun p => (fst p < length ts)%nat /\ (snd p < num_threads pool)%nat) order).
  { apply Forall_forall. intros p Hin. split.
    - assert (In (fst p) (seq 0 (length ts))) by (rewrite <- Ho; now apply in_map). rewrite in_seq in *. lia.
    - rewrite Forall_forall in Hth. apply Hth in Hin. destruct Hin as [<-|Hin]; [unfold num_threads; lia|]. apply in_map_iff in Hin as (i & <- & Hi). rewrite in_seq in Hi. unfold num_threads. lia. }
  split.
  - destruct (run_double_ok ts (num_threads pool) order (repeat [] (length ts))) as (res & E & _ & P); [apply repeat_length|exact Ht|]. exists res. split; [exact E|]. rewrite P, concat_repeat_nil. cbn [app]. rewrite <- C. now apply concat_order.
  - destruct (run_aad_ok ts order (repeat [] (num_threads pool))) as (res & E & _ & P); [rewrite repeat_length; exact Ht|]. exists res. split; [exact E|]. rewrite P, concat_repeat_nil. cbn [app]. rewrite <- C. now apply concat_order.
Qed.
(** Finding: with the MRG generator a later batch uses the normals of an earlier path again: with 1025 paths and two threads
    path 1024, alone in the second batch, is simulated with the numbers of path 512. *)
Theorem C21_numbers_reused_refuted : tasks 1025 2 = Ok [(0, 1024); (1024, 1)] /\
  forall seed d icdf, Z.of_nat d < 2 ^ 50 -> let fresh := rng_new (mrg_of_seed seed) d in
  exists l s, normals mrg_next icdf 513 fresh = Ok l /\ skip_to mrg_skip 1024 fresh = Ok s /\ normals mrg_next icdf 1 s = Ok (skipn 512 l).
Proof.
  split; [vm_compute; reflexivity|]. intros seed d icdf Hd. cbn zeta. apply (C22_normals_repeat_refuted icdf seed d 512 1). lia.
Qed.
(** Finding: INT_MAX paths on one thread overflow the batch size; 2^31 paths or more simulate nothing or fewer paths. *)
Theorem C21_limits_refuted : tasks (2 ^ 31 - 1) 1 = UB /\ tasks (2 ^ 31) 4 = Ok [] /\ tasks (2 ^ 32 + 5) 4 = Ok [(0, 5)].
Proof. split; [reflexivity|]. split; vm_compute; reflexivity. Qed.
Print Assumptions C21_partition.
Print Assumptions C21_every_path_once.
Print Assumptions C21_numbers_reused_refuted.
Print Assumptions C21_limits_refuted.
Example C21_example : tasks 5000 3 = Ok [(0, 1667); (1667, 1667); (3334, 1666)] /\ thread_numbers 3 = [0; 1; 2]%nat /\
  Permutation (map fst [(2, 0); (0, 1); (1, 1)]%nat) (seq 0 3) /\ Forall (fun p => In (snd p) (thread_numbers 3)) [(2, 0); (0, 1); (1, 1)]%nat.
Proof.
  split; [vm_compute; reflexivity|]. split; [reflexivity|]. split.
  - cbn. change [2; 0; 1]%nat with ([2] ++ [0; 1])%nat. change [0; 1; 2]%nat with ([0; 1] ++ [2])%nat. apply Permutation_app_comm.
  - repeat constructor; cbn; tauto.
Qed.
