(** C35: waiting for tasks cannot deadlock. *)
From Coq Require Import List Arith Bool Lia Wf_nat FinFun.
From Verif Require Import Base Vec SimModel PoolModel PoolSpec PoolProofs.
Import ListNotations.

(** In every state reached by any number of threads in any schedule, when tasks wait only for tasks they spawned themselves,
    some thread can take a step unless the program has ended and nothing is left to do. *)
Theorem C35_no_deadlock : forall n program s, own 0 0 program -> steps (start n program) s -> (exists t, step s t) \/ complete s.
Proof. intros n b s Hb H. apply progress. eapply steps_inv; eauto. Qed.
(** Every schedule ends: no execution takes infinitely many steps (whatever the futures waited for). *)
Theorem C35_terminates : forall s, Acc (fun t s => step s t) s.
Proof. intros s. induction s as [s IH] using (well_founded_induction (well_founded_ltof _ weight)). constructor. intros t H. apply IH. unfold ltof. now apply step_weight. Qed.
(** So every schedule that runs as long as some thread can run ends with everything done. *)
Theorem C35_always_completes : forall n program s, own 0 0 program -> steps (start n program) s -> (forall t, ~ step s t) -> complete s.
Proof. intros n b s Hb H Hs. destruct (C35_no_deadlock n b s Hb H) as [[t Ht]|]; [exfalso; exact (Hs t Ht)|assumption]. Qed.
(** Every thread number is below the number of threads. *)
Theorem C35_thread_numbers : forall n, 0 < n -> Forall (fun i => i < num_threads n) (thread_numbers n) /\ NoDup (thread_numbers n).
Proof.
  intros n Hn. unfold thread_numbers, num_threads. split.
  - constructor; [lia|]. apply Forall_forall. intros i Hi. apply in_map_iff in Hi as (j & <- & Hj). apply in_seq in Hj. lia.
  - constructor; [intros Hi; apply in_map_iff in Hi as (j & E & _); lia|]. apply FinFun.Injective_map_NoDup; [intros a b E; lia|apply seq_NoDup].
Qed.
(** Finding: a task that waits for a task spawned by another can block for ever.  The program spawns a and b and waits for both;
    a spawns c and waits for it; b waits for a.  Helping runs b on top of a. *)
Definition foreign : body := Spawn (Spawn End (Wait 0 End)) (Spawn (Wait 0 End) (Wait 0 (Wait 1 End))).
Theorem C35_foreign_wait_refuted : known 0 foreign /\ exists s, steps (start 1 foreign) s /\ (forall t, ~ step s t) /\ ~ complete s.
Proof.
  split; [cbn; lia|].
  exists (State 4 [] [3] [Stack false [Frame 2 [1] (Wait 0 End) Block; Frame 1 [3] (Wait 0 End) Go; Frame 0 [1; 2] (Wait 0 (Wait 1 End)) Go]]).
  assert (NS : forall n q f l, (forall j, nth_error l j <> Some Sleep) -> forall j, ~ at_ (State n q f l) j Sleep) by (intros n q f l H j; apply H).
  assert (N1 : forall t : list frame, forall j, nth_error [Stack false t] j <> Some Sleep) by (intros t [|[|]]; discriminate).
  split; [|split].
  - assert (SL : forall s0 s1 s2, step s0 s1 -> steps s1 s2 -> steps s0 s2). { intros s0 s1 s2 A B. induction B as [|a b c B IH Hb]; [eapply more; [apply done|exact A]|]. eapply more; [now apply IH|exact Hb]. }
    unfold start, foreign. cbn [repeat Nat.sub].
    (* main: spawn a, spawn b, wait for a, help *)
    eapply SL; [eapply (spawn_ 0); reflexivity|]. cbn.
    eapply SL; [eapply (notify_nobody 0); [reflexivity|apply NS, N1]|]. cbn.
    eapply SL; [eapply (spawn_ 0); reflexivity|]. cbn.
    eapply SL; [eapply (notify_nobody 0); [reflexivity|apply NS, N1]|]. cbn.
    eapply SL; [eapply (not_ready 0); [reflexivity|reflexivity|cbn; intuition discriminate]|]. cbn.
    eapply SL; [eapply (help 0); reflexivity|]. cbn.
    (* a: spawn c, wait for it, help *)
    eapply SL; [eapply (spawn_ 0); reflexivity|]. cbn.
    eapply SL; [eapply (notify_nobody 0); [reflexivity|apply NS, N1]|]. cbn.
    eapply SL; [eapply (not_ready 0); [reflexivity|reflexivity|cbn; intuition discriminate]|]. cbn.
    eapply SL; [eapply (help 0); reflexivity|]. cbn.
    (* b: wait for a, help with c *)
    eapply SL; [eapply (not_ready 0); [reflexivity|reflexivity|cbn; intuition discriminate]|]. cbn.
    eapply SL; [eapply (help 0); reflexivity|]. cbn.
    eapply SL; [eapply (finish 0); reflexivity|]. cbn.
    (* b: wait for a, nothing to help with *)
    eapply SL; [eapply (not_ready 0); [reflexivity|reflexivity|cbn; intuition discriminate]|]. cbn.
    eapply SL; [eapply (nothing_to_do 0); reflexivity|]. cbn.
    apply done.
  - assert (OnlyOne : forall (t0 : thread) i t, nth_error [t0] i = Some t -> t = t0) by (intros t0 [|[|]] t; cbn; congruence).
    intros t Hs. inversion Hs; subst; match goal with H : at_ _ _ _ |- _ => unfold at_ in H; cbn [threads] in H; apply OnlyOne in H; inversion H; subst end; try discriminate.
    match goal with H : nth_error [1] 0 = Some _ |- _ => injection H as <- end. cbn in *. intuition discriminate.
  - intros [H _]. destruct (H 0 _ eq_refl); discriminate.
Qed.
Print Assumptions C35_no_deadlock.
Print Assumptions C35_terminates.
Print Assumptions C35_always_completes.
Print Assumptions C35_thread_numbers.
Print Assumptions C35_foreign_wait_refuted.
(** a parallel simulation with three tasks, one of which spawns and waits itself, on four threads *)
Example C35_example : own 0 0 (Spawn End (Spawn (Spawn End (Wait 1 End)) (Spawn End (Wait 0 (Wait 1 (Wait 2 End)))))).
Proof. cbn. lia. Qed.
Example C35_example_thread_numbers : thread_numbers 4 = [0; 1; 2; 3] /\ num_threads 4 = 4.
Proof. split; reflexivity. Qed.
