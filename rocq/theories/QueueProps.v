(** C34: the work queue. *)
From Coq Require Import List Arith Bool Lia.
From Verif Require Import Base Vec QueueModel QueueSpec QueueProofs.
Import ListNotations.
Section Props.
Context {V : Type}.
(** Every interleaving of any number of threads has the effect of performing the calls one after the other, in the order
    in which they take effect, on a first-in first-out queue. *)
Theorem C34_linearizable : forall n es (s : state V), steps (start n) es s -> obeys_all ([], false) es (queue s, intr s).
Proof. intros n es s H. apply (steps_obeys _ _ _ H). Qed.
(** Each task pushed is popped at most once, in push order, and is otherwise still in the queue. *)
Theorem C34_fifo_exactly_once : forall n es (s : state V), steps (start n) es s -> pushes es = pops es ++ queue s.
Proof. intros n es s H. apply (obeys_fifo _ _ _ (steps_obeys _ _ _ H)). Qed.
Lemma fail_after a es b : obeys_all (V := V) a es b -> snd a = false -> (snd b = true -> In Interrupted es) /\ forall x y, es = x ++ PopFailed :: y -> In Interrupted x.
Proof.
  intros H Ha. induction H as [a|a b c es e H IH Ho]; [split; [congruence|intros [] y; discriminate]|]. destruct (IH Ha) as [IH1 IH2]. split.
  - intros Hc. destruct Ho; cbn in *; apply in_or_app; auto. right. now left.
  - intros x y E. destruct y as [|z y] using rev_ind.
    + apply app_inj_tail in E as [<- ->]. inversion Ho; subst. apply IH1. reflexivity.
    + clear IHy. rewrite app_comm_cons, app_assoc in E. apply app_inj_tail in E as [E _]. eapply IH2. exact E.
Qed.
(** Pop returns without a task only after an interruption. *)
Theorem C34_pop_fails_only_after_interrupt : forall n (a b : list (event V)) s, steps (start n) (a ++ PopFailed :: b) s -> In Interrupted a.
Proof. intros n a b s H. apply steps_obeys in H. apply fail_after in H as [_ H]; [|reflexivity]. eapply H. reflexivity. Qed.
(** At most one thread is inside a critical section, and a thread that waits for the mutex finds it free or held by a thread
    inside a critical section (which every rule lets proceed and release it). *)
Theorem C34_mutual_exclusion : forall n es (s : state V), steps (start n) es s ->
  (forall i j p q, at_ s i p -> at_ s j q -> inside p = true -> inside q = true -> i = j) /\
  (lock s = None \/ exists j q, lock s = Some j /\ at_ s j q /\ inside q = true).
Proof.
  intros n es s H. destruct (steps_inv n es s H) as [M _]. split.
  - intros i j p q Hp Hq Ip Iq. pose proof (M i p Hp Ip). pose proof (M j q Hq Iq). congruence.
  - destruct (lock s) as [j|] eqn:E; [right|now left]. destruct (steps_holder n es s H j E) as (q & Hq & Iq). exists j, q. auto.
Qed.
(** No wake-up is lost: if every thread is either outside the queue or asleep in Pop, then no thread sleeps while there is a
    task or an interruption. *)
Theorem C34_no_lost_wakeup : forall n es (s : state V), steps (start n) es s -> (forall i p, at_ s i p -> p = Idle \/ p = Asleep) ->
  asleep s -> queue s = [] /\ intr s = false.
Proof.
  intros n es s H Hq Ha. destruct (steps_inv n es s H) as [_ [A B]]. destruct (intr s).
  - destruct (A eq_refl Ha) as [i Hi]. destruct (Hq i _ Hi); discriminate.
  - split; [|reflexivity]. specialize (B eq_refl Ha). assert (C : count helpers (pcs s) = 0).
    { unfold count. replace (filter helpers (pcs s)) with (@nil (pc V)); [reflexivity|]. symmetry. assert (F : forall p, In p (pcs s) -> helpers p = false). { intros p Hp. apply In_nth_error in Hp as [i Hi]. destruct (Hq i p Hi); subst; reflexivity. }
      clear - F. induction (pcs s) as [|x l IH]; [reflexivity|]. cbn. rewrite (F x) by now left. apply IH. intros p Hp. apply F. now right. }
    rewrite C in B. destruct (queue s); [reflexivity|cbn in B; lia].
Qed.
End Props.
Print Assumptions C34_linearizable.
Print Assumptions C34_fifo_exactly_once.
Print Assumptions C34_pop_fails_only_after_interrupt.
Print Assumptions C34_mutual_exclusion.
Print Assumptions C34_no_lost_wakeup.
(** thread 1 sleeps in Pop, thread 0 pushes 7 and wakes it, thread 1 pops 7 *)
Example C34_example : exists s, steps (start 2) [Pushed 7; Popped 7] s /\ queue s = [].
Proof.
  assert (G : forall s0 es s1 e s2, steps (start (V := nat) 2) es s0 -> step s0 e s1 -> s2 = s1 -> steps (start 2) (es ++ e) s2). { intros ? ? ? ? ? A B ->. eapply more; eauto. }
  eexists. split.
  change [Pushed 7; Popped 7] with (((((((((([] ++ []) ++ []) ++ []) ++ []) ++ []) ++ [Pushed 7]) ++ []) ++ []) ++ [Popped 7])).
  - eapply more. eapply more. eapply more. eapply more. eapply more. eapply more. eapply more. eapply more. eapply more. apply done.
    + apply (call 1 WantPop); [reflexivity|exact I].
    + eapply (acquire 1 WantPop InPop); [reflexivity|exact I|reflexivity].
    + eapply (pop_wait 1); reflexivity.
    + apply (call 0 (WantPush 7)); [reflexivity|exact I].
    + eapply (acquire 0 (WantPush 7) (InPush 7)); reflexivity.
    + eapply (push 0 7). reflexivity.
    + eapply (notify_one 0 1); reflexivity.
    + eapply (acquire 1 WantPop InPop); [reflexivity|exact I|reflexivity].
    + eapply (pop 1 7 []); reflexivity.
  - reflexivity.
Qed.
