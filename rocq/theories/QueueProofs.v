From Coq Require Import List Arith Bool Lia.
From Verif Require Import Base Vec QueueModel QueueSpec.
Import ListNotations.
Section Proofs.
Context {V : Type}.
Implicit Types s t : state V.

Lemma pushes_app (a b : list (event V)) : pushes (a ++ b) = pushes a ++ pushes b.
Proof. induction a as [|[] a IH]; cbn; auto. now rewrite IH. Qed.
Lemma pops_app (a b : list (event V)) : pops (a ++ b) = pops a ++ pops b.
Proof. induction a as [|[] a IH]; cbn; auto. now rewrite IH. Qed.
Lemma obeys_fifo (a b : list V * bool) es : obeys_all a es b -> fst a ++ pushes es = pops es ++ fst b.
Proof.
  induction 1 as [|a b c es e H IH Ho]; [cbn; now rewrite app_nil_r|]. rewrite pushes_app, pops_app, app_assoc, IH. destruct Ho; cbn; rewrite ?app_nil_r, <- ?app_assoc; reflexivity.
Qed.
Lemma step_obeys s es t : step s es t -> obeys_all (queue s, intr s) es (queue t, intr t).
Proof.
  assert (One : forall a e b, obeys a e b -> obeys_all (V := V) a [e] b). { intros a e b H. change [e] with ([] ++ [e]). eapply all_snoc; [constructor|exact H]. }
  destruct 1; cbn [queue intr]; try constructor; try (apply One; try rewrite H0; try rewrite H1; constructor).
Qed.
Lemma obeys_app a b c es fs : obeys_all (V := V) a es b -> obeys_all b fs c -> obeys_all a (es ++ fs) c.
Proof. intros H1 H2. induction H2 as [|b c d fs e H2 IH Ho]; [now rewrite app_nil_r|]. rewrite app_assoc. eapply all_snoc; eauto. Qed.
Lemma steps_obeys s es t : steps s es t -> obeys_all (queue s, intr s) es (queue t, intr t).
Proof. induction 1 as [|s t u e1 e2 H IH Hs]; [constructor|]. eapply obeys_app; [exact IH|now apply step_obeys]. Qed.

(** mutual exclusion: the mutex belongs to the thread inside a critical section *)
Definition inside (p : pc V) : bool := match p with InPush _ | InTry | InEmpty | InPop | InIntr => true | _ => false end.
Definition mutex_ok s : Prop := forall i p, at_ s i p -> inside p = true -> lock s = Some i.
Lemma nth_set_cases {A} (l : list A) i p j q : nth_error (set_nth l i p) j = Some q -> (j = i /\ q = p) \/ (j <> i /\ nth_error l j = Some q).
Proof.
  revert i j; induction l as [|x l IH]; intros [|i] [|j]; cbn; intros H; try discriminate.
  - injection H as <-. now left.
  - right. split; [lia|exact H].
  - right. split; [lia|exact H].
  - apply IH in H as [[-> ->]|[N H]]; [left; auto|right; split; [lia|exact H]].
Qed.
Lemma at_goto s i p j q : nth_error (goto s i p) j = Some q -> (j = i /\ q = p) \/ (j <> i /\ at_ s j q).
Proof. apply nth_set_cases. Qed.
Lemma nth_set_here {A} (l : list A) i p : i < length l -> nth_error (set_nth l i p) i = Some p.
Proof. revert i; induction l as [|x l IH]; intros [|i]; cbn; intros H; try lia; auto. apply IH. lia. Qed.
Lemma nth_set_there {A} (l : list A) i p j : j <> i -> nth_error (set_nth l i p) j = nth_error l j.
Proof. revert i j; induction l as [|x l IH]; intros [|i] [|j]; cbn; intros H; try lia; auto. Qed.
Lemma step_mutex s es t : step s es t -> mutex_ok s -> mutex_ok t.
Proof.
  intros H M k q Hk Hin. destruct H; unfold at_ in Hk; cbn [pcs lock] in *;
  try (apply at_goto in Hk as [[-> ->]|[N Hk]]; [|pose proof (M _ _ Hk Hin)]; try discriminate; try (pose proof (M _ _ H eq_refl)); try congruence).
  - destruct p; cbn in *; try discriminate; contradiction.
  - apply nth_set_cases in Hk as [[-> ->]|[N Hk]]; [discriminate|]. apply at_goto in Hk as [[-> ->]|[N2 Hk]]; [discriminate|]. exact (M _ _ Hk Hin).
  - rewrite nth_error_map in Hk. destruct (nth_error (goto s i Idle) k) eqn:E; [|discriminate]. cbn in Hk. injection Hk as <-. apply at_goto in E as [[-> ->]|[N E]]; [discriminate|]. apply (M k p E). destruct p; cbn in Hin |- *; auto.
Qed.

(** no lost wake-up *)
Definition count (P : pc V -> bool) (l : list (pc V)) : nat := length (filter P l).
Lemma count_set P l i p q : nth_error l i = Some p -> count P (set_nth l i q) + (if P p then 1 else 0) = count P l + (if P q then 1 else 0).
Proof.
  unfold count. revert i; induction l as [|x l IH]; intros [|i] H; cbn in *; try discriminate.
  - injection H as ->. destruct (P p), (P q); cbn; lia.
  - apply IH in H. destruct (P x); cbn; lia.
Qed.
Definition helpers (p : pc V) : bool := match p with WantPop | InPop | NotifyOne => true | _ => false end.
Definition asleep s : Prop := exists j, at_ s j Asleep.
Definition wakeup_ok s : Prop :=
  (intr s = true -> asleep s -> exists i, at_ s i NotifyAll) /\ (intr s = false -> asleep s -> length (queue s) <= count helpers (pcs s)).
Lemma asleep_goto s i p q l b : at_ s i p -> p <> Asleep -> q <> Asleep -> asleep (State l b (intr s) (goto s i q)) -> asleep s.
Proof. intros Hi Np Nq [j Hj]. unfold at_ in Hj. cbn [pcs] in Hj. apply at_goto in Hj as [[_ E]|[N Hj]]; [congruence|]. now exists j. Qed.
Lemma notify_goto s i p q k : at_ s i p -> p <> NotifyAll -> at_ s k NotifyAll -> nth_error (goto s i q) k = Some NotifyAll.
Proof. intros Hi Np Hk. unfold goto. rewrite nth_set_there; [exact Hk|]. intros ->. unfold at_ in *. congruence. Qed.
Lemma lt_at s i p : at_ s i p -> i < length (pcs s).
Proof. unfold at_. intros H. apply nth_error_Some. congruence. Qed.
Lemma step_wakeup s es t : step s es t -> mutex_ok s -> wakeup_ok s -> wakeup_ok t.
Proof.
  intros H M [A B]. unfold mutex_ok in M. destruct H; (split; cbn [intr queue pcs]; intros Hi Ha).
  - destruct A as [k Hk]; auto; [eapply asleep_goto; [exact H| | |exact Ha]; [discriminate|destruct p; cbn in H0; try contradiction; discriminate]|]. exists k. eapply notify_goto; eauto. discriminate.
  - pose proof (B Hi ltac:(eapply asleep_goto; [exact H| | |exact Ha]; [discriminate|destruct p; cbn in H0; try contradiction; discriminate])). pose proof (count_set helpers (pcs s) i Idle p H) as C. unfold goto. cbn in C. destruct (helpers p); lia.
  - destruct A as [k Hk]; auto; [eapply asleep_goto; [exact H| | |exact Ha]; destruct p, q; cbn in H0; try contradiction; discriminate|]. exists k. eapply notify_goto; eauto. destruct p; cbn in H0; try contradiction; discriminate.
  - pose proof (B Hi ltac:(eapply asleep_goto; [exact H| | |exact Ha]; destruct p, q; cbn in H0; try contradiction; discriminate)). pose proof (count_set helpers (pcs s) i p q H) as C. unfold goto. destruct p, q; cbn in H0, C; try contradiction; lia.
  - destruct A as [k Hk]; auto; [eapply asleep_goto; [exact H| | |exact Ha]; discriminate|]. exists k. eapply notify_goto; eauto. discriminate.
  - pose proof (B Hi ltac:(eapply asleep_goto; [exact H| | |exact Ha]; discriminate)). pose proof (count_set helpers (pcs s) i (InPush v) NotifyOne H) as C. unfold goto. cbn in C. rewrite app_length. cbn. lia.
  - (* notify_one *) destruct A as [k Hk]; auto; [now exists j|]. exists k. unfold at_. cbn [pcs]. rewrite nth_set_there; [eapply notify_goto; eauto; discriminate|]. intros ->. unfold at_ in *. congruence.
  - pose proof (B Hi (ex_intro _ j H0)). pose proof (count_set helpers (pcs s) i NotifyOne Idle H) as C. assert (Hj : nth_error (goto s i Idle) j = Some Asleep). { unfold goto. rewrite nth_set_there; [exact H0|]. intros ->. unfold at_ in *. congruence. }
    pose proof (count_set helpers (goto s i Idle) j Asleep WantPop Hj) as C2. unfold goto in *. cbn in C, C2. lia.
  - exfalso. destruct Ha as [j Hj]. unfold at_ in Hj. cbn [pcs] in Hj. apply at_goto in Hj as [[_ E]|[_ Hj]]; [discriminate|]. exact (H0 j Hj).
  - exfalso. destruct Ha as [j Hj]. unfold at_ in Hj. cbn [pcs] in Hj. apply at_goto in Hj as [[_ E]|[_ Hj]]; [discriminate|]. exact (H0 j Hj).
  - destruct A as [k Hk]; auto; [eapply asleep_goto; [exact H| | |exact Ha]; discriminate|]. exists k. eapply notify_goto; eauto. discriminate.
  - rewrite H0. cbn. lia.
  - destruct A as [k Hk]; auto; [eapply asleep_goto; [exact H| | |exact Ha]; discriminate|]. exists k. eapply notify_goto; eauto. discriminate.
  - pose proof (B Hi ltac:(eapply asleep_goto; [exact H| | |exact Ha]; discriminate)) as L. rewrite H0 in L. cbn in L. pose proof (count_set helpers (pcs s) i InTry Idle H) as C. unfold goto. cbn in C. lia.
  - destruct A as [k Hk]; auto; [eapply asleep_goto; [exact H| | |exact Ha]; discriminate|]. exists k. eapply notify_goto; eauto. discriminate.
  - pose proof (B Hi ltac:(eapply asleep_goto; [exact H| | |exact Ha]; discriminate)) as L. pose proof (count_set helpers (pcs s) i InEmpty Idle H) as C. unfold goto. cbn in C. lia.
  - congruence.
  - rewrite H1. cbn. lia.
  - destruct A as [k Hk]; auto; [eapply asleep_goto; [exact H| | |exact Ha]; discriminate|]. exists k. eapply notify_goto; eauto. discriminate.
  - congruence.
  - congruence.
  - pose proof (B Hi ltac:(eapply asleep_goto; [exact H| | |exact Ha]; discriminate)) as L. rewrite H1 in L. cbn in L. pose proof (count_set helpers (pcs s) i InPop Idle H) as C. unfold goto. cbn in C. lia.
  - destruct A as [k Hk]; auto; [now exists i|]. exists k. eapply notify_goto; eauto. discriminate.
  - pose proof (B Hi (ex_intro _ i H)). pose proof (count_set helpers (pcs s) i Asleep WantPop H) as C. unfold goto. cbn in C. lia.
  - exists i. unfold at_. cbn [pcs]. apply nth_set_here. eapply lt_at; eauto.
  - discriminate.
  - exfalso. destruct Ha as [j Hj]. unfold at_ in Hj. cbn [pcs] in Hj. rewrite nth_error_map in Hj. destruct (nth_error (goto s i Idle) j) as [[]|]; discriminate.
  - exfalso. destruct Ha as [j Hj]. unfold at_ in Hj. cbn [pcs] in Hj. rewrite nth_error_map in Hj. destruct (nth_error (goto s i Idle) j) as [[]|]; discriminate.
Qed.
Lemma start_ok n : mutex_ok (start (V := V) n) /\ wakeup_ok (start (V := V) n).
Proof.
  assert (E : forall i p, at_ (start (V := V) n) i p -> p = Idle). { intros i p H. unfold at_ in H. apply nth_error_In in H. apply repeat_spec in H. exact H. }
  split; [intros i p H; rewrite (E _ _ H); discriminate|]. split; cbn; [discriminate|lia].
Qed.
Lemma steps_inv n es s : steps (start n) es s -> mutex_ok s /\ wakeup_ok s.
Proof.
  remember (start n) as s0 eqn:E0. induction 1 as [|s t u e1 e2 H IH Hs]; [subst; apply start_ok|]. destruct (IH E0) as [M W]. split; [eapply step_mutex|eapply step_wakeup]; eauto.
Qed.
End Proofs.

Section Holder.
Context {V : Type}.
Implicit Types s t : state V.
(** the mutex is held only by a thread inside a critical section *)
Definition holder_ok s : Prop := forall j, lock s = Some j -> exists q, at_ s j q /\ inside q = true.
Lemma holder_goto s i p q l b : at_ s i p -> inside p = false -> holder_ok s -> holder_ok (State l (lock s) b (goto s i q)).
Proof. intros Hi Hp Ho j Hj. cbn [lock] in Hj. destruct (Ho j Hj) as (r & Hr & Ir). exists r. split; [|exact Ir]. unfold at_, goto. cbn [pcs]. rewrite nth_set_there; [exact Hr|]. intros ->. unfold at_ in *. congruence. Qed.
Lemma step_holder s es t : step s es t -> holder_ok s -> holder_ok t.
Proof.
  intros H Ho. destruct H; try (intros j' Hj'; discriminate Hj').
  - eapply holder_goto; eauto.
  - intros j Hj. cbn [lock] in Hj. injection Hj as <-. exists q. split; [|destruct p, q; cbn in H0; try contradiction; reflexivity]. apply nth_set_here. eapply lt_at; eauto.
  - pose proof (holder_goto s i NotifyOne Idle (queue s) (intr s) H eq_refl Ho) as Ho2. intros k Hk. destruct (Ho2 k Hk) as (r & Hr & Ir). exists r. split; [|exact Ir]. unfold at_ in *. cbn [pcs] in *. rewrite nth_set_there; [exact Hr|]. intros ->. unfold goto in Hr. rewrite nth_set_there in Hr by (intros ->; congruence). assert (r = Asleep) by congruence. subst r. discriminate.
  - eapply holder_goto; eauto.
  - eapply holder_goto; eauto.
  - pose proof (holder_goto s i NotifyAll Idle (queue s) (intr s) H eq_refl Ho) as Ho2. intros k Hk. destruct (Ho2 k Hk) as (r & Hr & Ir). exists r. split; [|exact Ir]. unfold at_ in *. cbn [pcs] in *. rewrite nth_error_map, Hr. cbn. destruct r; cbn in Ir |- *; congruence.
Qed.
Lemma steps_holder n es s : steps (start n) es s -> holder_ok s.
Proof. remember (start n) as s0 eqn:E0. induction 1 as [|s t u e1 e2 H IH Hs]; [subst; intros j Hj; discriminate|]. eapply step_holder; eauto. Qed.
End Holder.
