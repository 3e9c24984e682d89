From Coq Require Import List Arith Bool Lia.
From Verif Require Import Base Vec PoolModel PoolSpec.
Import ListNotations.

Lemma nth_set_cases {A} (l : list A) i p j q : nth_error (set_nth l i p) j = Some q -> (j = i /\ q = p) \/ (j <> i /\ nth_error l j = Some q).
Proof.
  revert i j; induction l as [|x l IH]; intros [|i] [|j]; cbn; intros H; try discriminate.
  - injection H as <-. now left.
  - right. split; [lia|exact H].
  - right. split; [lia|exact H].
  - apply IH in H as [[-> ->]|[N H]]; [left; auto|right; split; [lia|exact H]].
Qed.
Lemma nth_set_here {A} (l : list A) i p : i < length l -> nth_error (set_nth l i p) i = Some p.
Proof. revert i; induction l as [|x l IH]; intros [|i]; cbn; intros H; try lia; auto. apply IH. lia. Qed.
Lemma nth_set_there {A} (l : list A) i p j : j <> i -> nth_error (set_nth l i p) j = nth_error l j.
Proof. revert i j; induction l as [|x l IH]; intros [|i] [|j]; cbn; intros H; try lia; auto. Qed.
Lemma lt_at s i t : at_ s i t -> i < length (threads s).
Proof. unfold at_. intros H. apply nth_error_Some. congruence. Qed.

(** * Every execution is finite *)
Fixpoint total (l : list nat) : nat := match l with [] => 0 | x :: r => x + total r end.
Lemma total_app a b : total (a ++ b) = total a + total b.
Proof. induction a; cbn; lia. Qed.
Fixpoint size (b : body) : nat := match b with End => 4 | Spawn c k => size c + size k + 10 | Wait _ k => size k + 10 end.
Definition rank (m : mode) : nat := match m with Go => 3 | Notify => 5 | Pop_ => 2 | Block => 1 end.
Definition fweight (f : frame) : nat := size (code f) + rank (md f).
Definition tweight (t : thread) : nat := match t with Stack _ fs => total (map fweight fs) | Awake => 1 | Sleep => 0 end.
Definition qweight (q : list task) : nat := total (map (fun t => size (tbody t) + 5) q).
Definition weight (s : state) : nat := qweight (queue s) + total (map tweight (threads s)).
Lemma sum_set (l : list thread) i old new : nth_error l i = Some old -> total (map tweight (set_nth l i new)) + tweight old = total (map tweight l) + tweight new.
Proof. revert i; induction l as [|x l IH]; intros [|i] H; cbn in *; try discriminate; [injection H as ->; lia|]. apply IH in H. lia. Qed.
Lemma qweight_snoc q t : qweight (q ++ [t]) = qweight q + (size (tbody t) + 5).
Proof. unfold qweight. rewrite map_app, total_app. cbn. lia. Qed.
Lemma qweight_cons q t : qweight (t :: q) = qweight q + (size (tbody t) + 5).
Proof. unfold qweight. cbn. lia. Qed.
Lemma tweight_stack w f fs : tweight (Stack w (f :: fs)) = fweight f + tweight (Stack w fs).
Proof. reflexivity. Qed.
Lemma tweight_resume w fs : tweight (resume w fs) <= tweight (Stack w fs) + 1.
Proof. destruct fs; [destruct w; cbn; lia|]. cbn. lia. Qed.
Lemma step_weight s t : step s t -> weight t < weight s.
Proof.
  unfold weight. destruct 1; cbn [queue threads with_thread];
  try (match goal with H : at_ ?s ?i ?old |- context [set_nth (threads ?s) ?i ?new] => pose proof (sum_set _ _ _ new H) as E end);
  rewrite ?tweight_stack in E; unfold fweight in E; cbn [code md size rank tweight total map] in E.
  - pose proof (tweight_resume w fs) as R. cbn [tweight] in R. lia.
  - rewrite qweight_snoc. cbn [tbody]. lia.
  - assert (Hj : nth_error (set_nth (threads s) i (Stack w (Frame n fu k Go :: fs))) j = Some Sleep). { rewrite nth_set_there; [exact H0|]. intros ->. unfold at_ in *. congruence. }
    pose proof (sum_set _ _ _ Awake Hj) as E2. cbn [tweight] in E2. lia.
  - lia.
  - lia.
  - lia.
  - rewrite H0, qweight_cons. lia.
  - lia.
  - lia.
  - rewrite H0, qweight_cons. lia.
  - lia.
Qed.

(** * Invariants *)
(** numbers of the tasks on a stack decrease from the innermost; [below m fs]: all are smaller than [m] *)
Fixpoint below (m : nat) (fs : list frame) : Prop := match fs with [] => True | f :: r => fnum f < m /\ below (fnum f) r end.
Lemma below_le m m' fs : m <= m' -> below m fs -> below m' fs.
Proof. destruct fs; cbn; [auto|]. intros H [A B]. split; [lia|exact B]. Qed.
Lemma below_all m fs f : below m fs -> In f fs -> fnum f < m.
Proof. revert m; induction fs as [|g fs IH]; intros m H []; destruct H as [A B]; [now subst|]. specialize (IH _ B H0). lia. Qed.
(** the first number in the queue *)
Definition front (s : state) : nat := match queue s with [] => next s | t :: _ => tnum t end.
(** queued tasks are numbered consecutively up to [next] *)
Fixpoint numbered (q : list task) (n next : nat) : Prop := match q with [] => n = next | t :: r => tnum t = n /\ numbered r (S n) next end.
Definition good_frame (nx : nat) (f : frame) : Prop := exists inh, own inh (length (futs f)) (code f) /\ inh <= length (futs f) /\
  (forall i x, nth_error (futs f) i = Some x -> x < nx) /\ (forall i x, inh <= i -> nth_error (futs f) i = Some x -> fnum f < x).
Definition good_task (nx : nat) (t : task) : Prop := own (length (tfuts t)) (length (tfuts t)) (tbody t) /\ (forall i x, nth_error (tfuts t) i = Some x -> x < nx).
(** a frame in Pop_ or Block is at a Wait, and if blocked its future is no longer in the queue *)
Definition good_mode (fr : nat) (f : frame) : Prop := match md f with
  | Go | Notify => True
  | Pop_ => exists i k, code f = Wait i k
  | Block => exists i k x, code f = Wait i k /\ nth_error (futs f) i = Some x /\ x < fr
  end.
Definition ok_stack (fr nx : nat) (w : bool) (fs : list frame) : Prop :=
  below fr fs /\ Forall (good_frame nx) fs /\ Forall (good_mode fr) fs /\ Forall (fun g => md g = Go) (tl fs) /\ (w = true -> fs <> []).
Lemma good_frame_mono nx nx' f : nx <= nx' -> good_frame nx f -> good_frame nx' f.
Proof. intros H (inh & A & B & C & D). exists inh. split; [exact A|]. split; [exact B|]. split; [|exact D]. intros i x E. apply C in E. lia. Qed.
Lemma good_mode_mono fr fr' f : fr <= fr' -> good_mode fr f -> good_mode fr' f.
Proof. unfold good_mode. intros H. destruct (md f); auto. intros (i & k & x & A & B & C). exists i, k, x. split; [exact A|]. split; [exact B|]. lia. Qed.
Lemma ok_stack_mono fr fr' nx nx' w fs : fr <= fr' -> nx <= nx' -> ok_stack fr nx w fs -> ok_stack fr' nx' w fs.
Proof.
  intros H1 H2 (A & B & C & D & E). split; [eapply below_le; eauto|]. split; [eapply Forall_impl; [|exact B]; intros f; now apply good_frame_mono|]. split; [eapply Forall_impl; [|exact C]; intros f; now apply good_mode_mono|]. auto.
Qed.
(** where an unfinished task is *)
Definition placed (s : state) (x : nat) : Prop := In x (finished s) \/ (exists t, In t (queue s) /\ tnum t = x) \/ (exists i w fs f, at_ s i (Stack w fs) /\ In f fs /\ fnum f = x).
Definition count (P : thread -> bool) (l : list thread) : nat := length (filter P l).
Definition helper (t : thread) : bool := match t with Awake => true | Stack _ (f :: _) => match md f with Notify => true | _ => false end | _ => false end.
Lemma count_set P l i p q : nth_error l i = Some p -> count P (set_nth l i q) + (if P p then 1 else 0) = count P l + (if P q then 1 else 0).
Proof.
  unfold count. revert i; induction l as [|x l IH]; intros [|i] H; cbn in *; try discriminate.
  - injection H as ->. destruct (P p), (P q); cbn; lia.
  - apply IH in H. destruct (P x); cbn; lia.
Qed.
Record inv (s : state) : Prop := Inv {
  i_num : numbered (queue s) (front s) (next s);
  i_stack : forall i w fs, at_ s i (Stack w fs) -> ok_stack (front s) (next s) w fs;
  i_task : forall t, In t (queue s) -> good_task (next s) t;
  i_placed : forall x, x < next s -> placed s x;
  i_wake : (exists j, at_ s j Sleep) -> length (queue s) <= count helper (threads s) }.

Lemma numbered_snoc q : forall n m fu c, numbered q n m -> numbered (q ++ [Task m fu c]) n (S m).
Proof. induction q as [|t q IH]; cbn; intros n m fu c H; [auto|]. destruct H as [A B]. auto. Qed.
Lemma numbered_range q : forall n m t, numbered q n m -> In t q -> n <= tnum t < m.
Proof.
  assert (L : forall q n m, numbered q n m -> n <= m). { induction q0 as [|t q0 IH]; cbn; intros n m H; [lia|]. destruct H as [A B]. apply IH in B. lia. }
  induction q as [|u q IH]; cbn; intros n m t H Hin; [contradiction|]. destruct H as [A B]. pose proof (L _ _ _ B). destruct Hin as [->|Hin]; [lia|]. pose proof (IH _ _ _ B Hin). lia.
Qed.

(** pieces common to all steps *)
Lemma front_pop s t r : numbered (queue s) (front s) (next s) -> queue s = t :: r ->
  tnum t = front s /\ numbered r (S (front s)) (next s) /\ forall fin th, front (State (next s) r fin th) = S (front s).
Proof.
  intros H E. rewrite E in H. cbn in H. destruct H as [A B]. split; [exact A|]. split; [exact B|]. intros fin th. unfold front at 1. cbn [queue next]. destruct r as [|u r]; cbn in B; [symmetry; exact B|tauto].
Qed.
Lemma front_push s fu c fin th : front (State (S (next s)) (queue s ++ [Task (next s) fu c]) fin th) = front s.
Proof. unfold front. cbn [queue next]. destruct (queue s); reflexivity. Qed.
Lemma placed_keep s t i : (forall x, In x (finished s) -> In x (finished t)) -> (forall u, In u (queue s) -> placed t (tnum u)) ->
  (forall w fs f, at_ s i (Stack w fs) -> In f fs -> placed t (fnum f)) -> (forall k w fs, k <> i -> at_ s k (Stack w fs) -> at_ t k (Stack w fs)) -> forall x, placed s x -> placed t x.
Proof.
  intros A B C D x [H|[(u & Hu & <-)|(k & w & fs & f & Hk & Hf & <-)]].
  - left. auto.
  - auto.
  - destruct (Nat.eq_dec k i) as [->|N]; [eapply C; eauto|]. right. right. exists k, w, fs, f. auto.
Qed.
Lemma stacks_keep s i new nx' q' fin' (fr' := front (State nx' q' fin' (set_nth (threads s) i new))) :
  (forall k w fs, at_ s k (Stack w fs) -> ok_stack (front s) (next s) w fs) -> front s <= fr' -> next s <= nx' ->
  (forall w fs, new = Stack w fs -> ok_stack fr' nx' w fs) ->
  forall k w fs, at_ (State nx' q' fin' (set_nth (threads s) i new)) k (Stack w fs) -> ok_stack fr' nx' w fs.
Proof.
  intros A B C D k w fs H. unfold at_ in H. cbn [threads] in H. apply nth_set_cases in H as [[_ E]|[_ H]]; [now apply D|]. eapply ok_stack_mono; [| |apply (A k)]; eauto.
Qed.
Lemma other_at s i new nx q fin k t : k <> i -> at_ s k t -> at_ (State nx q fin (set_nth (threads s) i new)) k t.
Proof. intros N H. unfold at_. cbn [threads]. now rewrite nth_set_there. Qed.
Lemma here_at s i old new nx q fin : at_ s i old -> at_ (State nx q fin (set_nth (threads s) i new)) i new.
Proof. intros H. unfold at_. cbn [threads]. apply nth_set_here. eapply lt_at; eauto. Qed.
Lemma sleep_back s i old new nx q fin j : at_ s i old -> new <> Sleep -> at_ (State nx q fin (set_nth (threads s) i new)) j Sleep -> at_ s j Sleep.
Proof. intros H N E. unfold at_ in E. cbn [threads] in E. apply nth_set_cases in E as [[_ E]|[_ E]]; [congruence|exact E]. Qed.
(** a step that only moves the innermost frame of one thread, keeping its number, without touching the queue *)
Lemma inv_local s i w f f' fs : inv s -> at_ s i (Stack w (f :: fs)) -> fnum f' = fnum f -> good_frame (next s) f' -> good_mode (front s) f' -> md f <> Notify -> md f' <> Notify ->
  inv (with_thread s i (Stack w (f' :: fs))).
Proof.
  intros I Hi En Gf Gm Nn Nn'. pose proof (i_stack s I i w _ Hi) as (A & B & C & D & E). destruct A as [A1 A2]. apply Forall_cons_iff in B as [B1 B2]. apply Forall_cons_iff in C as [C1 C2]. unfold with_thread. constructor.
  - apply (i_num s I).
  - cbn [next]; apply stacks_keep; [apply (i_stack s I)|unfold front; reflexivity|cbn [next]; lia|]. intros w' fs' [= <- <-]. unfold ok_stack. cbn [tl]. split; [cbn; rewrite En; split; [exact A1|exact A2]|]. split; [now constructor|]. split; [now constructor|]. split; [exact D|discriminate].
  - apply (i_task s I).
  - intros x Hx. apply (placed_keep s _ i).
    + auto.
    + intros u Hu. right. left. exists u. auto.
    + intros w' fs' g Hg Hin. unfold at_ in Hg, Hi. rewrite Hi in Hg. injection Hg as <- <-. right. right. destruct Hin as [<-|Hin].
      * exists i, w, (f' :: fs), f'. split; [eapply here_at; exact Hi|]. split; [now left|exact En].
      * exists i, w, (f' :: fs), g. split; [eapply here_at; exact Hi|]. split; [now right|reflexivity].
    + intros k w' fs' N Hk. now apply other_at.
    + apply (i_placed s I x Hx).
  - intros [j Hj]. cbn [queue threads]. assert (Hs : exists j, at_ s j Sleep). { exists j. eapply (sleep_back s i); [exact Hi| |exact Hj]. discriminate. }
    pose proof (i_wake s I Hs) as W. pose proof (count_set helper (threads s) i _ (Stack w (f' :: fs)) Hi) as Cc. cbn [helper] in Cc. destruct (md f), (md f'); try congruence; lia.
Qed.
Lemma step_inv s t : step s t -> inv s -> inv t.
Proof.
  intros H I. destruct H as [i w n fu fs s H|i w n fu c k fs s H|i j w n fu k fs s H Hj|i w n fu k fs s H Hj|i w n fu f x k fs s H Hx Hr|i w n fu f x k fs s H Hx Hr|i w n fu k fs t r s H Hq|i w n fu k fs s H Hq|i w n fu f x k fs s H Hx Hr|i t r s H Hq|i s H Hq].
  - (* finish *) pose proof (i_stack s I i w _ H) as (A & B & C & D & E). destruct A as [A1 A2]. apply Forall_cons_iff in B as [B1 B2]. apply Forall_cons_iff in C as [C1 C2]. cbn [tl] in D. constructor.
    + apply (i_num s I).
    + cbn [next]; apply stacks_keep; [apply (i_stack s I)|reflexivity|cbn [next]; lia|]. intros w' fs' Er. destruct fs as [|g fs]; cbn [resume] in Er; [destruct w; [discriminate|]|]; injection Er as <- <-; unfold ok_stack; cbn [tl].
      * repeat split; constructor || discriminate.
      * split; [eapply below_le; [|exact A2]; cbn; unfold front in A1; cbn in A1; unfold front; cbn; lia|]. split; [exact B2|]. split; [exact C2|]. split; [now inversion D|discriminate].
    + apply (i_task s I).
    + intros x Hx. apply (placed_keep s _ i).
      * cbn. auto.
      * intros u Hu. right. left. exists u. auto.
      * intros w' fs' g Hg Hin. unfold at_ in Hg, H. rewrite H in Hg. injection Hg as <- <-. destruct Hin as [<-|Hin]; [left; now left|]. right. right. exists i, w, fs, g. split; [|auto].
        replace (Stack w fs) with (resume w fs) by (destruct fs; [destruct Hin|reflexivity]). eapply here_at. exact H.
      * intros k w' fs' N Hk. now apply other_at.
      * apply (i_placed s I x Hx).
    + intros [j Hj]. cbn [queue threads]. assert (Hs : exists j, at_ s j Sleep). { exists j. eapply (sleep_back s i); [exact H| |exact Hj]. destruct fs, w; discriminate. }
      pose proof (i_wake s I Hs) as W. pose proof (count_set helper (threads s) i _ (resume w fs) H) as Cc. cbn [helper md] in Cc. destruct (helper (resume w fs)); lia.
  - (* spawn *) pose proof (i_stack s I i w _ H) as (A & B & C & D & E). destruct A as [A1 A2]. apply Forall_cons_iff in B as [B1 B2]. apply Forall_cons_iff in C as [C1 C2]. cbn [tl fnum] in *.
    destruct B1 as (inh & O & L & N1 & N2). cbn [futs code fnum own] in *. destruct O as [Oc Ok]. assert (FrN : front s <= next s). { pose proof (i_num s I) as Hn. unfold front in *. destruct (queue s) as [|u q] eqn:Eq; [lia|]. pose proof (numbered_range (u :: q) (tnum u) (next s) u Hn (or_introl eq_refl)). lia. }
    constructor.
    + rewrite front_push. cbn [queue next]. apply numbered_snoc, (i_num s I).
    + cbn [next]; apply stacks_keep; [apply (i_stack s I)|rewrite front_push; reflexivity|cbn [next]; lia|]. intros w' fs' [= <- <-]. rewrite front_push. unfold ok_stack. cbn [tl below fnum]. split; [auto|]. split; [|split; [|split; [exact D|discriminate]]].
      * constructor; [|eapply Forall_impl; [|exact B2]; intros g; apply good_frame_mono; lia]. exists inh. cbn [futs code fnum]. rewrite app_length. cbn [length]. split; [now rewrite Nat.add_1_r|]. split; [lia|]. split.
        -- intros a y Hy. destruct (Nat.lt_ge_cases a (length fu)); [rewrite nth_error_app1 in Hy by lia; apply N1 in Hy; lia|]. rewrite nth_error_app2 in Hy by lia. destruct (a - length fu) as [|[|]]; cbn in Hy; try discriminate. injection Hy as <-. lia.
        -- intros a y Ha Hy. destruct (Nat.lt_ge_cases a (length fu)); [rewrite nth_error_app1 in Hy by lia; eapply N2; eauto|]. rewrite nth_error_app2 in Hy by lia. destruct (a - length fu) as [|[|]]; cbn in Hy; try discriminate. injection Hy as <-. lia.
      * constructor; [exact Logic.I|exact C2].
    + intros u Hu. cbn [queue next] in *. apply in_app_or in Hu as [Hu|[<-|[]]].
      * destruct (i_task s I u Hu) as [T1 T2]. split; [exact T1|]. intros a y Hy. apply T2 in Hy. lia.
      * split; cbn [tfuts tbody]; [exact Oc|]. intros a y Hy. apply N1 in Hy. lia.
    + intros x Hx. cbn [next] in Hx. destruct (Nat.eq_dec x (next s)) as [->|Nx]; [right; left; exists (Task (next s) fu c); split; [cbn; apply in_or_app; right; now left|reflexivity]|]. apply (placed_keep s _ i).
      * auto.
      * intros u Hu. right. left. exists u. split; [cbn; apply in_or_app; now left|reflexivity].
      * intros w' fs' g Hg Hin. unfold at_ in Hg, H. rewrite H in Hg. injection Hg as <- <-. right. right. destruct Hin as [<-|Hin].
        -- eexists i, w, _, _. split; [eapply here_at; exact H|]. split; [now left|reflexivity].
        -- eexists i, w, _, g. split; [eapply here_at; exact H|]. split; [now right|reflexivity].
      * intros k' w' fs' N Hk. now apply other_at.
      * apply (i_placed s I x). lia.
    + intros [j Hj]. cbn [queue threads]. assert (Hs : exists j, at_ s j Sleep). { exists j. eapply (sleep_back s i); [exact H| |exact Hj]. discriminate. }
      pose proof (i_wake s I Hs) as W. pose proof (count_set helper (threads s) i _ (Stack w (Frame n (fu ++ [next s]) k Notify :: fs)) H) as Cc. cbn [helper md] in Cc. rewrite app_length. cbn [length]. lia.
  - (* notify_wakes *) pose proof (i_stack s I i w _ H) as (A & B & C & D & E). apply Forall_cons_iff in B as [B1 B2]. apply Forall_cons_iff in C as [C1 C2].
    assert (Nij : j <> i) by (intros ->; unfold at_ in *; congruence).
    constructor.
    + apply (i_num s I).
    + intros k' w' fs' Hk. unfold at_ in Hk. cbn [threads] in Hk. apply nth_set_cases in Hk as [[_ Hk]|[_ Hk]]; [discriminate|]. apply nth_set_cases in Hk as [[_ Hk]|[_ Hk]].
      * injection Hk as -> ->. unfold ok_stack, front. cbn [queue next tl]. fold (front s). split; [exact A|]. split; [constructor; [exact B1|exact B2]|]. split; [constructor; [exact Logic.I|exact C2]|]. split; [exact D|discriminate].
      * apply (i_stack s I k' w' fs' Hk).
    + apply (i_task s I).
    + intros x Hx. apply (placed_keep s _ i).
      * auto.
      * intros u Hu. right. left. exists u. auto.
      * intros w' fs' g Hg Hin. unfold at_ in Hg, H. rewrite H in Hg. injection Hg as <- <-. right. right.
        assert (Ht : nth_error (set_nth (set_nth (threads s) i (Stack w (Frame n fu k Go :: fs))) j Awake) i = Some (Stack w (Frame n fu k Go :: fs))). { rewrite nth_set_there by auto. apply nth_set_here. apply nth_error_Some. congruence. }
        destruct Hin as [<-|Hin]; [exists i, w, (Frame n fu k Go :: fs), (Frame n fu k Go)|exists i, w, (Frame n fu k Go :: fs), g]; (split; [exact Ht|]); (split; [cbn; auto|reflexivity]).
      * intros k' w' fs' N Hk. unfold at_. cbn [threads]. rewrite nth_set_there; [now rewrite nth_set_there|]. intros ->. unfold at_ in *. congruence.
      * apply (i_placed s I x Hx).
    + intros _. cbn [queue threads]. pose proof (i_wake s I (ex_intro _ j Hj)) as W. pose proof (count_set helper (threads s) i _ (Stack w (Frame n fu k Go :: fs)) H) as Cc. cbn [helper md] in Cc.
      assert (Hj2 : nth_error (set_nth (threads s) i (Stack w (Frame n fu k Go :: fs))) j = Some Sleep) by (rewrite nth_set_there; assumption). pose proof (count_set helper _ j _ Awake Hj2) as Cd. cbn [helper] in Cd. lia.
  - (* notify_nobody *) pose proof (i_stack s I i w _ H) as (A & B & C & D & E). apply Forall_cons_iff in B as [B1 B2]. apply Forall_cons_iff in C as [C1 C2]. unfold with_thread. constructor.
    + apply (i_num s I).
    + cbn [next]; apply stacks_keep; [apply (i_stack s I)|reflexivity|cbn [next]; lia|]. intros w' fs' [= <- <-]. unfold ok_stack. cbn [tl]. split; [exact A|]. split; [constructor; [exact B1|exact B2]|]. split; [constructor; [exact Logic.I|exact C2]|]. split; [exact D|discriminate].
    + apply (i_task s I).
    + intros x Hx. apply (placed_keep s _ i).
      * auto.
      * intros u Hu. right. left. exists u. auto.
      * intros w' fs' g Hg Hin. unfold at_ in Hg, H. rewrite H in Hg. injection Hg as <- <-. right. right. destruct Hin as [<-|Hin].
        -- eexists i, w, _, _. split; [eapply here_at; exact H|]. split; [now left|reflexivity].
        -- eexists i, w, _, g. split; [eapply here_at; exact H|]. split; [now right|reflexivity].
      * intros k' w' fs' N Hk. now apply other_at.
      * apply (i_placed s I x Hx).
    + intros [j Hj2]. exfalso. apply (Hj j). eapply (sleep_back s i); [exact H| |exact Hj2]. discriminate.
  - (* ready *) pose proof (i_stack s I i w _ H) as (A & B & C & D & E). apply Forall_cons_iff in B as [B1 B2]. destruct B1 as (inh & O & L & N1 & N2). eapply inv_local; eauto; try discriminate; [|exact Logic.I]. exists inh. cbn [futs code fnum own] in *. tauto.
  - (* not_ready *) pose proof (i_stack s I i w _ H) as (A & B & C & D & E). apply Forall_cons_iff in B as [B1 B2]. eapply inv_local; eauto; try discriminate. unfold good_mode. cbn. eauto.
  - (* help *) pose proof (i_stack s I i w _ H) as (A & B & C & D & E). destruct A as [A1 A2]. apply Forall_cons_iff in B as [B1 B2]. apply Forall_cons_iff in C as [C1 C2]. cbn [tl fnum] in *.
    destruct (front_pop s t r (i_num s I) Hq) as (Et & Hn & Hf). destruct (i_task s I t) as [T1 T2]; [rewrite Hq; now left|]. constructor.
    + rewrite Hf. exact Hn.
    + cbn [next]; apply stacks_keep; [apply (i_stack s I)|rewrite Hf; lia|cbn [next]; lia|]. intros w' fs' [= <- <-]. rewrite Hf. unfold ok_stack. cbn [tl below fnum]. split; [rewrite Et; split; [lia|]; split; [exact A1|exact A2]|]. split; [|split; [|split; [|discriminate]]].
      * constructor; [|constructor; [exact B1|exact B2]]. exists (length (tfuts t)). cbn [futs code fnum]. split; [exact T1|]. split; [lia|]. split; [exact T2|]. intros a y Ha Hy. assert (nth_error (tfuts t) a = None) by (apply nth_error_None; lia). congruence.
      * constructor; [exact Logic.I|]. constructor; [exact Logic.I|]. eapply Forall_impl; [|exact C2]. intros g. apply good_mode_mono. lia.
      * constructor; [reflexivity|exact D].
    + intros u Hu. apply (i_task s I). rewrite Hq. now right.
    + intros x Hx. apply (placed_keep s _ i).
      * auto.
      * intros u Hu. rewrite Hq in Hu. destruct Hu as [<-|Hu]; [|right; left; exists u; auto]. right. right. eexists i, w, _, _. split; [eapply here_at; exact H|]. split; [now left|reflexivity].
      * intros w' fs' g Hg Hin. unfold at_ in Hg, H. rewrite H in Hg. injection Hg as <- <-. right. right. destruct Hin as [<-|Hin].
        -- eexists i, w, _, _. split; [eapply here_at; exact H|]. split; [right; now left|reflexivity].
        -- eexists i, w, _, g. split; [eapply here_at; exact H|]. split; [right; now right|reflexivity].
      * intros k' w' fs' N Hk. now apply other_at.
      * apply (i_placed s I x Hx).
    + intros [j Hj]. cbn [queue threads]. assert (Hs : exists j, at_ s j Sleep). { exists j. eapply (sleep_back s i); [exact H| |exact Hj]. discriminate. }
      pose proof (i_wake s I Hs) as W. rewrite Hq in W. cbn [length] in W. pose proof (count_set helper (threads s) i _ (Stack w (Frame (tnum t) (tfuts t) (tbody t) Go :: Frame n fu k Go :: fs)) H) as Cc. cbn [helper md] in Cc. lia.
  - (* nothing_to_do *) pose proof (i_stack s I i w _ H) as (A & B & C & D & E). apply Forall_cons_iff in B as [B1 B2]. apply Forall_cons_iff in C as [C1 C2]. destruct C1 as (a & k1 & Ek). cbn [code] in Ek. subst k. eapply inv_local; eauto; try discriminate.
    destruct B1 as (inh & O & L & N1 & N2). cbn [futs code fnum own] in *. unfold good_mode. cbn. destruct (nth_error fu a) as [x|] eqn:Ex; [|apply nth_error_None in Ex; lia]. exists a, k1, x. split; [reflexivity|]. split; [exact Ex|]. apply N1 in Ex. unfold front. rewrite Hq. exact Ex.
  - (* unblock *) pose proof (i_stack s I i w _ H) as (A & B & C & D & E). apply Forall_cons_iff in B as [B1 B2]. destruct B1 as (inh & O & L & N1 & N2). eapply inv_local; eauto; try discriminate; [|exact Logic.I]. exists inh. cbn [futs code fnum own] in *. tauto.
  - (* take *) destruct (front_pop s t r (i_num s I) Hq) as (Et & Hn & Hf). destruct (i_task s I t) as [T1 T2]; [rewrite Hq; now left|]. constructor.
    + rewrite Hf. exact Hn.
    + cbn [next]; apply stacks_keep; [apply (i_stack s I)|rewrite Hf; lia|cbn [next]; lia|]. intros w' fs' [= <- <-]. rewrite Hf. unfold ok_stack. cbn [tl below fnum]. split; [rewrite Et; split; [lia|exact Logic.I]|]. split; [|split; [|split; [constructor|discriminate]]].
      * constructor; [|constructor]. exists (length (tfuts t)). cbn [futs code fnum]. split; [exact T1|]. split; [lia|]. split; [exact T2|]. intros a y Ha Hy. assert (nth_error (tfuts t) a = None) by (apply nth_error_None; lia). congruence.
      * constructor; [exact Logic.I|constructor].
    + intros u Hu. apply (i_task s I). rewrite Hq. now right.
    + intros x Hx. apply (placed_keep s _ i).
      * auto.
      * intros u Hu. rewrite Hq in Hu. destruct Hu as [<-|Hu]; [|right; left; exists u; auto]. right. right. eexists i, true, _, _. split; [eapply here_at; exact H|]. split; [now left|reflexivity].
      * intros w' fs' g Hg Hin. unfold at_ in Hg, H. congruence.
      * intros k' w' fs' N Hk. now apply other_at.
      * apply (i_placed s I x Hx).
    + intros [j Hj]. cbn [queue threads]. assert (Hs : exists j, at_ s j Sleep). { exists j. eapply (sleep_back s i); [exact H| |exact Hj]. discriminate. }
      pose proof (i_wake s I Hs) as W. rewrite Hq in W. cbn [length] in W. pose proof (count_set helper (threads s) i _ (Stack true [Frame (tnum t) (tfuts t) (tbody t) Go]) H) as Cc. cbn [helper md] in Cc. lia.
  - (* sleep *) unfold with_thread. constructor.
    + apply (i_num s I).
    + cbn [next]; apply stacks_keep; [apply (i_stack s I)|reflexivity|cbn [next]; lia|]. intros w' fs' E. discriminate.
    + apply (i_task s I).
    + intros x Hx. apply (placed_keep s _ i).
      * auto.
      * intros u Hu. right. left. exists u. auto.
      * intros w' fs' g Hg Hin. unfold at_ in Hg, H. congruence.
      * intros k' w' fs' N Hk. now apply other_at.
      * apply (i_placed s I x Hx).
    + intros _. cbn [queue]. rewrite Hq. cbn. lia.
Qed.
Lemma start_inv n b : own 0 0 b -> inv (start n b).
Proof.
  intros Hb. constructor; cbn.
  - reflexivity.
  - intros i w fs H. unfold at_ in H. cbn [start threads] in H. destruct i as [|i]; cbn in H.
    + injection H as <- <-. unfold ok_stack, front. cbn. split; [auto|]. split; [|split; [|split; [constructor|discriminate]]]; (constructor; [|constructor]); [|exact Logic.I]. exists 0. cbn. split; [exact Hb|]. split; [lia|]. split; intros [] ? E; try discriminate; intros; discriminate.
    + apply nth_error_In, repeat_spec in H. discriminate.
  - contradiction.
  - intros x Hx. right. right. exists 0, false, [Frame 0 [] b Go], (Frame 0 [] b Go). split; [reflexivity|]. split; [now left|cbn; lia].
  - lia.
Qed.
Lemma steps_inv n b s : own 0 0 b -> steps (start n b) s -> inv s.
Proof. intros Hb H. remember (start n b) as s0 eqn:E. induction H as [|s t u H IH Hs]; [subst; now apply start_inv|]. eapply step_inv; eauto. Qed.

(** * Progress *)
(** the innermost frame with the largest number *)
Lemma max_top (l : list thread) : (exists i w f fs, nth_error l i = Some (Stack w (f :: fs))) ->
  exists i w f fs, nth_error l i = Some (Stack w (f :: fs)) /\ forall k w' g gs, nth_error l k = Some (Stack w' (g :: gs)) -> fnum g <= fnum f.
Proof.
  induction l as [|t l IH]; intros (i & w & f & fs & H); [destruct i; discriminate|].
  assert (Dec : (exists i w f fs, nth_error l i = Some (Stack w (f :: fs))) \/ ~ exists i w f fs, nth_error l i = Some (Stack w (f :: fs))).
  { clear. induction l as [|t l IH]; [right; intros (i & w & f & fs & H); destruct i; discriminate|]. destruct IH as [(i & w & f & fs & H)|N]; [left; exists (S i), w, f, fs; exact H|]. destruct t as [w [|f fs]| |]; [right|left; exists 0, w, f, fs; reflexivity|right|right]; intros (i & w' & f' & fs' & H); (destruct i as [|i]; [discriminate|]); apply N; exists i, w', f', fs'; exact H. }
  destruct Dec as [Hl|Nl].
  - destruct (IH Hl) as (i' & w' & f' & fs' & H' & M). destruct t as [w0 [|f0 fs0]| |].
    2: { destruct (Nat.le_gt_cases (fnum f0) (fnum f')) as [Le|Gt].
         - exists (S i'), w', f', fs'. split; [exact H'|]. intros [|k] w1 g gs Hk; cbn in Hk; [injection Hk as <- <- <-; exact Le|eapply M; eauto].
         - exists 0, w0, f0, fs0. split; [reflexivity|]. intros [|k] w1 g gs Hk; cbn in Hk; [injection Hk as <- <- <-; lia|]. apply M in Hk. lia. }
    all: exists (S i'), w', f', fs'; split; [exact H'|]; intros [|k] w1 g gs Hk; cbn in Hk; [discriminate|eapply M; eauto].
  - destruct i as [|i]; [|exfalso; apply Nl; exists i, w, f, fs; exact H]. cbn in H. injection H as ->. exists 0, w, f, fs. split; [reflexivity|]. intros [|k] w1 g gs Hk; cbn in Hk; [injection Hk as <- <- <-; lia|]. exfalso. apply Nl. exists k, w1, g, gs. exact Hk.
Qed.
Lemma dec_sleep (l : list thread) : (exists j, nth_error l j = Some Sleep) \/ forall j, nth_error l j <> Some Sleep.
Proof. induction l as [|t l IH]; [right; intros []; discriminate|]. destruct IH as [[j H]|N]; [left; exists (S j); exact H|]. destruct t; try (right; intros [|j]; cbn; [discriminate|apply N]). left. exists 0. reflexivity. Qed.
Lemma dec_in x (l : list nat) : In x l \/ ~ In x l.
Proof. destruct (in_dec Nat.eq_dec x l); auto. Qed.
Lemma frame_steps s i w f fs : inv s -> at_ s i (Stack w (f :: fs)) -> (forall x j k, code f = Wait j k -> nth_error (futs f) j = Some x -> md f = Block -> In x (finished s)) -> exists t, step s t.
Proof.
  intros I Hi Hb. pose proof (i_stack s I i w _ Hi) as (A & B & C & D & E). apply Forall_cons_iff in B as [B1 B2]. apply Forall_cons_iff in C as [C1 C2].
  destruct f as [n fu c m]. cbn [futs code md] in *. destruct B1 as (inh & O & L & N1 & N2). cbn [futs code fnum] in *. destruct m.
  - destruct c as [|c k|j k].
    + eexists. eapply finish. exact Hi.
    + eexists. eapply spawn_. exact Hi.
    + cbn [own] in O. destruct (nth_error fu j) as [x|] eqn:Ex; [|apply nth_error_None in Ex; lia]. destruct (dec_in x (finished s)); eexists; [eapply ready|eapply not_ready]; eauto.
  - destruct (dec_sleep (threads s)) as [[j Hj]|N]; eexists; [eapply notify_wakes|eapply notify_nobody]; eauto.
  - destruct (queue s) as [|t r] eqn:Eq; eexists; [eapply nothing_to_do|eapply help]; eauto.
  - destruct C1 as (j & k & x & Ec & Ex & _). cbn [futs code] in *. subst c. eexists. eapply unblock; eauto.
Qed.
Lemma progress s : inv s -> (exists t, step s t) \/ complete s.
Proof.
  intros I.
  assert (DecA : (exists i, at_ s i Awake) \/ forall i, ~ at_ s i Awake).
  { unfold at_. induction (threads s) as [|t l IH]; [right; intros []; discriminate|]. destruct IH as [[j H]|N]; [left; exists (S j); exact H|]. destruct t; try (right; intros [|j]; cbn; [discriminate|apply N]). left. exists 0. reflexivity. }
  destruct DecA as [[i Hi]|NA]. { left. destruct (queue s) as [|t r] eqn:Eq; eexists; [eapply sleep|eapply take]; eauto. }
  assert (DecS : (exists i w f fs, nth_error (threads s) i = Some (Stack w (f :: fs))) \/ forall i t, at_ s i t -> t = Stack false [] \/ t = Sleep).
  { assert (G : forall l, (forall i, nth_error l i <> Some Awake) -> (forall i, nth_error l i <> Some (Stack true [])) -> (exists i w f fs, nth_error l i = Some (Stack w (f :: fs))) \/ forall i t, nth_error l i = Some t -> t = Stack false [] \/ t = Sleep).
    { induction l as [|t l IH]; intros N1 N2; [right; intros []; discriminate|]. destruct IH as [(i & w & f & fs & H)|N]; [intros i; apply (N1 (S i))|intros i; apply (N2 (S i))|left; exists (S i), w, f, fs; exact H|].
      destruct t as [[] [|f fs]| |].
      - exfalso. now apply (N2 0).
      - left. exists 0, true, f, fs. reflexivity.
      - right. intros [|i] t Ht; cbn in Ht; [injection Ht as <-; now left|eauto].
      - left. exists 0, false, f, fs. reflexivity.
      - exfalso. now apply (N1 0).
      - right. intros [|i] t Ht; cbn in Ht; [injection Ht as <-; now right|eauto]. }
    apply G; [exact NA|]. intros i Hi. pose proof (i_stack s I i true [] Hi) as (_ & _ & _ & _ & E). now apply E. }
  destruct DecS as [Hs|Hall].
  - left. destruct (max_top _ Hs) as (i & w & f & fs & Hi & M). apply (frame_steps s i w f fs I Hi). intros x j k Ec Ex Em.
    pose proof (i_stack s I i w _ Hi) as (A & B & C & D & E). apply Forall_cons_iff in B as [B1 B2]. apply Forall_cons_iff in C as [C1 C2]. unfold good_mode in C1. rewrite Em in C1. destruct C1 as (j' & k' & x' & Ec' & Ex' & Hx'). rewrite Ec in Ec'. injection Ec' as <- <-. rewrite Ex in Ex'. injection Ex' as <-.
    destruct B1 as (inh & O & L & N1 & N2). rewrite Ec in O. cbn [own] in O. assert (Hfx : fnum f < x) by (eapply N2; [|exact Ex]; lia). pose proof (N1 _ _ Ex) as Hxn.
    destruct (i_placed s I x Hxn) as [Hf|[(u & Hu & Eu)|(i2 & w2 & fs2 & g & H2 & Hg & Eg)]]; [exact Hf| |].
    + exfalso. pose proof (numbered_range _ _ _ _ (i_num s I) Hu). lia.
    + exfalso. destruct fs2 as [|g0 fs2]; [destruct Hg|]. pose proof (M _ _ _ _ H2) as Hm. pose proof (i_stack s I i2 w2 _ H2) as ((_ & Ab) & _). destruct Hg as [->|Hg]; [lia|]. pose proof (below_all _ _ _ Ab Hg). lia.
  - right. split; [exact Hall|]. destruct (dec_sleep (threads s)) as [[j Hj]|N].
    + left. assert (Eq : queue s = []).
      { pose proof (i_wake s I (ex_intro _ j Hj)) as W. assert (Cz : count helper (threads s) = 0).
        { unfold count. replace (filter helper (threads s)) with (@nil thread); [reflexivity|]. symmetry. assert (F : forall t, In t (threads s) -> helper t = false). { intros t Ht. apply In_nth_error in Ht as [i Hi]. destruct (Hall i t Hi); subst; reflexivity. }
          clear - F. induction (threads s) as [|x l IH]; [reflexivity|]. cbn. rewrite (F x) by now left. apply IH. intros p Hp. apply F. now right. }
        rewrite Cz in W. destruct (queue s); [reflexivity|cbn in W; lia]. }
      split; [exact Eq|]. intros x Hx. destruct (i_placed s I x Hx) as [Hf|[(u & Hu & _)|(i2 & w2 & fs2 & g & H2 & Hg & _)]]; [exact Hf|rewrite Eq in Hu; destruct Hu|]. destruct (Hall _ _ H2) as [Es|Es]; [injection Es as -> ->; destruct Hg|discriminate].
    + right. intros i t Ht. destruct (Hall i t Ht) as [|E]; [assumption|]. subst. exfalso. exact (N i Ht).
Qed.
