(** C75: auditors are shown objects under a key and give them back later. *)
From Coq Require Import String Ascii List Arith Bool Lia.
From Verif Require Import Base StringModel StringSpec StringProofs AuditModel AuditSpec AuditProofs.
Import ListNotations.

(** After any history, what each auditor holds under a key is what is written on its page under the key, in order of time. *)
Theorem C75_remembers : forall xs i p, nth_error (after xs) i = Some p ->
  exists a, nth_error (w_auditors (fst (run start xs))) i = Some a /\ a_mode a = p_mode p /\
    forall key, map snd (mm_range (a_bag a) key) = told key (p_log p).
Proof.
  intros xs i p E. pose proof (hold_nth _ _ i (start_holds xs)) as N. rewrite E in N. destruct N as (a & A & M & _ & H).
  exists a. auto.
Qed.
Print Assumptions C75_remembers.

(** Showing an object returns when every auditor of the environment is reading; otherwise it throws at the first that is not, and
    those before it keep what they were shown (the pages say so). *)
Theorem C75_show : forall xs e key v, let w := fst (run start xs) in
  snd (step w (Show e key v)) = Shown
    match List.find (fun i => negb (readingb (mode_of (after xs) i))) (auditors_of e) with
    | None => Ok tt
    | Some i => match mode_of (after xs) i with None => UB | Some _ => Throw end
    end.
Proof.
  intros xs e key v w. cbn [step]. pose proof (audit_holds e key v w (after xs) (start_holds xs)) as (_ & A & _).
  destruct (audit e key v w) as [w' o]. cbn in *. rewrite A. f_equal. clear.
  induction e as [|[i|] r IH]; cbn; [reflexivity| |exact IH]. destruct (mode_of (after xs) i) as [[]|] eqn:M; cbn; try rewrite M; auto.
Qed.
Print Assumptions C75_show.

(** Asking for a key: if no object of the type is shown the destination stays empty; if all the auditors show one and the same
    object the destination is set to it; if they show different ones the call throws, and the destination is left set to the
    first. *)
Theorem C75_ask : forall xs is_T e key, let w := fst (run start xs) in let ps := after xs in
  set_up ps e -> warm w ps e ->
  (shown is_T ps e key = [] -> snd (step w (Ask is_T e key (Some None))) = Asked (Some None) (Ok tt)) /\
  (forall x l, shown is_T ps e key = x :: l -> (forall y, In y l -> y = x) ->
    snd (step w (Ask is_T e key (Some None))) = Asked (Some (Some x)) (Ok tt)) /\
  (forall x l, shown is_T ps e key = x :: l -> (exists y, In y l /\ y <> x) ->
    snd (step w (Ask is_T e key (Some None))) = Asked (Some (Some x)) Throw).
Proof.
  intros xs is_T e key w ps S W. pose proof (recall_settle is_T e key w ps None (start_holds xs) S W) as R.
  cbn [step recall is_empty]. destruct (recall_loop is_T e key w None) as [[w' v'] o]. cbn [snd].
  split; [|split].
  - intro E. rewrite E in R. cbn in R. injection R as -> ->. reflexivity.
  - intros x l E A. rewrite E in R. cbn in R. rewrite settle_same in R. { injection R as -> ->. reflexivity. }
    apply Forall_forall. intros y I. symmetry. apply A, I.
  - intros x l E (y & I & D). rewrite E in R. cbn in R. rewrite settle_differ in R. { injection R as -> ->. reflexivity. }
    intro F. rewrite Forall_forall in F. apply D. symmetry. apply F, I.
Qed.
Print Assumptions C75_ask.

(** A destination that is a null pointer or already set makes the call throw before anything is looked at. *)
Theorem C75_destination : forall w is_T e key dst, dst <> Some None -> step w (Ask is_T e key dst) = (w, Asked dst Throw).
Proof. intros w is_T e key [[x|]|] H; cbn; try reflexivity. contradiction. Qed.
Print Assumptions C75_destination.

(** Asking changes nothing that any auditor holds or does. *)
Theorem C75_ask_changes_nothing : forall xs is_T e key dst,
  w_auditors (fst (run start (xs ++ [Ask is_T e key dst]))) = w_auditors (fst (run start xs)).
Proof.
  intros xs is_T e key dst.
  assert (forall ys w, fst (run w (ys ++ [Ask is_T e key dst])) = fst (step (fst (run w ys)) (Ask is_T e key dst))) as R.
  { induction ys as [|y r IH]; intro w; cbn [app run fst].
    - destruct (step w (Ask is_T e key dst)). reflexivity.
    - destruct (step w y) as [w' s]. specialize (IH w'). destruct (run w' (r ++ _)), (run w' r). exact IH. }
  rewrite R. generalize (fst (run start xs)). intro w. cbn [step]. unfold recall. destruct dst as [[x|]|]; try reflexivity.
  pose proof (recall_auditors is_T e key w None) as A. cbn [is_empty]. destruct (recall_loop is_T e key w None) as [[w' v'] o]. exact A.
Qed.
Print Assumptions C75_ask_changes_nothing.

(** An object shown to a reading auditor that has nothing under the key is given back, whatever the case of the key asked for. *)
Theorem C75_give_back : forall xs i p key key' x is_T m, nth_error (after xs) i = Some p ->
  m = READING /\ told key (p_log p) = [] \/ m = READING_EXCLUSIVE -> same_up_to_case key key' -> is_T x = true ->
  last (snd (run start (xs ++ [SetMode i m; Show [EAuditor i] key (Some x); SetMode i SHOWING; Ask is_T [EAuditor i] key' (Some None)]))) Silent
  = Asked (Some (Some x)) (Ok tt).
Proof.
  intros xs i p key key' x is_T m E M K T.
  set (ys := xs ++ [SetMode i m; Show [EAuditor i] key (Some x); SetMode i SHOWING]).
  assert (xs ++ [SetMode i m; Show [EAuditor i] key (Some x); SetMode i SHOWING; Ask is_T [EAuditor i] key' (Some None)] = ys ++ [Ask is_T [EAuditor i] key' (Some None)]) as ->
    by (unfold ys; rewrite <- app_assoc; reflexivity).
  assert (forall zs w a, last (snd (run w (zs ++ [a]))) Silent = snd (step (fst (run w zs)) a)) as L.
  { induction zs as [|z r IH]; intros w a; cbn [app run fst].
    - destruct (step w a). reflexivity.
    - destruct (step w z) as [w' s]. specialize (IH w' a).
      assert (snd (run w' (r ++ [a])) <> []) as N.
      { destruct r as [|z' r']; cbn [app run]; [destruct (step w' a)|destruct (step w' z') as [w2 s2]; destruct (run w2 _)]; discriminate. }
      destruct (run w' (r ++ [a])) as [w1 l1], (run w' r) as [w2 l2]. cbn in *. destruct l1; [contradiction|exact IH]. }
  rewrite L.
  assert (forall ps (f : page -> page) q, nth_error ps i = Some q -> nth_error (at_page ps i f) i = Some (f q)) as P.
  { clear. induction i as [|i IH]; intros [|p r] f q H; cbn in *; try discriminate; [congruence|apply IH, H]. }
  assert (exists q, nth_error (after ys) i = Some q /\ p_mode q = Some SHOWING /\ told key' (p_log q) = [Some x] /\ p_log q <> []) as (q & Q & Q1 & Q2 & Q3).
  { unfold ys, after. rewrite fold_left_app. fold (after xs). cbn [fold_left].
    pose proof (P _ (fun p0 => Page (Some m) (p_log p0)) p E) as E1. cbn [after1].
    set (ps1 := at_page (after xs) i (fun p0 => Page (Some m) (p_log p0))) in *.
    assert (reached ps1 [EAuditor i] = [i]) as -> .
    { cbn. unfold mode_of. rewrite E1. cbn. destruct M as [[-> _]| ->]; reflexivity. }
    cbn [fold_left]. eexists. split; [apply P, P, E1|]. cbn [p_mode p_log]. split; [reflexivity|].
    assert (ci_eqb key key' = true) as C by (apply ci_eqb_iff, K).
    assert (forall l, told key l = [] -> told key' l = []) as Z.
    { intros l H. unfold told in *. destruct (filter (fun p0 => ci_eqb (fst p0) key) l) eqn:F; [|discriminate].
      assert (filter (fun p0 => ci_eqb (fst p0) key') l = []) as ->; [|reflexivity].
      rewrite <- F. apply filter_ext. intro a. apply eq_iff_eq_true. split; intro G.
      - apply ci_eqb_trans with key'; [exact G|rewrite ci_eq_sym; exact C].
      - apply ci_eqb_trans with key; assumption. }
    unfold jot. destruct M as [[-> M]| ->]; cbn [p_mode p_log].
    - split; [rewrite told_app, told_one, C, (Z _ M); reflexivity|]. destruct (p_log p); discriminate.
    - split; [rewrite told_app, told_one, told_others, C; reflexivity|]. destruct (others key (p_log p)); discriminate. }
  apply (proj1 (proj2 (C75_ask ys is_T [EAuditor i] key'
    ltac:(intros j [<-|[]]; exists SHOWING; unfold mode_of; rewrite Q; exact Q1)
    ltac:(right; cbn; exists q; split; assumption))) x []); [|intros y []].
  unfold shown, shows. cbn [auditors_of flat_map]. rewrite Q, Q1, Q2. cbn. rewrite T. reflexivity.
Qed.
Print Assumptions C75_give_back.

(** A bag made from keys and objects keeps each object under its key, in the order given; written and built again it is the same
    bag; a bag with a null object in it cannot be written. *)
Theorem C75_bag : forall ks vs m, zip_to_multimap ks vs = Ok m ->
  (forall key, map_values (mm_range m key) = told key (combine ks vs)) /\
  (Forall (fun h => h <> None) vs -> exists members, bag_write m = Ok members /\ bag_build members = Ok m) /\
  (In None vs -> bag_write m = Throw).
Proof.
  intros ks vs m E. unfold zip_to_multimap in E. destruct (Nat.eqb (length ks) (length vs)) eqn:L; [|discriminate].
  apply Nat.eqb_eq in L. injection E as E. rewrite zip_all in E by exact L. symmetry in E.
  assert (ordered m) as O by (subst m; apply fold_insert_ordered; constructor).
  assert (forall l q (h : handle), In h (map snd (fold_left (fun q p => mm_insert q (fst p) (snd p)) l q)) <-> In h (map snd q) \/ In h (map snd l)) as I.
  { induction l as [|[k v] r IH]; intros q h; cbn; [tauto|]. rewrite IH.
    assert (In h (map snd (mm_insert q k v)) <-> In h (map snd q) \/ v = h) as ->; [|tauto].
    clear. induction q as [|[x w] r IH]; cbn; [tauto|]. destruct (ci_compare k x); cbn; try rewrite IH; tauto. }
  assert (forall h, In h (map_values m) <-> In h vs) as J.
  { intro h. subst m. unfold map_values. rewrite I. cbn.
    assert (map snd (combine ks vs) = vs) as ->; [|tauto]. clear - L. revert vs L. induction ks; intros [|v vs] L; try discriminate; cbn; [reflexivity|].
    rewrite IHks by (cbn in L; lia). reflexivity. }
  split; [|split].
  - intro key. subst m. unfold map_values, told. rewrite fold_range by constructor. reflexivity.
  - intro F. unfold bag_write. destruct (existsb is_empty (map_values m)) eqn:X.
    + apply existsb_exists in X. destruct X as (h & Hi & He). apply J in Hi. rewrite Forall_forall in F. specialize (F h Hi). destruct h; [discriminate|contradiction].
    + eexists. split; [reflexivity|]. apply rebuild, O.
  - intro N. unfold bag_write. assert (existsb is_empty (map_values m) = true) as ->; [|reflexivity].
    apply existsb_exists. exists None. split; [apply J, N|reflexivity].
Qed.
Print Assumptions C75_bag.
(** keys and objects of different numbers are refused *)
Theorem C75_bag_sizes : forall ks vs, length ks <> length vs -> zip_to_multimap ks vs = Throw.
Proof. intros ks vs H. unfold zip_to_multimap. destruct (Nat.eqb (length ks) (length vs)) eqn:E; [apply Nat.eqb_eq in E; contradiction|reflexivity]. Qed.
Print Assumptions C75_bag_sizes.
(** and so is the bag of an auditor, after any history: saved and loaded, it gives the same answers *)
Theorem C75_auditor_bag : forall xs a members, In a (w_auditors (fst (run start xs))) -> bag_write (a_bag a) = Ok members -> bag_build members = Ok (a_bag a).
Proof.
  intros xs a members I E. apply In_nth_error in I. destruct I as [i I]. pose proof (start_holds xs) as H. unfold all_hold in H.
  pose proof (hold_nth _ _ i H) as N. destruct (nth_error (after xs) i); [|rewrite I in N; discriminate].
  destruct N as (b & B & _ & O & _). rewrite I in B. injection B as <-. unfold bag_write in E.
  destruct (existsb is_empty (map_values (a_bag a))); [discriminate|]. injection E as <-. apply rebuild, O.
Qed.
Print Assumptions C75_auditor_bag.

(** The findings.  An auditor whose mode has not been set yet makes showing undefined; so does asking, even when other auditors
    hold the answer. *)
Theorem C75_unset_refuted : forall key v is_T,
  snd (run start [Make; Show [EAuditor 0] key v]) = [Silent; Shown UB] /\
  snd (run start [Make; SetMode 0 READING; Show [EAuditor 0] key (Some 0); SetMode 0 SHOWING; Make; Ask is_T [EAuditor 0; EAuditor 1] key (Some None)]) =
    [Silent; Silent; Shown (Ok tt); Silent; Silent; Asked (Some (if is_T 0 then Some 0 else None)) UB].
Proof.
  intros key v is_T. split; [reflexivity|]. cbn. unfold find. cbn. unfold mm_range. cbn. rewrite is_key_eqb. cbn. rewrite ci_eqb_refl. cbn.
  destruct (is_T 0); cbn; reflexivity.
Qed.
Print Assumptions C75_unset_refuted.
(** The first question of a process put to an auditor with nothing in its bag is undefined: even when it is showing, and even when
    the next auditor holds the answer. *)
Theorem C75_first_refuted : forall is_T key m, snd (run start [Make; SetMode 0 m; Ask is_T [EAuditor 0] key (Some None)]) = [Silent; Silent; Asked (Some None) UB].
Proof. intros. reflexivity. Qed.
Print Assumptions C75_first_refuted.
(** A passive auditor does not ignore what it is shown: the call throws, and the auditors behind it are shown nothing. *)
Theorem C75_passive_refuted : forall key v, let xs := [Make; Make; SetMode 0 PASSIVE; SetMode 1 READING; Show [EAuditor 0; EAuditor 1] key v] in
  last (snd (run start xs)) Silent = Shown Throw /\ nth_error (after xs) 1 = Some (Page (Some READING) []).
Proof. intros. split; reflexivity. Qed.
Print Assumptions C75_passive_refuted.

(** tests/storage/test_audit.cpp, with two auditors, two types and a key in another case *)
Definition K := lit "sample_data".
Definition even (n : nat) : bool := Nat.even n.
Definition story : list event :=
  [Make; Make; SetMode 0 READING; SetMode 1 READING_EXCLUSIVE; Show [EOther; EAuditor 0; EAuditor 1] K (Some 3);
   Show [EAuditor 0; EAuditor 1] (lit "SAMPLE_DATA") (Some 4); SetMode 0 SHOWING; SetMode 1 SHOWING].
Example story_logs : after story = [Page (Some SHOWING) [(K, Some 3); (lit "SAMPLE_DATA", Some 4)]; Page (Some SHOWING) [(lit "SAMPLE_DATA", Some 4)]].
Proof. vm_compute. reflexivity. Qed.
Example story_ready : set_up (after story) [EAuditor 0; EOther; EAuditor 1] /\ warm (fst (run start story)) (after story) [EAuditor 0; EOther; EAuditor 1].
Proof.
  split.
  - intros i [<-|[<-|[]]]; exists SHOWING; vm_compute; reflexivity.
  - right. cbn [auditors_of]. eexists. split; [vm_compute; reflexivity|discriminate].
Qed.
Example story_asks :
  shown even (after story) [EAuditor 0; EOther; EAuditor 1] K = [4; 4] /\ shown (fun _ => true) (after story) [EAuditor 0] K = [3; 4] /\
  shown even (after story) [EAuditor 0] (lit "other") = [].
Proof. vm_compute. auto. Qed.
Example story_answers : map (fun x => snd (step (fst (run start story)) x))
  [Ask even [EAuditor 0; EAuditor 1] K (Some None); Ask (fun _ => true) [EAuditor 0] K (Some None); Ask even [EAuditor 1] (lit "other") (Some None)] =
  [Asked (Some (Some 4)) (Ok tt); Asked (Some (Some 3)) Throw; Asked (Some None) (Ok tt)].
Proof. vm_compute. reflexivity. Qed.
Example bag_case : exists m, zip_to_multimap [lit "b"; lit "a"; lit "B"] [Some 1; Some 2; Some 3] = Ok m /\ m = [(lit "a", Some 2); (lit "b", Some 1); (lit "B", Some 3)].
Proof. eexists. split; vm_compute; reflexivity. Qed.
