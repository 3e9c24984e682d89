(** C26: global values; C27: fixing histories. *)
From Coq Require Import String Ascii ZArith List Bool Lia Sorted.
From Verif Require Import Base StringModel StringSpec StringProofs OMap RepoModel RepoSpec RepoProofs RepoProps GlobalModel GlobalSpec GlobalProofs FixingProofs.
Import ListNotations.
Open Scope Z_scope.

(** * C26 *)
(** Reading a name returns the last value stored under it, whatever else was stored or done with the repository meanwhile;
    nothing (an empty table) if there is none. *)
Theorem C26_last_write_wins : forall N T uniq regex alloc (l : list (@event N T)) name v,
  address_text uniq -> allocator alloc -> all_proper uniq regex alloc [] l -> ~ In "~"%char name -> last_stored name l v ->
  store_get (fold_left (happen uniq regex alloc) l []) name = Ok (match v with Some c => c | None => [] end).
Proof.
  intros N T uniq regex alloc l name v Hu Ha Hp Hn Hl.
  destruct (last_stored_stored uniq alloc Hu Ha regex l name v Hl Hp Hn) as [Hs He].
  assert (G0 : good uniq ([] : omap str (object (option (table N T))))) by (split; [constructor|intros k o []]).
  rewrite (store_get_stored uniq _ name v (happen_all uniq alloc Hu Ha regex l [] G0 Hp) Hn Hs). destruct v as [c|]; [now rewrite He|reflexivity].
Qed.
Print Assumptions C26_last_write_wins.
Definition next_address {N T} (m : omap str (object (option (table N T)))) : Z := 1 + fold_right (fun e a => Z.max (oaddr (snd e)) a) 0 m.
Lemma next_address_ok {N T} : allocator (@next_address N T).
Proof.
  intros m k o H E. unfold next_address in E.
  assert (oaddr o <= fold_right (fun e a => Z.max (oaddr (snd e)) a) 0 m); [|lia]. clear E.
  induction m as [|[k' o'] m IH]; [destruct H|]. cbn [fold_right snd]. destruct H as [H|H]; [injection H as -> ->; lia|]. specialize (IH H). lia.
Qed.
Example C26_last_write_example :
  let b := Obj (lit "Curve") (lit "EvaluationDate") 77 None in
  let l := [ESet (lit "x") [[CNum 1]]; EOp (OAdd b EName); ESet (lit "X") [[CNum 2]]; ESet (lit "y") [[CNum 3]]] in
  all_proper (N := Z) (T := Z) address (fun _ => None) next_address [] l /\ last_stored (lit "x") l (Some [[CNum 2]]) /\
  store_get (fold_left (happen address (fun _ => None) next_address) l []) (lit "x") = Ok [[CNum 2]].
Proof.
  cbv zeta. split; [|split; [|vm_compute; reflexivity]].
  - assert (T : forall s, In s (lit "x" :: lit "X" :: lit "y" :: lit "Curve" :: lit "EvaluationDate" :: nil) -> ~ In "~"%char s).
    { cbn [In]. intros s H. repeat destruct H as [<-|H]; try destruct H; cbn; intros H; repeat destruct H as [H|H]; try discriminate; auto. }
    assert (D : forall a, same_up_to_case (lit "Curve") a -> same_up_to_case (lit "Box") a -> False).
    { intros a H1 H2. apply same_length in H1. apply same_length in H2. rewrite <- H2 in H1. discriminate. }
    split; [split; [apply T; cbn; tauto|reflexivity]|]. split; [split|].
    + intros name. split; [intros [H _]; eapply D; [apply same_refl|apply same_sym; exact H]|].
      intros x [H1 _] [H2 _]. cbn [otype] in H2. eapply D; [apply same_sym, H2|apply same_sym; exact H1].
    + split; [apply T; cbn; tauto|]. split; [apply T; cbn; tauto|]. intros x Hx Ea. vm_compute in Hx. destruct Hx as [<-|[]]. discriminate.
    + split; [split; [apply T; cbn; tauto|reflexivity]|]. split; [split; [apply T; cbn; tauto|reflexivity]|exact Logic.I].
  - set (e1 := ESet (lit "x") _). set (e2 := EOp _). set (e3 := ESet (lit "X") _). set (e4 := ESet (lit "y") _).
    change [e1; e2; e3; e4] with ([e1; e2; e3] ++ [e4]). apply ls_other; [intros H; apply ci_eqb_iff in H; discriminate|].
    change [e1; e2; e3] with ([e1; e2] ++ [e3]). apply ls_here. apply ci_eqb_iff. reflexivity.
Qed.

(** The date a reader sees. *)
Definition visible {N T} uniq alloc today (s : @gstate N T) (w : which) : option Z :=
  match get_date uniq alloc today (objects s) w with Ok (_, d) => Some d | _ => None end.
Definition start {N T} : @gstate N T := GState [] [].

Section Dates.
  Context {N T : Type}.
  Variable uniq : Z -> str.
  Variable alloc : omap str (object (option (table N T))) -> Z.
  Variable today : Z.
  Hypothesis Hu : address_text uniq.
  Hypothesis Ha : allocator alloc.
  Lemma dates_start : dates (N := N) (T := T) uniq [] (fun _ => None).
  Proof. split; [split; [constructor|intros k o []]|]. intros w y []. Qed.
  Lemma visible_dates m cur o w : dates uniq m cur -> visible uniq alloc today (GState m o) w = Some (val today cur w).
  Proof. intros Hd. unfold visible. cbn [objects]. destruct (get_date_dates uniq alloc Hu Ha today m cur w Hd) as (m' & -> & _). reflexivity. Qed.
  Lemma run_dates l : forall s s', (exists cur, dates uniq (objects s) cur) -> run uniq alloc today s l = Ok s' -> exists cur, dates uniq (objects s') cur.
  Proof.
    induction l as [|c l IH]; intros s s' [cur Hd] H; [injection H as <-; eauto|]. cbn [run] in H.
    destruct (run_cmd uniq alloc today s c) as [s1| | |] eqn:E; cbn [obind] in H; try discriminate. apply (IH s1 s'); [|exact H].
    destruct c as [w d|w|w d|w d|]; cbn [run_cmd] in E.
    - injection E as <-. cbn [objects]. eexists. apply (set_date_dates uniq alloc Hu Ha). exact Hd.
    - destruct (get_date_dates uniq alloc Hu Ha today _ _ w Hd) as (m' & G & D). rewrite G in E. cbn [obind] in E. injection E as <-. cbn [objects]. eauto.
    - destruct (get_date_dates uniq alloc Hu Ha today _ _ w Hd) as (m' & G & D). rewrite G in E. cbn [obind] in E. injection E as <-. cbn [objects].
      eexists. apply (set_date_dates uniq alloc Hu Ha). exact D.
    - destruct (overrides s); [discriminate|].
      destruct (get_date_dates uniq alloc Hu Ha today _ _ w Hd) as (m' & G & D). rewrite G in E. cbn [obind] in E. injection E as <-. cbn [objects].
      eexists. apply (set_date_dates uniq alloc Hu Ha). exact D.
    - destruct (overrides s) as [|[w x] r]; [discriminate|]. injection E as <-. cbn [objects]. eexists. apply (set_date_dates uniq alloc Hu Ha). exact Hd.
  Qed.
End Dates.

(** A write is seen by the next reader, and the other date is not affected. *)
Theorem C26_dates : forall N T uniq alloc today pre s w d, address_text uniq -> allocator alloc ->
  run uniq alloc today (@start N T) pre = Ok s ->
  exists s', run uniq alloc today s [Write w d] = Ok s' /\ visible uniq alloc today s' w = Some d /\
    forall x, x <> w -> visible uniq alloc today s' x = visible uniq alloc today s x.
Proof.
  intros N T uniq alloc today pre s w d Hu Ha H. destruct (run_dates uniq alloc today Hu Ha pre start _ (ex_intro _ _ (dates_start uniq)) H) as [cur Hd].
  pose proof (set_date_dates uniq alloc Hu Ha _ _ w d Hd) as Hd'. eexists. split; [reflexivity|]. split.
  - rewrite (visible_dates uniq alloc today Hu Ha _ _ _ w Hd'), val_upd. destruct w; reflexivity.
  - intros x Hx. rewrite (visible_dates uniq alloc today Hu Ha _ _ _ x Hd'), val_upd. destruct s as [m o].
    rewrite (visible_dates uniq alloc today Hu Ha m cur o x Hd). destruct w, x; try reflexivity; congruence.
Qed.
Print Assumptions C26_dates.
(** An override is in force until it is written over or closed; when it is closed the date is what it was before, in any nesting
    and whatever was written meanwhile. *)
Theorem C26_override_undone : forall N T uniq alloc today pre s w d body, address_text uniq -> allocator alloc ->
  run uniq alloc today (@start N T) pre = Ok s -> balanced body ->
  (exists s1, run uniq alloc today s [Open w d] = Ok s1 /\ visible uniq alloc today s1 w = Some d /\
     forall x, x <> w -> visible uniq alloc today s1 x = visible uniq alloc today s x) /\
  (exists s2, run uniq alloc today s (Open w d :: body ++ [Close]) = Ok s2 /\ overrides s2 = overrides s /\
     visible uniq alloc today s2 w = visible uniq alloc today s w).
Proof.
  intros N T uniq alloc today pre [m o] w d body Hu Ha H Hb.
  destruct (run_dates uniq alloc today Hu Ha pre start _ (ex_intro _ _ (dates_start uniq)) H) as [cur Hd]. cbn [objects] in Hd. split.
  - cbn [run run_cmd objects overrides]. destruct (get_date_dates uniq alloc Hu Ha today m cur w Hd) as (m1 & -> & D1). cbn [obind].
    pose proof (set_date_dates uniq alloc Hu Ha _ _ w d D1) as D2. eexists. split; [reflexivity|]. split.
    + rewrite (visible_dates uniq alloc today Hu Ha _ _ _ w D2), val_upd. destruct w; reflexivity.
    + intros x Hx. rewrite (visible_dates uniq alloc today Hu Ha _ _ _ x D2), val_upd, (visible_dates uniq alloc today Hu Ha m cur o x Hd), val_read.
      destruct w, x; try reflexivity; congruence.
  - cbn [run run_cmd objects overrides]. destruct (get_date_dates uniq alloc Hu Ha today m cur w Hd) as (m1 & -> & D1). cbn [obind].
    apply (set_date_dates uniq alloc Hu Ha _ _ w d) in D1.
    destruct (run_balanced uniq alloc Hu Ha today body Hb _ _ ((w, val today cur w) :: o) D1) as (m2 & cur2 & R2 & D2 & _).
    rewrite run_app, R2. cbn [obind run run_cmd overrides objects]. eexists. split; [reflexivity|]. split; [reflexivity|].
    rewrite (visible_dates uniq alloc today Hu Ha _ _ _ w (set_date_dates uniq alloc Hu Ha _ _ w (val today cur w) D2)), val_upd.
    rewrite (visible_dates uniq alloc today Hu Ha m cur o w Hd). destruct w; reflexivity.
Qed.
Print Assumptions C26_override_undone.
(** Balanced programs as a whole: each scope restores exactly its own date, everything else persists. *)
Theorem C26_programs : forall N T uniq alloc today p, address_text uniq -> allocator alloc -> balanced p ->
  exists s g, run uniq alloc today (@start N T) p = Ok s /\ effect p (fun _ => today) g /\ forall w, visible uniq alloc today s w = Some (g w).
Proof.
  intros N T uniq alloc today p Hu Ha Hb.
  destruct (run_balanced uniq alloc Hu Ha today p Hb [] (fun _ => None) [] (dates_start uniq)) as (m & cur & R & D & E).
  exists (GState m []), (val today cur). split; [exact R|]. split; [exact E|]. intros w. apply (visible_dates uniq alloc today Hu Ha). exact D.
Qed.
Print Assumptions C26_programs.
Example C26_programs_example :
  let p := [Write Evaluation 100; Open Evaluation 200; Open Accounting 7; Write Evaluation 300; Close; Read Accounting; Close; Write Accounting 9] in
  balanced p /\ match run address next_address 50 (@start Z Z) p with
                | Ok s => visible address next_address 50 s Evaluation = Some 100 /\ visible address next_address 50 s Accounting = Some 9
                | _ => False end.
Proof.
  cbv zeta. split; [|vm_compute; split; reflexivity]. constructor.
  apply (bal_scope Evaluation 200 [Open Accounting 7; Write Evaluation 300; Close; Read Accounting] [Write Accounting 9]); [|repeat constructor].
  apply (bal_scope Accounting 7 [Write Evaluation 300] [Read Accounting]); repeat constructor.
Qed.
(** Moving a second override into a variable forgets what the first one was to restore. *)
Theorem C26_move_assign_refuted : exists uniq alloc today d0 d1 d2, address_text uniq /\ @allocator Z Z alloc /\ d1 <> d0 /\
  match run uniq alloc today start [Write Evaluation d0; Open Evaluation d1; Assign Evaluation d2; Close] with
  | Ok s => overrides s = [] /\ visible uniq alloc today s Evaluation = Some d1
  | _ => False
  end.
Proof.
  exists address, next_address, 50, 100, 200, 300. split; [exact address_ok|]. split; [exact next_address_ok|]. split; [discriminate|]. vm_compute. split; reflexivity.
Qed.
Print Assumptions C26_move_assign_refuted.
(** Adding any box to the repository with replacement by type forgets the global dates. *)
Theorem C26_replace_by_type_refuted : exists uniq alloc today d (b : object (option (table Z Z))), address_text uniq /\ allocator alloc /\ d <> today /\ oname b = lit "mine" /\
  visible uniq alloc today (GState (fst (add uniq (set_date uniq alloc [] Evaluation d) b EType)) []) Evaluation = Some today.
Proof.
  exists address, next_address, 50, 100, (Obj (lit "Box") (lit "mine") 77 (Some [[CNum 1]])). split; [exact address_ok|]. split; [exact next_address_ok|].
  split; [discriminate|]. split; [reflexivity|]. vm_compute. reflexivity.
Qed.
Print Assumptions C26_replace_by_type_refuted.
(** An empty value cannot be read back. *)
Theorem C26_empty_value_refuted : exists uniq alloc, address_text uniq /\ @allocator Z Z alloc /\
  store_get (store_set uniq alloc [] (lit "x") []) (lit "x") = Throw.
Proof. exists address, next_address. split; [exact address_ok|]. split; [exact next_address_ok|]. vm_compute. reflexivity. Qed.
Print Assumptions C26_empty_value_refuted.

(** * C27 *)
(** After any sequence of calls, on any store that keeps what it is given: every call succeeds and reports the length of the new
    history; each history is in chronological order; reading it at a time gives the value recorded last for that time. *)
Fixpoint store_all {N T St} cmp get set (of_bool : bool -> N) (s : St) (l : list (@storing N T)) : outcome (St * list Z) :=
  match l with
  | [] => Ok (s, [])
  | c :: r => do (s1, n) <- store_fixings cmp get set of_bool s (st_index c) (st_fixings c) (st_append c);
              do (s2, ns) <- store_all cmp get set of_bool s1 r; Ok (s2, n :: ns)
  end.
Theorem C27_fixings : forall N T St (cmp : T -> T -> comparison) get set ok (of_bool : bool -> N) minus_inf (s0 : St) l,
  total_order cmp -> keeps get set ok -> ok s0 -> (forall name, get s0 name = Ok []) ->
  Forall (fun c => ~ In "~"%char (st_index c) /\ st_fixings c <> []) l ->
  exists s ns, store_all cmp get set of_bool s0 l = Ok (s, ns) /\
    (forall l' c, l = l' ++ [c] -> exists h, fix_history get of_bool s (st_index c) = Ok h /\ last ns 0 = Z.of_nat (length h)) /\
    forall index, ~ In "~"%char index -> exists h, fix_history get of_bool s index = Ok h /\ chronological cmp h /\
      forall t v, recorded cmp index t l v ->
        fix_find cmp minus_inf h t false = (match v with Some x => Ok x | None => Throw end) /\
        fix_find cmp minus_inf h t true = Ok (match v with Some x => x | None => minus_inf end).
Proof.
  intros N T St cmp get set ok of_bool minus_inf s0 l Hc Hk Hok H0 Hl.
  assert (G : forall l2 l1 s, tracks cmp of_bool get ok s l1 -> Forall (fun c => ~ In "~"%char (st_index c) /\ st_fixings c <> []) l2 ->
    exists s' ns, store_all cmp get set of_bool s l2 = Ok (s', ns) /\ tracks cmp of_bool get ok s' (l1 ++ l2) /\ length ns = length l2 /\
      (forall l' c, l2 = l' ++ [c] -> exists h, fix_history get of_bool s' (st_index c) = Ok h /\ last ns 0 = Z.of_nat (length h))).
  { induction l2 as [|c l2 IH]; intros l1 s Ht Hf.
    - exists s, []. rewrite app_nil_r. split; [reflexivity|]. split; [exact Ht|]. split; [reflexivity|]. intros l' c E. destruct l'; discriminate.
    - apply Forall_cons_iff in Hf as [[F1 F2] Hf].
      destruct (call_tracks cmp Hc of_bool get set ok Hk s l1 c Ht F1 F2) as (s1 & n & h & C1 & C2 & C3 & C4).
      destruct (IH (l1 ++ [c]) s1 C2 Hf) as (s2 & ns & R & Tr & Ln & La). exists s2, (n :: ns). cbn [store_all]. unfold call in C1. rewrite C1. cbn [obind]. rewrite R.
      split; [reflexivity|]. rewrite <- app_assoc in Tr. split; [exact Tr|]. split; [cbn; congruence|].
      intros l' c' E. destruct l2 as [|c2 l2].
      + destruct l' as [|x l']; [injection E as <-|destruct l'; discriminate]. destruct ns; [|discriminate]. cbn in R. injection R as <-. exists h. auto.
      + destruct l' as [|x l']; [discriminate|]. injection E as <- E. destruct (La l' c' E) as (h' & L1 & L2). exists h'. split; [exact L1|].
        destruct ns; [discriminate|]. exact L2. }
  destruct (G l [] s0) as (s & ns & R & [_ Tr] & _ & La); [|exact Hl|].
  { split; [exact Hok|]. intros index _. exists []. unfold fix_history. rewrite H0. split; [reflexivity|]. split; [constructor|].
    intros t v Hr. inversion Hr; subst; try reflexivity; match goal with X : _ ++ [_] = [] |- _ => destruct (app_cons_not_nil _ _ _ (eq_sym X)) end. }
  exists s, ns. split; [exact R|]. split; [exact La|]. intros index Hi. destruct (Tr index Hi) as (h & H1 & H2 & H3).
  exists h. split; [exact H1|]. split; [exact H2|]. intros t v Hr. rewrite !(fix_find_ok cmp Hc minus_inf h t _ H2), (H3 t v Hr). destruct v; auto.
Qed.
Print Assumptions C27_fixings.
(** at every time there is something recorded or there is not *)
Theorem C27_recorded_total : forall N T (cmp : T -> T -> comparison) index t (l : list (@storing N T)), exists v, recorded cmp index t l v.
Proof. intros. apply recorded_total. Qed.
Print Assumptions C27_recorded_total.
(** the object repository is such a store *)
Theorem C27_repository_keeps : forall N T uniq alloc, address_text uniq -> @allocator N T alloc ->
  exists ok, ok [] /\ keeps (@store_get N T) (store_set uniq alloc) ok /\ forall name, @store_get N T [] name = Ok [].
Proof.
  intros N T uniq alloc Hu Ha.
  exists (fun m => good uniq m /\ forall name, ~ In "~"%char name -> exists v, stored uniq m name v). split; [|split].
  - split; [split; [constructor|intros k o []]|]. intros name _. exists None. intros y [].
  - split; [|split].
    + intros m name v [Hg Hs] Hn He. split; [apply (store_set_spec uniq alloc Hu Ha m name v Hg Hn)|]. intros name' Hn'.
      destruct (ci_eqb name name') eqn:E.
      * apply ci_eqb_iff in E. exists (Some v). eapply stored_same; [exact E|]. apply (store_set_stored uniq alloc Hu Ha); assumption.
      * destruct (Hs name' Hn') as [w Hw]. exists w. apply (store_set_other uniq alloc Hu Ha); auto. intros X. apply ci_eqb_iff in X. congruence.
    + intros m name name' v [Hg Hs] Hn He E.
      assert (Hn' : ~ In "~"%char name').
      { intros Hi. apply Hn. clear -E Hi. induction E as [|x y a b H1 H2 IH]; [destruct Hi|]. destruct Hi as [->|Hi]; [left; now apply tilde_same|right; auto]. }
      rewrite (store_get_stored uniq _ name' (Some v)); [now rewrite He|apply (store_set_spec uniq alloc Hu Ha m name v Hg Hn)|exact Hn'|].
      eapply stored_same; [exact E|]. apply (store_set_stored uniq alloc Hu Ha); assumption.
    + intros m name name' v [Hg Hs] Hn Hn' He E. destruct (Hs name' Hn') as [w Hw].
      rewrite (store_get_stored uniq _ name' w); [rewrite (store_get_stored uniq m name' w); auto|apply (store_set_spec uniq alloc Hu Ha m name v Hg Hn)|exact Hn'|].
      apply (store_set_other uniq alloc Hu Ha); auto.
  - reflexivity.
Qed.
Print Assumptions C27_repository_keeps.
Example C27_example : (* a correction of the second fixing, a third fixing before them, another index *)
  let l := [Storing (lit "EQ[A]") [(10, 1); (20, 2)] true; Storing (lit "EQ[B]") [(10, 9)] true; Storing (lit "eq[a]") [(20, 3); (5, 4)] true] in
  total_order Z.compare /\ Forall (fun c => ~ In "~"%char (st_index c) /\ st_fixings c <> []) l /\
  match store_all Z.compare store_get (store_set address next_address) (fun _ => 0) [] l with
  | Ok (s, ns) => ns = [2; 1; 3] /\ fix_history store_get (fun _ => 0) s (lit "EQ[A]") = Ok [(5, 4); (10, 1); (20, 3)]
  | _ => False end.
Proof.
  cbv zeta. split.
  - split; [intros a b; rewrite (Z.compare_antisym a b); reflexivity|]. split.
    + intros a b c H1 H2. change (a < c). change (a < b) in H1. change (b < c) in H2. lia.
    + intros a b c H. apply Z.compare_eq in H as ->. reflexivity.
  - split; [|vm_compute; split; reflexivity].
    repeat constructor; try discriminate; cbn; intros H; repeat destruct H as [H|H]; try discriminate; auto.
Qed.
(** Storing an empty history in the repository makes the index unreadable, also for the next addition. *)
Theorem C27_empty_history_refuted : exists uniq alloc, address_text uniq /\ @allocator Z Z alloc /\
  exists s, store_fixings Z.compare store_get (store_set uniq alloc) (fun _ => 0) [] (lit "EQ[A]") [] true = Ok (s, 0) /\
  fix_history store_get (fun _ => 0) s (lit "EQ[A]") = Throw /\
  store_fixings Z.compare store_get (store_set uniq alloc) (fun _ => 0) s (lit "EQ[A]") [(10, 1)] true = Throw.
Proof.
  exists address, next_address. split; [exact address_ok|]. split; [exact next_address_ok|]. eexists. split; [vm_compute; reflexivity|]. split; vm_compute; reflexivity.
Qed.
Print Assumptions C27_empty_history_refuted.
