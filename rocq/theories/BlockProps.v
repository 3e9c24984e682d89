(** C33: the memory under the AAD tape. *)
From Coq Require Import ZArith List Arith Bool Lia.
From Verif Require Import Base Vec BlockModel BlockSpec BlockProofs AadStore.
Import ListNotations.

(** Whatever is recorded, marked and rewound: the list holds exactly the elements recorded and not given up, each at its own
    address, in order, forwards and backwards.  Going forwards needs the last block not to be full. *)
Theorem C33_refines : forall (T : Type) (B : nat) (blank : T) (ops : list (op T)) t, 0 < B -> spec_run ops ([], None) = Some t ->
  exists s, run B blank ops (init B blank) = Ok s /\
    (forall k x, nth_error (fst t) k = Some x -> read s (k / B, k mod B) = Ok x /\ find B s (k / B, k mod B) = Ok (k / B, k mod B)) /\
    (length (fst t) mod B <> 0 \/ fst t = [] -> enumerate B s = Ok (fst t)) /\
    (forall n, length (fst t) = S n -> step_down B s (end_ s) = Ok (n / B, n mod B) /\
       walk_down B (S (slots B s)) s (n / B, n mod B) begin_ = Ok (map (fun k => (k / B, k mod B)) (rev (seq 0 (S n))))).
Proof.
  intros T B blank ops t HB E. destruct (run_holds B blank HB ops _ _ _ (init_holds B blank HB) E) as (s & R & H). exists s. split; [exact R|]. split; [|split].
  - intros k x Hx. assert (k < length (fst t)) as Hk by (apply nth_error_Some; congruence).
    split; [|exact (find_holds B HB s t k H Hk)]. pose proof (read_place B HB s t k H Hk) as Er. unfold place_of in Er. rewrite Er. unfold get. now rewrite Hx.
  - intros Hm. apply (enumerate_holds B HB s t H). pose proof (holds_len B HB s t H) as Hl. pose proof (h_next _ _ _ H) as Hn.
    destruct (Nat.eq_dec (next s) B) as [En|]; [exfalso|lia]. destruct Hm as [Hm|Hm].
    + apply Hm. rewrite Hl, En. replace (curr s * B + B) with (S (curr s) * B) by lia. apply Nat.mod_mul. lia.
    + rewrite Hm in Hl. cbn [length] in Hl. lia.
  - intros n Hn. pose proof (holds_len B HB s t H) as Hl. pose proof (h_next _ _ _ H) as Hx. pose proof (h_curr _ _ _ H) as Hc. split.
    + unfold end_. destruct (Nat.eq_dec (next s) B) as [En|En].
      * unfold step_down. rewrite En. destruct (Nat.eqb_spec B 0); [lia|]. rewrite <- (place_of_pos B HB (curr s) (B - 1)) by lia. unfold place_of. do 3 f_equal; lia.
      * rewrite <- (place_of_pos B HB (curr s) (next s)) by lia. rewrite <- Hl, Hn. exact (step_down_place B HB s n).
    + pose proof (walk_down_places B HB s 0 n (S (slots B s))) as W. cbn [Nat.add] in W. assert (place_of B 0 = begin_) as E0 by (unfold begin_; rewrite <- (place_of_pos B HB 0 0) by exact HB; reflexivity). rewrite E0 in W. apply W. unfold slots. nia.
Qed.
Print Assumptions C33_refines.
Example C33_refines_example :
  spec_run [Emplace 1; Emplace 2; SetMark; Emplace 3; Emplace 4; RewindToMark; Emplace 5] ([], None) = Some ([1; 2; 5], Some 2) /\
  exists s, run 2 0 [Emplace 1; Emplace 2; SetMark; Emplace 3; Emplace 4; RewindToMark; Emplace 5] (init 2 0) = Ok s /\ enumerate 2 s = Ok [1; 2; 5].
Proof. split; [reflexivity|]. eexists. split; vm_compute; reflexivity. Qed.

(** An address given out stays that of its element as long as the element is kept. *)
Theorem C33_pointers : forall (T : Type) (B : nat) (blank x : T) (ops1 ops2 : list (op T)) s1 p s2 s3 l m t3, 0 < B ->
  spec_run ops1 ([], None) = Some (l, m) -> run B blank ops1 (init B blank) = Ok s1 -> emplace B blank x s1 = Ok (p, s2) ->
  keeps (length l) ops2 (l ++ [x], m) -> spec_run ops2 (l ++ [x], m) = Some t3 -> run B blank ops2 s2 = Ok s3 ->
  read s3 p = Ok x.
Proof.
  intros T B blank x ops1 ops2 s1 p s2 s3 l m t3 HB E1 R1 Em K E2 R2.
  destruct (run_holds B blank HB ops1 _ _ _ (init_holds B blank HB) E1) as (s1' & R1' & H1). rewrite R1 in R1'. injection R1' as <-.
  destruct (emplace_place B blank HB s1 l m x H1) as (s2' & Em' & H2). rewrite Em in Em'. injection Em' as -> <-.
  destruct (run_holds B blank HB ops2 _ _ _ H2 E2) as (s3' & R2' & H3). rewrite R2 in R2'. injection R2' as <-.
  assert (nth_error (fst t3) (length l) = Some x) as Hx.
  { apply (keeps_read B HB ops2 (l ++ [x]) m x (length l) t3); auto. rewrite nth_error_app2, Nat.sub_diag by lia. reflexivity. }
  assert (length l < length (fst t3)) as Hlt by (apply nth_error_Some; congruence).
  rewrite (read_place B HB s3 t3 _ H3 Hlt). unfold get. now rewrite Hx.
Qed.
Print Assumptions C33_pointers.
Example C33_pointers_example :
  spec_run [Emplace 1] ([], None) = Some ([1], None) /\ keeps 1 [SetMark; Emplace 3; Emplace 4; RewindToMark; Emplace 5] ([1; 2], None) /\
  spec_run [SetMark; Emplace 3; Emplace 4; RewindToMark; Emplace 5] ([1; 2], None) = Some ([1; 2; 5], Some 2) /\
  exists s1 s2 s3, run 2 0 [Emplace 1] (init 2 0) = Ok s1 /\ emplace 2 0 2 s1 = Ok ((0, 1), s2) /\
    run 2 0 [SetMark; Emplace 3; Emplace 4; RewindToMark; Emplace 5] s2 = Ok s3 /\ read s3 (0, 1) = Ok 2.
Proof.
  split; [reflexivity|]. split; [cbn; lia|]. split; [reflexivity|]. eexists. eexists. eexists. split; [vm_compute; reflexivity|].
  split; [vm_compute; reflexivity|]. split; [vm_compute; reflexivity|]. vm_compute. reflexivity.
Qed.

(** * Runs of slots (the derivatives and arguments of a node) *)
Inductive mop := Alloc (n : nat) | Mark | Back.
(** the runs in use, with their lengths, and how many there were at the mark *)
Definition held : Type := (list (place * nat) * option nat)%type.
Fixpoint mrun {T} (B : nat) (blank : T) (l : list mop) (s : blocks T) (h : held) : outcome (blocks T * held) :=
  match l with
  | [] => Ok (s, h)
  | Alloc n :: r => do (q, s') <- emplace_multi B blank n s; mrun B blank r s' (fst h ++ [(q, n)], snd h)
  | Mark :: r => mrun B blank r (set_mark B blank s) (fst h, Some (length (fst h)))
  | Back :: r => do s' <- rewind_to_mark s; mrun B blank r s' (match snd h with Some k => firstn k (fst h) | None => fst h end, snd h)
  end.
Fixpoint marked (l : list mop) (m : bool) : Prop :=
  match l with [] => True | Alloc _ :: r => marked r m | Mark :: r => marked r true | Back :: r => m = true /\ marked r m end.
Definition fits (B : nat) (l : list mop) : Prop := Forall (fun o => match o with Alloc n => n <= B | _ => True end) l.
(** slot [p] is in run [r] *)
Definition slot_in (p : place) (r : place * nat) : Prop := fst p = fst (fst r) /\ snd (fst r) <= snd p < snd (fst r) + snd r.

Section Runs.
Context {T : Type} (B : nat) (blank : T).
Hypothesis HB : 0 < B.
Notation pos := (pos B).
Fixpoint ordered (bot top : nat) (l : list (place * nat)) : Prop :=
  match l with [] => bot <= top | (q, n) :: r => bot <= pos q /\ snd q + n <= B /\ ordered (pos q + n) top r end.
Lemma ordered_app l bot top q n top' : ordered bot top l -> top <= pos q -> snd q + n <= B -> pos q + n <= top' -> ordered bot top' (l ++ [(q, n)]).
Proof using. clear HB. revert bot. induction l as [|[p k] l IH]; intros bot H1 H2 H3 H4; cbn [ordered app] in *; [lia|]. destruct H1 as (A1 & A2 & A3). auto. Qed.
Lemma ordered_le l bot top top' : ordered bot top l -> top <= top' -> ordered bot top' l.
Proof using. clear HB. revert bot. induction l as [|[p k] l IH]; intros bot H1 H2; cbn [ordered] in *; [lia|]. destruct H1 as (A1 & A2 & A3). auto. Qed.
Lemma ordered_bot l bot top : ordered bot top l -> bot <= top.
Proof using. clear HB. revert bot. induction l as [|[p k] l IH]; intros bot H; cbn [ordered] in *; [lia|]. destruct H as (A1 & A2 & A3). apply IH in A3. lia. Qed.
Lemma ordered_sep l bot top j r p : ordered bot top l -> nth_error l j = Some r -> slot_in p r -> bot <= pos p.
Proof using.
  clear HB. revert bot j. induction l as [|[q n] l IH]; intros bot [|j] H Hr Hp; try discriminate; cbn [ordered] in H; destruct H as (A1 & A2 & A3).
  - injection Hr as <-. destruct Hp as [P1 P2]. cbn [fst snd] in *. unfold BlockProofs.pos in *. rewrite P1. lia.
  - cbn [nth_error] in Hr. pose proof (IH _ _ A3 Hr Hp). lia.
Qed.
Lemma ordered_disjoint l bot top : ordered bot top l -> forall i j ri rj p, nth_error l i = Some ri -> nth_error l j = Some rj -> slot_in p ri -> slot_in p rj -> i = j.
Proof using.
  clear HB. revert bot. induction l as [|[q n] l IH]; intros bot H i j ri rj p Hi Hj Pi Pj; [destruct i; discriminate|]. cbn [ordered] in H. destruct H as (A1 & A2 & A3).
  assert (forall k r, nth_error l k = Some r -> slot_in p r -> slot_in p (q, n) -> False) as X.
  { intros k r Hk Pr [P1 P2]. pose proof (ordered_sep _ _ _ _ _ _ A3 Hk Pr) as Y. cbn [fst snd] in *. unfold BlockProofs.pos in *. rewrite P1 in Y. lia. }
  destruct i as [|i], j as [|j]; auto; cbn [nth_error] in *.
  - injection Hi as <-. destruct (X _ _ Hj Pj Pi).
  - injection Hj as <-. destruct (X _ _ Hi Pi Pj).
  - f_equal. eapply IH; eauto.
Qed.
Record good (s : blocks T) (h : held) : Prop := Good {
  g_store : store B s;
  g_order : ordered 0 (top B s) (fst h);
  g_read : forall r p, In r (fst h) -> slot_in p r -> exists x, read s p = Ok x;
  g_mark : match snd h with Some k => exists b o, mark s = Some (b, o) /\ ordered 0 (pos (b, o)) (firstn k (fst h)) /\ k <= length (fst h) | None => True end }.
Lemma mrun_good ops : forall s h m, good s h -> (m = true -> snd h <> None) -> marked ops m -> fits B ops ->
  exists s' h', mrun B blank ops s h = Ok (s', h') /\ good s' h'.
Proof.
  induction ops as [|o ops IH]; intros s h m G Hm Hk Hf; [exists s, h; auto|]. inversion Hf as [|? ? Ho Hf']; subst. destruct G as [G1 G2 G3 G4].
  destruct o as [n| |]; cbn [mrun marked] in *.
  - destruct (emplace_multi_store B blank HB n s G1 Ho) as (q & s' & E & S1 & S2 & S3 & S4 & S5 & S6 & S7). rewrite E. cbn [obind].
    apply (IH s' _ m); auto. constructor; cbn [fst snd].
    + exact S1.
    + apply (ordered_app _ _ (top B s)); auto. lia.
    + intros r p Hr Hp. apply in_app_or in Hr as [Hr|[<-|[]]].
      * destruct (G3 r p Hr Hp) as [x Hx]. exists x. auto.
      * destruct Hp as [P1 P2]. cbn [fst snd] in *. apply (read_ok B HB s' p S1); lia.
    + destruct (snd h) as [k|]; [|exact Logic.I]. destruct G4 as (b & o & M & O & L). exists b, o. rewrite S6. split; [exact M|]. rewrite app_length. split; [|lia].
      rewrite firstn_app. replace (k - length (fst h)) with 0 by lia. cbn [firstn]. rewrite app_nil_r. exact O.
  - destruct (set_mark_store B blank HB s G1) as (S1 & S2 & S3 & S4). apply (IH _ _ true); auto; [|cbn; discriminate]. constructor; cbn [fst snd].
    + exact S1.
    + apply (ordered_le _ _ (top B s)); auto.
    + intros r p Hr Hp. destruct (G3 r p Hr Hp) as [x Hx]. exists x. auto.
    + do 2 eexists. split; [exact S3|]. rewrite firstn_all. split; [|lia]. apply (ordered_le _ _ (top B s)); auto.
  - destruct Hk as [-> Hk]. destruct (snd h) as [k|] eqn:Ek; [|now elim (Hm eq_refl)]. destruct G4 as (b & o & M & O & L).
    destruct (rewind_to_mark_store B s b o G1 M) as (s' & E & S1 & S2 & S3 & S4). rewrite E. cbn [obind].
    apply (IH s' _ true); auto. constructor; cbn [fst snd].
    + exact S1.
    + rewrite S2. exact O.
    + intros r p Hr Hp. assert (In r (fst h)) as Hr' by (rewrite <- (firstn_skipn k (fst h)); apply in_or_app; now left). destruct (G3 r p Hr' Hp) as [x Hx]. exists x. auto.
    + exists b, o. rewrite S3. split; [exact M|]. rewrite firstn_firstn, Nat.min_id, firstn_length. split; [exact O|lia].
Qed.
End Runs.
(** Runs of slots handed out and not given up lie inside one block, can be used, and do not overlap. *)
Theorem C33_runs : forall (T : Type) (B : nat) (blank : T) (ops : list mop), 0 < B -> fits B ops -> marked ops false ->
  exists s h, mrun B blank ops (init B blank) ([], None) = Ok (s, h) /\
    (forall r p, In r (fst h) -> slot_in p r -> exists x, read s p = Ok x) /\
    (forall i j ri rj p, nth_error (fst h) i = Some ri -> nth_error (fst h) j = Some rj -> slot_in p ri -> slot_in p rj -> i = j).
Proof.
  intros T B blank ops HB Hf Hm.
  destruct (mrun_good B blank HB ops (init B blank) ([], None) false) as (s & h & E & G); auto; [|discriminate|].
  { constructor; cbn [fst snd]; auto; [now apply init_store|cbn [ordered]; apply Nat.le_0_l|intros r p []]. }
  exists s, h. split; [exact E|]. destruct G as [G1 G2 G3 G4]. split; [exact G3|]. exact (ordered_disjoint B _ _ _ G2).
Qed.
Print Assumptions C33_runs.
Example C33_runs_example : fits 4 [Alloc 3; Alloc 2; Mark; Alloc 3; Back; Alloc 2] /\ marked [Alloc 3; Alloc 2; Mark; Alloc 3; Back; Alloc 2] false /\
  exists s, mrun 4 0 [Alloc 3; Alloc 2; Mark; Alloc 3; Back; Alloc 2] (init 4 0) ([], None) = Ok (s, ([((0, 0), 3); ((1, 0), 2); ((1, 2), 2)], Some 2)).
Proof. split; [repeat constructor|]. split; [cbn; auto|]. eexists. vm_compute. reflexivity. Qed.

(** The last block full: going forwards (Size, ResetAdjoints) leaves the list. *)
Theorem C33_full_block_refuted : forall (T : Type) (B : nat) (blank : T) (l : list T), 0 < B -> length l = B ->
  exists s, run B blank (map Emplace l) (init B blank) = Ok s /\ enumerate B s = UB.
Proof.
  intros T B blank l HB Hl.
  assert (forall (l' : list T) (s : blocks T) (t : list T), holds B s (t, None) -> next s + length l' <= B -> exists s', run B blank (map Emplace l') s = Ok s' /\ holds B s' (t ++ l', None) /\ next s' = next s + length l') as HR.
  { clear Hl. induction l' as [|x l' IH]; intros s t H Hn; cbn [map run apply length] in *.
    - exists s. rewrite app_nil_r. split; [reflexivity|]. split; [exact H|lia].
    - destruct (emplace_holds B blank HB s t None x H) as (b & o & s' & E & H' & Ho & Hb & Hnx & Hc). rewrite E. cbn [obind snd].
      pose proof (holds_len B HB s _ H) as L1. cbn [fst] in L1.
      assert (o = next s) as ->. { assert (next s < B) by lia. assert (curr s = b) by (destruct (Nat.lt_trichotomy (curr s) b) as [Q|[Q|Q]]; [exfalso; nia|exact Q|exfalso; nia]). subst b. lia. }
      destruct (IH s' (t ++ [x]) H') as (s2 & E2 & H2 & N2); [lia|]. exists s2. rewrite <- app_assoc in H2. split; [exact E2|]. split; [exact H2|lia]. }
  destruct (HR l (init B blank) [] (init_holds B blank HB)) as (s & E & H & N); [cbn; lia|]. exists s. split; [exact E|].
  apply (enumerate_lost B HB s _ H). rewrite N. cbn. lia.
Qed.
Print Assumptions C33_full_block_refuted.
Example C33_full_block_example : exists s, run 2 0 [Emplace 7; Emplace 8] (init 2 0) = Ok s /\ enumerate 2 s = UB /\ read s (0, 1) = Ok 8.
Proof. eexists. repeat split; vm_compute; reflexivity. Qed.

(** A mark ahead of the end (the list was rewound to the start since) brings back elements given up; a cleared list has a mark that is not in it. *)
Theorem C33_stale_mark_refuted :
  (exists s, run 4 0 [Emplace 1; Emplace 2; Emplace 3; SetMark; Rewind; Emplace 9; RewindToMark] (init 4 0) = Ok s /\ enumerate 4 s = Ok [9; 2; 3]) /\
  run 4 0 [Emplace 1; SetMark; Clear; RewindToMark] (init 4 0) = UB.
Proof. split; [eexists; split; vm_compute; reflexivity|vm_compute; reflexivity]. Qed.
Print Assumptions C33_stale_mark_refuted.
