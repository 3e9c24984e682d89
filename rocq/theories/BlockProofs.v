(** The block list keeps a list. *)
From Coq Require Import List Arith Bool Lia.
From Verif Require Import Base Vec BlockModel BlockSpec.
Import ListNotations.

Section Proofs.
Context {T : Type}.
Variable B : nat.
Variable blank : T.
Hypothesis HB : 0 < B.
Notation full := (Forall (fun b : list T => length b = B)).

Lemma concat_len d : full d -> length (concat d) = length d * B.
Proof. induction 1 as [|b d Hb _ IH]; [reflexivity|]. cbn [concat length]. rewrite app_length, IH, Hb. lia. Qed.
Lemma concat_get d b o blk : full d -> nth_error d b = Some blk -> o < B -> nth_error (concat d) (b * B + o) = nth_error blk o.
Proof.
  intros H. revert b. induction H as [|x d Hx H IH]; intros [|b] E Ho; try discriminate; cbn [concat].
  - injection E as ->. rewrite nth_error_app1 by lia. f_equal. 
  - rewrite nth_error_app2 by (cbn [Nat.mul]; lia). rewrite <- (IH b E Ho). f_equal. cbn [Nat.mul]. lia.
Qed.
Lemma concat_set d b o blk x : full d -> nth_error d b = Some blk -> o < B ->
  concat (set_nth d b (set_nth blk o x)) = set_nth (concat d) (b * B + o) x.
Proof.
  assert (forall (u v : list T) k y, k < length u -> set_nth (u ++ v) k y = set_nth u k y ++ v) as H1.
  { induction u as [|a u IH]; intros v [|k] y Hk; cbn in *; try lia; auto. rewrite IH by lia. reflexivity. }
  assert (forall (u v : list T) k y, length u <= k -> set_nth (u ++ v) k y = u ++ set_nth v (k - length u) y) as H2.
  { induction u as [|a u IH]; intros v k y Hk; cbn [length app] in *; [now rewrite Nat.sub_0_r|]. destruct k as [|k]; [lia|]. cbn [set_nth]. rewrite IH by lia. reflexivity. }
  intros H. revert b. induction H as [|z d Hz H IH]; intros [|b] E Ho; try discriminate; cbn [concat set_nth].
  - injection E as ->. rewrite H1 by lia. f_equal.
  - rewrite H2 by (cbn [Nat.mul]; lia). rewrite (IH b E Ho). do 2 f_equal. cbn [Nat.mul]. lia.
Qed.
Lemma full_set d b blk : full d -> length blk = B -> full (set_nth d b blk).
Proof. intros H. revert b. induction H as [|z d Hz H IH]; intros [|b] E; cbn [set_nth]; constructor; auto. Qed.
Lemma nth_error_set {A} (d : list A) b x : b < length d -> nth_error (set_nth d b x) b = Some x.
Proof. revert b; induction d as [|y d IH]; intros [|b] H; cbn in *; try lia; auto. apply IH. lia. Qed.
Lemma firstn_set_S {A} (d : list A) k x : k < length d -> firstn (S k) (set_nth d k x) = firstn k d ++ [x].
Proof. revert k; induction d as [|y d IH]; intros [|k] H; cbn [length set_nth firstn app] in *; try lia; auto. f_equal. apply IH. lia. Qed.
Lemma firstn_set_le {A} (d : list A) k j x : j <= k -> firstn j (set_nth d k x) = firstn j d.
Proof. revert k j; induction d as [|y d IH]; intros [|k] [|j] H; cbn [set_nth firstn]; try lia; auto. f_equal. apply IH. lia. Qed.

(** positions in order *)
Definition pos (p : place) : nat := fst p * B + snd p.
Lemma pos_inj p q : snd p < B -> snd q < B -> pos p = pos q -> p = q.
Proof.
  destruct p as [b o], q as [c r]. unfold pos; cbn [fst snd]. intros H1 H2 E.
  assert (b = c) by (destruct (Nat.lt_trichotomy b c) as [H|[H|H]]; [exfalso; nia|exact H|exfalso; nia]). subst c. f_equal. lia.
Qed.
Lemma place_eqb_iff p q : place_eqb p q = true <-> p = q.
Proof.
  destruct p as [b o], q as [c r]. unfold place_eqb; cbn [fst snd]. rewrite andb_true_iff, !Nat.eqb_eq. split; [intros [-> ->]; reflexivity|now intros [= -> ->]].
Qed.

(** the state holds the list [l], with the mark after [m] elements *)
Record holds (s : blocks T) (t : tape T) : Prop := Holds {
  h_full : full (data s);
  h_curr : curr s < length (data s);
  h_next : next s <= B;
  h_list : firstn (curr s * B + next s) (concat (data s)) = fst t;
  h_mark : match snd t with
           | Some k => exists b o, mark s = Some (b, o) /\ b < length (data s) /\ o < B /\ k = b * B + o
           | None => mark s = None end }.
Lemma holds_len s t : holds s t -> length (fst t) = curr s * B + next s.
Proof. intros [H1 H2 H3 H4 _]. rewrite <- H4, firstn_length, concat_len by exact H1. nia. Qed.

Lemma init_holds : holds (init B blank) ([], None).
Proof.
  unfold init, new_block. cbn [data app length]. constructor; cbn [data curr next mark fst snd].
  - constructor; [apply repeat_length|constructor].
  - cbn; lia.
  - lia.
  - reflexivity.
  - reflexivity.
Qed.
Lemma next_block_holds s t : holds s t -> next s = B -> holds (next_block B blank s) t /\ next (next_block B blank s) = 0 /\ S (curr s) = curr (next_block B blank s).
Proof.
  intros [H1 H2 H3 H4 H5] E. unfold next_block. destruct (Nat.eqb_spec (S (curr s)) (length (data s))) as [El|El].
  - split; [|split; [reflexivity|cbn; exact El]]. unfold new_block. constructor; cbn [data curr next mark].
    + apply Forall_app. split; [exact H1|]. constructor; [apply repeat_length|constructor].
    + rewrite app_length. cbn [length]. lia.
    + lia.
    + rewrite concat_app, Nat.add_0_r, firstn_app. rewrite concat_len by exact H1. rewrite Nat.sub_diag, app_nil_r. rewrite <- H4, E, <- El. f_equal. lia.
    + destruct (snd t) as [k|]; [|exact H5]. destruct H5 as (b & o & M & Hb & Ho & Hk). exists b, o. rewrite app_length. repeat split; auto; lia.
  - split; [|split; reflexivity]. constructor; cbn [data curr next mark]; auto; try lia. rewrite <- H4, E. f_equal. lia.
Qed.
Lemma room_holds s t : holds s t -> holds (room B blank s) t /\ next (room B blank s) < B.
Proof.
  intros H. unfold room. destruct (Nat.eqb_spec (next s) B) as [E|E].
  - destruct (next_block_holds s t H E) as (G & Hn & _). split; [exact G|]. rewrite Hn. exact HB.
  - split; [exact H|]. destruct H as [_ _ H3 _ _]. lia.
Qed.
Lemma emplace_holds s l m x : holds s (l, m) ->
  exists b o s', emplace B blank x s = Ok ((b, o), s') /\ holds s' (l ++ [x], m) /\ o < B /\ length l = b * B + o /\ next s' = S o /\ curr s' = b.
Proof.
  intros H. destruct (room_holds s _ H) as [H' Hlt]. unfold emplace. set (s1 := room B blank s) in *.
  pose proof (holds_len _ _ H') as Hl. cbn [fst] in Hl. destruct H' as [H1 H2 H3 H4 H5]. cbn [fst snd] in *.
  unfold write, get. cbn [fst snd]. destruct (nth_error (data s1) (curr s1)) as [blk|] eqn:Eb; [|apply nth_error_None in Eb; lia]. cbn [obind].
  assert (length blk = B) as Hbl by (rewrite Forall_forall in H1; apply H1; eapply nth_error_In; exact Eb).
  rewrite put_ok by lia. cbn [obind]. rewrite put_ok by lia. cbn [obind data curr next mark].
  exists (curr s1), (next s1). eexists. split; [reflexivity|]. split; [|split; [exact Hlt|split; [lia|split; reflexivity]]].
  constructor; cbn [data curr next mark fst snd].
  - apply full_set; [exact H1|]. now rewrite set_nth_length.
  - rewrite set_nth_length. exact H2.
  - lia.
  - rewrite (concat_set _ _ _ blk) by assumption. rewrite Nat.add_succ_r, firstn_set_S by (rewrite concat_len by exact H1; nia). now rewrite H4.
  - destruct m as [k|]; [|exact H5]. destruct H5 as (b & o & M & Hb & Ho & Hk). exists b, o. rewrite set_nth_length. auto.
Qed.

Lemma step_holds o s t t' : holds s t -> spec_step o t = Some t' -> exists s', apply B blank o s = Ok s' /\ holds s' t'.
Proof.
  intros H. destruct t as [l m]. destruct o as [x| | | |]; cbn [spec_step apply]; intros E.
  - injection E as <-. destruct (emplace_holds s l m x H) as (b & o & s' & E & H' & _). rewrite E. cbn [obind snd]. eauto.
  - injection E as <-. destruct (room_holds s _ H) as [H' Hlt]. eexists. split; [reflexivity|]. unfold set_mark.
    pose proof (holds_len _ _ H') as Hl. destruct H' as [H1 H2 H3 H4 _]. constructor; cbn [data curr next mark fst snd] in *; auto.
    eexists _, _. split; [reflexivity|]. auto.
  - destruct m as [k|]; [|discriminate]. destruct (Nat.leb_spec k (length l)) as [Hk|]; [|discriminate]. injection E as <-.
    pose proof (holds_len _ _ H) as Hl. destruct H as [H1 H2 H3 H4 H5]. cbn [fst snd] in *. destruct H5 as (b & o & M & Hb & Ho & Ek). unfold rewind_to_mark. rewrite M.
    eexists. split; [reflexivity|]. constructor; cbn [data curr next mark fst snd]; auto; try lia.
    + rewrite <- H4, firstn_firstn, Nat.min_l by lia. now subst k.
    + exists b, o. auto.
  - injection E as <-. eexists. split; [reflexivity|]. unfold rewind. destruct H as [H1 H2 H3 H4 H5]. constructor; cbn [data curr next mark fst snd] in *; auto; lia.
  - injection E as <-. eexists. split; [reflexivity|]. apply init_holds.
Qed.
Lemma run_holds ops s t t' : holds s t -> spec_run ops t = Some t' -> exists s', run B blank ops s = Ok s' /\ holds s' t'.
Proof.
  revert s t. induction ops as [|o ops IH]; intros s t H E; cbn [spec_run run] in *.
  - injection E as <-. eauto.
  - destruct (spec_step o t) as [t1|] eqn:E1; [|discriminate]. destruct (step_holds o s t t1 H E1) as (s1 & -> & H'). cbn [obind]. eauto.
Qed.

(** reading an element by its address *)
Lemma read_holds s t b o : holds s t -> o < B -> b * B + o < length (fst t) -> read s (b, o) = get (fst t) (b * B + o).
Proof.
  intros H Ho Hlt. pose proof (holds_len _ _ H) as Hl. destruct H as [H1 H2 H3 H4 _]. unfold read. cbn [fst snd].
  assert (b < length (data s)) by nia. unfold get at 1. destruct (nth_error (data s) b) as [blk|] eqn:Eb; [|apply nth_error_None in Eb; lia]. cbn [obind].
  unfold get. rewrite <- (concat_get _ b o blk H1 Eb Ho), <- H4. f_equal.
  rewrite <- (firstn_skipn (curr s * B + next s) (concat (data s))) at 1. rewrite nth_error_app1; [reflexivity|]. rewrite H4. exact Hlt.
Qed.

(** * Forward walks *)
Lemma walk_up_gen s t n : holds s t -> next s < B -> forall fuel b o, n <= fuel -> o < B -> length (fst t) = b * B + o + n ->
  walk_up B fuel s (b, o) (end_ s) = Ok (skipn (b * B + o) (fst t)).
Proof.
  intros H Hn. pose proof (holds_len _ _ H) as Hl. induction n as [|n IH]; intros fuel b o Hf Ho E.
  - assert ((b, o) = end_ s) as -> by (apply pos_inj; unfold pos; cbn [end_ fst snd]; lia).
    replace (place_eqb (end_ s) (end_ s)) with true by (symmetry; now apply place_eqb_iff). rewrite skipn_all2 by lia.
    destruct fuel; cbn [walk_up]; replace (place_eqb (end_ s) (end_ s)) with true by (symmetry; now apply place_eqb_iff); reflexivity.
  - destruct fuel as [|fuel]; [lia|]. cbn [walk_up]. destruct (place_eqb (b, o) (end_ s)) eqn:Ep.
    { apply place_eqb_iff in Ep. unfold end_ in Ep. injection Ep as -> ->. lia. }
    rewrite (read_holds s t b o H Ho) by lia. unfold get. destruct (nth_error (fst t) (b * B + o)) as [x|] eqn:Ex; [|apply nth_error_None in Ex; lia]. cbn [obind].
    assert (skipn (b * B + o) (fst t) = x :: skipn (b * B + S o) (fst t)) as Es.
    { rewrite Nat.add_succ_r. clear - Ex. revert Ex. generalize (b * B + o) as k. generalize (fst t) as l. induction l as [|y l IH]; intros [|k] Ex; try discriminate; cbn in *.
      - injection Ex as ->. reflexivity.
      - rewrite (IH k Ex). reflexivity. }
    unfold step_up. destruct (Nat.eqb_spec (S o) B) as [Eo|Eo].
    + assert (S b < length (data s)) as Hlt by (destruct H as [_ H2 _ _ _]; nia). apply Nat.ltb_lt in Hlt. rewrite Hlt. cbn [obind].
      rewrite (IH fuel (S b) 0) by (cbn [Nat.mul]; lia). cbn [obind]. rewrite Es. do 3 f_equal. cbn [Nat.mul]. lia.
    + cbn [obind]. rewrite (IH fuel b (S o)) by lia. cbn [obind]. now rewrite Es.
Qed.
Lemma enumerate_holds s t : holds s t -> next s < B -> enumerate B s = Ok (fst t).
Proof.
  intros H Hn. unfold enumerate. pose proof (holds_len _ _ H) as Hl. pose proof (h_curr _ _ H).
  assert (length (fst t) <= slots B s) by (unfold slots; nia).
  unfold begin_. rewrite (walk_up_gen s t (length (fst t)) H Hn (slots B s) 0 0); try lia. reflexivity.
Qed.
(** from any place, with the end at the end of a block: the walk leaves the list *)
Lemma walk_up_lost s t n : holds s t -> next s = B -> forall fuel b o, o < B -> b < length (data s) -> n = length (data s) * B - (b * B + o) -> n <= fuel ->
  walk_up B fuel s (b, o) (end_ s) = UB.
Proof.
  intros H Hn. induction n as [n IH] using lt_wf_ind. intros fuel b o Ho Hb En Hf.
  assert (0 < n) by nia. destruct fuel as [|fuel]; [lia|]. cbn [walk_up]. destruct (place_eqb (b, o) (end_ s)) eqn:Ep.
  { apply place_eqb_iff in Ep. unfold end_ in Ep. injection Ep as -> ->. lia. }
  assert (exists x, read s (b, o) = Ok x) as [x ->].
  { destruct H as [H1 _ _ _ _]. unfold read, get. cbn [fst snd]. destruct (nth_error (data s) b) as [blk|] eqn:Eb; [|apply nth_error_None in Eb; lia]. cbn [obind].
    rewrite Forall_forall in H1. specialize (H1 blk (nth_error_In _ _ Eb)). destruct (nth_error blk o) as [x|] eqn:Ex; [eauto|apply nth_error_None in Ex; lia]. }
  cbn [obind]. unfold step_up. destruct (Nat.eqb_spec (S o) B) as [Eo|Eo].
  - destruct (Nat.ltb_spec (S b) (length (data s))); [|reflexivity]. cbn [obind]. rewrite (IH (n - 1)); try reflexivity; cbn [Nat.mul]; nia.
  - cbn [obind]. rewrite (IH (n - 1)); try reflexivity; try lia.
Qed.
Lemma enumerate_lost s t : holds s t -> next s = B -> enumerate B s = UB.
Proof.
  intros H Hn. unfold enumerate, begin_. apply (walk_up_lost s t (slots B s) H Hn); try lia.
  - pose proof (h_curr _ _ H). lia.
  - unfold slots. lia.
Qed.

(** * Backward walks *)
Definition place_of (k : nat) : place := (k / B, k mod B).
Lemma place_of_pos b o : o < B -> place_of (b * B + o) = (b, o).
Proof. intros H. unfold place_of. f_equal; [rewrite Nat.div_add_l by lia; rewrite Nat.div_small by exact H; lia|rewrite Nat.add_comm, Nat.mod_add by lia; now apply Nat.mod_small]. Qed.
Lemma place_of_split k : snd (place_of k) < B /\ k = fst (place_of k) * B + snd (place_of k).
Proof. unfold place_of; cbn [fst snd]. split; [apply Nat.mod_upper_bound; lia|]. rewrite Nat.mul_comm. apply Nat.div_mod. lia. Qed.
Lemma step_down_place (s : blocks T) k : step_down B s (place_of (S k)) = Ok (place_of k).
Proof.
  destruct (place_of_split (S k)) as [H1 H2]. destruct (place_of (S k)) as [b o]. cbn [fst snd] in *. unfold step_down. destruct (Nat.eqb_spec o 0) as [->|Ho].
  - destruct b as [|b]; [lia|]. rewrite <- (place_of_pos b (B - 1)) by lia. cbn [Nat.mul] in H2. replace k with (b * B + (B - 1)) by lia. reflexivity.
  - rewrite <- (place_of_pos b (o - 1)) by lia. replace k with (b * B + (o - 1)) by lia. reflexivity.
Qed.
Lemma place_of_inj j k : place_of j = place_of k -> j = k.
Proof. intros E. destruct (place_of_split j) as [_ ->]. destruct (place_of_split k) as [_ H]. rewrite E. symmetry. exact H. Qed.
(** places k, k-1, ..., j *)
Lemma walk_down_places (s : blocks T) j n : forall fuel, n < fuel ->
  walk_down B fuel s (place_of (j + n)) (place_of j) = Ok (map place_of (rev (seq j (S n)))).
Proof.
  induction n as [|n IH]; intros [|fuel] Hf; try lia; cbn [walk_down].
  - rewrite Nat.add_0_r. replace (place_eqb (place_of j) (place_of j)) with true by (symmetry; now apply place_eqb_iff). reflexivity.
  - destruct (place_eqb (place_of (j + S n)) (place_of j)) eqn:E; [apply place_eqb_iff, place_of_inj in E; lia|].
    rewrite Nat.add_succ_r, step_down_place. cbn [obind]. rewrite IH by lia. cbn [obind].
    rewrite (seq_S (S n) j), rev_app_distr. cbn [rev app map]. do 3 f_equal. lia.
Qed.
Lemma find_places (s : blocks T) x n : forall fuel, n <= fuel -> x < n -> find_from B fuel s (place_of n) (place_of x) = Ok (place_of x).
Proof.
  induction n as [|n IH]; intros fuel Hf Hx; [lia|].
  assert (place_eqb (place_of (S n)) begin_ = false) as E0.
  { destruct (place_eqb (place_of (S n)) begin_) eqn:E; [|reflexivity]. apply place_eqb_iff in E. unfold begin_ in E. rewrite <- (place_of_pos 0 0) in E by lia. apply place_of_inj in E. lia. }
  destruct fuel as [|fuel]; [lia|]. cbn [find_from]. rewrite E0. rewrite step_down_place. cbn [obind].
  destruct (place_eqb (place_of n) (place_of x)) eqn:E; [apply place_eqb_iff in E; now rewrite E|].
  apply IH; [lia|]. assert (x <> n) by (intros ->; rewrite (proj2 (place_eqb_iff _ _) eq_refl) in E; discriminate). lia.
Qed.
Lemma find_holds s t x : holds s t -> x < length (fst t) -> find B s (place_of x) = Ok (place_of x).
Proof.
  intros H Hx. pose proof (holds_len _ _ H) as Hl. pose proof (h_next _ _ H) as Hn. unfold find, end_.
  destruct (Nat.eq_dec (next s) B) as [En|En].
  - (* the end is the end of a block *)
    assert (curr s * B + B <> 0) as H0 by lia. destruct (S (curr s) * B) as [|f] eqn:Ef; [lia|]. cbn [find_from].
    destruct (place_eqb (curr s, next s) begin_) eqn:E; [apply place_eqb_iff in E; unfold begin_ in E; injection E; lia|].
    unfold step_down. destruct (Nat.eqb_spec (next s) 0); [lia|]. cbn [obind]. rewrite En. rewrite <- (place_of_pos (curr s) (B - 1)) by lia.
    destruct (place_eqb (place_of (curr s * B + (B - 1))) (place_of x)) eqn:E2; [apply place_eqb_iff in E2; now rewrite E2|].
    assert (x <> curr s * B + (B - 1)) by (intros ->; rewrite (proj2 (place_eqb_iff _ _) eq_refl) in E2; discriminate).
    apply find_places; [cbn [Nat.mul] in Ef; lia|lia].
  - rewrite <- (place_of_pos (curr s) (next s)) by lia. apply find_places; [cbn [Nat.mul]; lia|lia].
Qed.
Lemma read_place s t k : holds s t -> k < length (fst t) -> read s (place_of k) = get (fst t) k.
Proof. intros H Hk. destruct (place_of_split k) as [H1 H2]. destruct (place_of k) as [b o]. cbn [fst snd] in *. subst k. now apply read_holds. Qed.
Lemma emplace_place s l m x : holds s (l, m) -> exists s', emplace B blank x s = Ok (place_of (length l), s') /\ holds s' (l ++ [x], m).
Proof.
  intros H. destruct (emplace_holds s l m x H) as (b & o & s' & E & H' & Ho & Hlen & _). exists s'. rewrite E, Hlen, place_of_pos by exact Ho. auto.
Qed.
(** writing an element in place *)
Lemma write_place s l m k x : holds s (l, m) -> k < length l -> exists s', write s (place_of k) x = Ok s' /\ holds s' (set_nth l k x, m) /\ mark s' = mark s /\ end_ s' = end_ s.
Proof.
  intros H Hk. pose proof (holds_len _ _ H) as Hl. cbn [fst] in Hl. destruct (place_of_split k) as [P1 P2]. destruct (place_of k) as [b o]. cbn [fst snd] in *.
  destruct H as [H1 H2 H3 H4 H5]. cbn [fst snd] in *. assert (b < length (data s)) as Hb by nia.
  unfold write, get. cbn [fst snd]. destruct (nth_error (data s) b) as [blk|] eqn:Eb; [|apply nth_error_None in Eb; lia]. cbn [obind].
  assert (length blk = B) as Hbl by (rewrite Forall_forall in H1; apply H1; eapply nth_error_In; exact Eb).
  rewrite put_ok by lia. cbn [obind]. rewrite put_ok by lia. cbn [obind]. eexists. split; [reflexivity|]. split; [|split; reflexivity].
  constructor; cbn [data curr next mark fst snd]; rewrite ?set_nth_length; auto.
  - apply full_set; [exact H1|]. now rewrite set_nth_length.
  - rewrite (concat_set _ _ _ blk) by assumption. rewrite <- P2, <- H4. clear - Hk Hl. rewrite Hl in Hk. revert Hk. generalize (curr s * B + next s) as n. generalize (concat (data s)) as d. revert k.
    induction k as [|k IH]; intros [|y d] [|n] Hn; cbn [set_nth firstn]; try lia; auto. f_equal. apply IH. lia.
Qed.
(** an element kept is found where it was put *)
Lemma keeps_read (ops : list (op T)) : forall l m x k t', nth_error l k = Some x -> keeps k ops (l, m) -> spec_run ops (l, m) = Some t' -> nth_error (fst t') k = Some x.
Proof.
  induction ops as [|o ops IH]; intros l m x k t' Ex Hk E; cbn [spec_run keeps] in *.
  - injection E as <-. exact Ex.
  - destruct Hk as [Hk Hr]. destruct (spec_step o (l, m)) as [[l1 m1]|] eqn:E1; [|discriminate].
    assert (nth_error l1 k = Some x) as E2.
    { assert (k < length l1) as Hl1 by (destruct ops; cbn [keeps] in Hr; apply Hr). cbn [fst] in Hk. destruct o as [y| | | |]; cbn [spec_step] in E1.
      - injection E1 as <- <-. rewrite nth_error_app1 by exact Hk. exact Ex.
      - injection E1 as <- <-. exact Ex.
      - destruct m as [j|]; [|discriminate]. destruct (j <=? length l); [|discriminate]. injection E1 as <- <-.
        rewrite firstn_length in Hl1. rewrite <- (firstn_skipn j l) in Ex. rewrite nth_error_app1 in Ex by (rewrite firstn_length; lia). exact Ex.
      - injection E1 as <- <-. cbn in Hl1. lia.
      - injection E1 as <- <-. cbn in Hl1. lia. }
    exact (IH l1 m1 x k t' E2 Hr E).
Qed.
End Proofs.
