(** The tape of addresses is a list of weighted dependencies with adjoints. *)
From Coq Require Import List Arith Bool Lia.
From Verif Require Import Base Vec BlockModel BlockSpec BlockProofs AadModel AadStore.
Import ListNotations.

Section Sim.
Context {D : Type}.
Variables (zero one : D) (add mul : D -> D -> D).
Variable tiny : D -> bool.
Variable is_zero : D -> bool.
Variables (beval : bop -> D -> D -> D) (bleft bright : bop -> D -> D -> D -> D).
Variables (ueval : uop -> D -> D -> D) (uder : uop -> D -> D -> D -> D).
Variables (BN BD : nat).
Hypothesis HN : 0 < BN.
Hypothesis HD : 0 < BD.

(** a node: the weights of the nodes it depends on, and its adjoint *)
Definition anode : Type := (list (D * nat) * D)%type.
Notation place_of := (place_of BN).
Notation posd := (pos BD).
Definition stored (ds : blocks D) (az : blocks place) (q r : place) (ws : list (D * nat)) : Prop :=
  forall i w j, nth_error ws i = Some (w, j) -> read ds (shift q i) = Ok w /\ read az (shift r i) = Ok (place_of j).
Record node_ok (ds : blocks D) (az : blocks place) (ld la k : nat) (nd : node D) (a : anode) : Prop := NodeOk {
  no_len : n_args nd = length (fst a); no_adj : adjoint nd = snd a; no_down : Forall (fun w => snd w < k) (fst a);
  no_room : fst a <> [] -> posd (p_ders nd) + n_args nd <= ld /\ posd (p_args nd) + n_args nd <= la /\
            snd (p_ders nd) + n_args nd <= BD /\ snd (p_args nd) + n_args nd <= BD /\ stored ds az (p_ders nd) (p_args nd) (fst a) }.
Record sim (t : tape D) (L : list (node D)) (A : list anode) (m : option nat) : Prop := Sim {
  sm_holds : holds BN (nodes t) (L, m);
  sm_ders : store BD (ders t); sm_args : store BD (args t);
  sm_length : length L = length A;
  sm_each : forall k nd a, nth_error L k = Some nd -> nth_error A k = Some a -> node_ok (ders t) (args t) (top BD (ders t)) (top BD (args t)) k nd a;
  sm_mark : forall j, m = Some j -> j <= length A /\ exists md ma, mark (ders t) = Some md /\ mark (args t) = Some ma /\
            forall k nd a, k < j -> nth_error L k = Some nd -> nth_error A k = Some a -> fst a <> [] ->
              posd (p_ders nd) + n_args nd <= posd md /\ posd (p_args nd) + n_args nd <= posd ma }.

Lemma new_sim : sim (new_tape zero BN BD) [] [] None.
Proof.
  constructor; cbn [new_tape nodes ders args].
  - apply init_holds. exact HN.
  - apply init_store. exact HD.
  - apply init_store. exact HD.
  - reflexivity.
  - intros [|k]; discriminate.
  - discriminate.
Qed.
Lemma node_ok_mono ds az ld la ds' az' ld' la' k nd a : node_ok ds az ld la k nd a -> ld <= ld' -> la <= la' ->
  (forall p x, read ds p = Ok x -> read ds' p = Ok x) -> (forall p x, read az p = Ok x -> read az' p = Ok x) -> node_ok ds' az' ld' la' k nd a.
Proof.
  intros [H1 H2 H3 H4] Hd Ha Rd Ra. constructor; auto. intros Hne. destruct (H4 Hne) as (A1 & A2 & A3 & A4 & A5). repeat split; try lia; auto; destruct (A5 i w j H) as [B1 B2]; auto.
Qed.
Lemma node_ok_write ds az ld la ds' az' k nd a top_d top_a : node_ok ds az ld la k nd a -> ld <= top_d -> la <= top_a ->
  (forall p x, posd p < ld -> snd p < BD -> read ds p = Ok x -> read ds' p = Ok x) -> (forall p x, posd p < la -> snd p < BD -> read az p = Ok x -> read az' p = Ok x) ->
  node_ok ds' az' top_d top_a k nd a.
Proof.
  intros [H1 H2 H3 H4] Hd Ha Rd Ra. constructor; auto. intros Hne. destruct (H4 Hne) as (A1 & A2 & A3 & A4 & A5). repeat split; try lia.
  - destruct (A5 i w j H) as [B1 B2]. apply Rd; auto; assert (i < length (fst a)) by (apply nth_error_Some; congruence); unfold shift, pos in *; cbn [fst snd]; lia.
  - destruct (A5 i w j H) as [B1 B2]. apply Ra; auto; assert (i < length (fst a)) by (apply nth_error_Some; congruence); unfold shift, pos in *; cbn [fst snd]; lia.
Qed.

(** writing the weights *)
Lemma push_ok q r ws : forall i (t : tape D), store BD (ders t) -> store BD (args t) ->
  fst q < length (data (ders t)) -> fst r < length (data (args t)) -> snd q + i + length ws <= BD -> snd r + i + length ws <= BD ->
  exists t', push q r i (map (fun w => (fst w, place_of (snd w))) ws) t = Ok t' /\ nodes t' = nodes t /\ dropped t' = dropped t /\ store BD (ders t') /\ store BD (args t') /\
    top BD (ders t') = top BD (ders t) /\ top BD (args t') = top BD (args t) /\ mark (ders t') = mark (ders t) /\ mark (args t') = mark (args t) /\
    (forall p x, (forall k, i <= k -> p <> shift q k) -> read (ders t) p = Ok x -> read (ders t') p = Ok x) /\
    (forall p x, (forall k, i <= k -> p <> shift r k) -> read (args t) p = Ok x -> read (args t') p = Ok x) /\
    (forall k w j, nth_error ws k = Some (w, j) -> read (ders t') (shift q (i + k)) = Ok w /\ read (args t') (shift r (i + k)) = Ok (place_of j)).
Proof.
  induction ws as [|[w j] ws IH]; intros i t Sd Sa Hq Hr Lq Lr; cbn [map push fst snd length] in *.
  - exists t. do 11 (split; [auto; fail|]). intros [|k]; discriminate.
  - destruct (write_store BD HD (args t) (shift r i) (place_of j) Sa) as (az & E1 & Sa1 & C1 & N1 & M1 & L1 & R1 & O1); try (unfold shift; cbn [fst snd]; lia).
    destruct (write_store BD HD (ders t) (shift q i) w Sd) as (ds & E2 & Sd1 & C2 & N2 & M2 & L2 & R2 & O2); try (unfold shift; cbn [fst snd]; lia).
    rewrite E1. cbn [obind]. rewrite E2. cbn [obind].
    destruct (IH (S i) (Tape (nodes t) ds az (dropped t))) as (t' & E & G1 & G2 & G3 & G4 & G5 & G6 & G7 & G8 & G9 & G10 & G11); cbn [ders args nodes dropped] in *; auto; try lia.
    exists t'. do 5 (split; [auto; fail|]). split; [|split; [|split; [|split; [|split; [|split]]]]].
    + rewrite G5. unfold top. now rewrite C2, N2.
    + rewrite G6. unfold top. now rewrite C1, N1.
    + congruence.
    + congruence.
    + intros p x Hp Hx. apply G9; [intros k Hk; apply Hp; lia|]. apply O2; [apply Hp; lia|exact Hx].
    + intros p x Hp Hx. apply G10; [intros k Hk; apply Hp; lia|]. apply O1; [apply Hp; lia|exact Hx].
    + intros [|k] w0 j0 H; cbn [nth_error] in H.
      * injection H as <- <-. rewrite Nat.add_0_r. split.
        -- apply G9; [|exact R2]. intros k Hk E'. unfold shift in E'. injection E'. lia.
        -- apply G10; [|exact R1]. intros k Hk E'. unfold shift in E'. injection E'. lia.
      * rewrite Nat.add_succ_r, <- Nat.add_succ_l. apply (G11 k w0 j0 H).
Qed.

(** recording a node with its weights *)
Lemma record_push_ok t L A m ws : sim t L A m -> length ws <= BD -> Forall (fun w => snd w < length A) ws ->
  exists t1 t2 nd L', record zero BN BD (length ws) t = Ok (place_of (length A), t1) /\ read (nodes t1) (place_of (length A)) = Ok nd /\
    push (p_ders nd) (p_args nd) 0 (map (fun w => (fst w, place_of (snd w))) ws) t1 = Ok t2 /\ sim t2 L' (A ++ [(ws, zero)]) m /\ dropped t2 = dropped t.
Proof.
  intros [S1 S2 S3 S4 S5 S6] Hw Hd. unfold record.
  destruct (emplace_place BN (blank_node zero) HN (nodes t) L m (Node (length ws) zero (0, 0) (0, 0)) S1) as (ns & E & Hns). rewrite E. cbn [obind]. rewrite <- S4.
  destruct (Nat.eqb_spec (length ws) 0) as [E0|E0].
  - destruct ws as [|? ?]; [|discriminate]. cbn [length map push].
    eexists _, _, (Node 0 zero (0, 0) (0, 0)), _. split; [reflexivity|]. cbn [nodes]. split.
    { rewrite (read_place BN HN ns _ (length L) Hns) by (cbn [fst]; rewrite app_length; cbn; lia). cbn [fst]. apply get_app. }
    split; [reflexivity|]. split; [|reflexivity]. constructor; cbn [nodes ders args]; eauto.
    + rewrite !app_length, S4. reflexivity.
    + intros k nd a H1 H2. destruct (Nat.lt_ge_cases k (length L)) as [Hk|Hk].
      * rewrite nth_error_app1 in H1, H2 by lia. eauto.
      * rewrite nth_error_app2 in H1, H2 by lia. rewrite <- S4 in H2. destruct (k - length L) as [|z] eqn:Ez; [|destruct z; discriminate].
        injection H1 as <-. injection H2 as <-. constructor; cbn [fst snd n_args adjoint]; auto. intros []; reflexivity.
    + intros j Ej. destruct (S6 j Ej) as (Hj & md & ma & M1 & M2 & M3). split; [rewrite app_length; lia|]. exists md, ma. repeat split; auto.
      * intros. destruct (Nat.lt_ge_cases k (length L)) as [Hk|Hk].
        -- rewrite nth_error_app1 in H0, H1 by lia. apply (M3 k nd a); auto.
        -- rewrite nth_error_app2 in H1 by lia. rewrite <- S4 in H1. destruct (k - length L) as [|z]; [|destruct z; discriminate]. injection H1 as <-. now elim H2.
      * intros. destruct (Nat.lt_ge_cases k (length L)) as [Hk|Hk].
        -- rewrite nth_error_app1 in H0, H1 by lia. apply (M3 k nd a); auto.
        -- rewrite nth_error_app2 in H1 by lia. rewrite <- S4 in H1. destruct (k - length L) as [|z]; [|destruct z; discriminate]. injection H1 as <-. now elim H2.
  - destruct (emplace_multi_store BD zero HD (length ws) (ders t) S2 Hw) as (q & ds & Eq & Sd & T1 & T2 & T3 & T4 & T5 & T6).
    destruct (emplace_multi_store BD (0, 0) HD (length ws) (args t) S3 Hw) as (r & az & Er & Sa & U1 & U2 & U3 & U4 & U5 & U6).
    rewrite Eq. cbn [obind]. rewrite Er. cbn [obind].
    destruct (write_place BN HN ns _ m (length L) (Node (length ws) zero q r) Hns) as (ns' & Ew & Hns' & Hm' & He'); [rewrite app_length; cbn; lia|].
    rewrite Ew. cbn [obind]. rewrite set_nth_app in Hns'.
    destruct (push_ok q r ws 0 (Tape ns' ds az (dropped t)) Sd Sa T4 U4) as (t' & Ep & G1 & G2 & G3 & G4 & G5 & G6 & G7 & G8 & G9 & G10 & G11); try lia. cbn [nodes ders args dropped] in *.
    eexists _, t', (Node (length ws) zero q r), _. split; [reflexivity|]. cbn [nodes p_ders p_args]. split.
    { rewrite (read_place BN HN ns' _ (length L) Hns') by (cbn [fst]; rewrite app_length; cbn; lia). cbn [fst]. apply get_app. }
    split; [exact Ep|]. split; [|exact G2].
    assert (forall p x, posd p < top BD (ders t) -> snd p < BD -> read (ders t) p = Ok x -> read (ders t') p = Ok x) as Rd.
    { intros p x Hp Hs Hx. apply G9; [|apply T6; exact Hx]. intros k _ ->. unfold shift, pos in *; cbn [fst snd] in *. lia. }
    assert (forall p x, posd p < top BD (args t) -> snd p < BD -> read (args t) p = Ok x -> read (args t') p = Ok x) as Ra.
    { intros p x Hp Hs Hx. apply G10; [|apply U6; exact Hx]. intros k _ ->. unfold shift, pos in *; cbn [fst snd] in *. lia. }
    constructor; auto.
    + rewrite G1. exact Hns'.
    + rewrite !app_length, S4. reflexivity.
    + intros k nd a H1 H2. destruct (Nat.lt_ge_cases k (length L)) as [Hk|Hk].
      * rewrite nth_error_app1 in H1, H2 by lia. apply (node_ok_write _ _ _ _ _ _ _ _ _ _ _ (S5 _ _ _ H1 H2)); auto; lia.
      * rewrite nth_error_app2 in H1, H2 by lia. rewrite <- S4 in H2. destruct (k - length L) as [|z] eqn:Ez; [|destruct z; discriminate].
        injection H1 as <-. injection H2 as <-. constructor; cbn [fst snd n_args adjoint p_ders p_args]; auto.
        { replace k with (length A) by lia. exact Hd. }
        intros _. split; [lia|]. split; [lia|]. split; [lia|]. split; [lia|]. intros i w j H. exact (G11 i w j H).
    + intros j Ej. destruct (S6 j Ej) as (Hj & md & ma & M1 & M2 & M3). split; [rewrite app_length; lia|]. exists md, ma. split; [congruence|]. split; [congruence|].
      intros k nd a Hk H1 H2 Hne. 
      rewrite nth_error_app1 in H1, H2 by lia. apply (M3 k nd a); auto.
Qed.
(** * Adjoints on the list *)
Definition blank_a : anode := ([], zero).
Definition adj (A : list anode) (k : nat) : D := snd (nth k A blank_a).
Definition deps (A : list anode) (k : nat) : list (D * nat) := fst (nth k A blank_a).
Definition a_set (A : list anode) (k : nat) (x : D) : list anode := set_nth A k (deps A k, x).
Fixpoint a_down (x : D) (ws : list (D * nat)) (A : list anode) : list anode :=
  match ws with [] => A | (w, j) :: r => a_down x r (a_set A j (add (adj A j) (mul x w))) end.
Definition a_one (k : nat) (s : list anode * bool) : list anode * bool :=
  let '(A, d) := s in
  if length (deps A k) =? 0 then (A, d)
  else if tiny (adj A k) then (A, d || negb (is_zero (adj A k)))
  else (a_down (adj A k) (deps A k) A, d).
Definition a_all (l : list nat) (s : list anode * bool) : list anode * bool := fold_left (fun s k => a_one k s) l s.

Lemma a_set_length A k x : length (a_set A k x) = length A.
Proof. apply set_nth_length. Qed.
Lemma a_set_deps A k x j : k < length A -> deps (a_set A k x) j = deps A j.
Proof. intros H. unfold a_set, deps. rewrite nth_set_nth by exact H. destruct (Nat.eqb_spec j k) as [->|]; reflexivity. Qed.
Lemma a_set_adj A k x j : k < length A -> adj (a_set A k x) j = if j =? k then x else adj A j.
Proof. intros H. unfold a_set, adj. rewrite nth_set_nth by exact H. destruct (Nat.eqb_spec j k) as [->|]; reflexivity. Qed.

Lemma sim_node t L A m k : sim t L A m -> k < length A -> exists nd, read (nodes t) (place_of k) = Ok nd /\ nth_error L k = Some nd /\
  node_ok (ders t) (args t) (top BD (ders t)) (top BD (args t)) k nd (deps A k, adj A k).
Proof.
  intros [S1 S2 S3 S4 S5 S6] Hk. destruct (nth_error L k) as [nd|] eqn:E; [|apply nth_error_None in E; lia].
  destruct (nth_error A k) as [a|] eqn:Ea; [|apply nth_error_None in Ea; lia]. exists nd.
  rewrite (read_place BN HN (nodes t) _ k S1) by (cbn [fst]; lia). cbn [fst]. unfold get. rewrite E. split; [reflexivity|]. split; [reflexivity|].
  pose proof (S5 k nd a E Ea) as H. assert (nth k A blank_a = a) as En by (apply nth_error_nth; exact Ea). unfold deps, adj. rewrite En. now destruct a.
Qed.
Lemma get_adjoint_ok t L A m k : sim t L A m -> k < length A -> get_adjoint (place_of k) t = Ok (adj A k).
Proof. intros H Hk. destruct (sim_node t L A m k H Hk) as (nd & E & _ & O). unfold get_adjoint. rewrite E. cbn [obind]. f_equal. exact (no_adj _ _ _ _ _ _ _ O). Qed.
Lemma nth_error_set_other {X} (l : list X) k j z : j <> k -> nth_error (set_nth l k z) j = nth_error l j.
Proof using. clear HN HD. revert k j. induction l as [|u l IH]; intros [|k] [|j] Hj; cbn; auto; lia. Qed.
Lemma nth_error_set_same {X} (l : list X) k z : k < length l -> nth_error (set_nth l k z) k = Some z.
Proof using. clear HN HD. revert k. induction l as [|u l IH]; intros [|k] Hj; cbn in *; auto; try lia. apply IH. lia. Qed.
Lemma set_adjoint_ok t L A m k x : sim t L A m -> k < length A -> exists t' L', set_adjoint (place_of k) x t = Ok t' /\ sim t' L' (a_set A k x) m /\ dropped t' = dropped t /\ ders t' = ders t /\ args t' = args t /\ mark (nodes t') = mark (nodes t).
Proof.
  intros H Hk. destruct (sim_node t L A m k H Hk) as (nd & E & EL & O). unfold set_adjoint. rewrite E. cbn [obind]. destruct H as [S1 S2 S3 S4 S5 S6].
  destruct (write_place BN HN (nodes t) L m k (Node (n_args nd) x (p_ders nd) (p_args nd)) S1) as (ns & Ew & Hn & Hm & He); [lia|]. rewrite Ew. cbn [obind].
  eexists _, _. split; [reflexivity|]. split; [|auto]. constructor; cbn [nodes ders args]; eauto.
  - rewrite a_set_length, set_nth_length. exact S4.
  - intros i nd' a H1 H2. destruct (Nat.eq_dec i k) as [->|Hi].
    + rewrite nth_error_set_same in H1 by lia. unfold a_set in H2. rewrite nth_error_set_same in H2 by lia. injection H1 as <-. injection H2 as <-.
      destruct O as [O1 O2 O3 O4]. constructor; auto.
    + rewrite nth_error_set_other in H1 by exact Hi. unfold a_set in H2. rewrite nth_error_set_other in H2 by exact Hi. eauto.
  - intros j Ej. destruct (S6 j Ej) as (Hj & md & ma & M1 & M2 & M3). split; [rewrite a_set_length; exact Hj|]. exists md, ma. split; [exact M1|]. split; [exact M2|].
    intros i nd' a Hi H1 H2 Hne. destruct (Nat.eq_dec i k) as [->|Hik].
    + rewrite nth_error_set_same in H1 by lia. unfold a_set in H2. rewrite nth_error_set_same in H2 by lia. injection H1 as <-. injection H2 as <-. cbn [n_args p_ders p_args].
      destruct (nth_error A k) as [a|] eqn:Ea; [|apply nth_error_None in Ea; lia]. apply (M3 k nd a); auto. intros E0. apply Hne. cbn [fst]. unfold deps. rewrite (nth_error_nth _ _ _ Ea). exact E0.
    + rewrite nth_error_set_other in H1 by exact Hik. unfold a_set in H2. rewrite nth_error_set_other in H2 by exact Hik. eauto.
Qed.
Lemma push_down_ok k nd x : forall n i t L A m, sim t L A m -> k < length A -> adj A k = x -> nth_error L k = Some nd \/ True ->
  (forall j w p, nth_error (skipn i (deps A k)) j = Some (w, p) -> p < k /\ read (ders t) (shift (p_ders nd) (i + j)) = Ok w /\ read (args t) (shift (p_args nd) (i + j)) = Ok (place_of p)) ->
  length (deps A k) = i + n ->
  exists t' L', push_down add mul (place_of k) nd i n t = Ok t' /\ sim t' L' (a_down x (skipn i (deps A k)) A) m /\ dropped t' = dropped t /\ mark (nodes t') = mark (nodes t).
Proof.
  induction n as [|n IH]; intros i t L A m H Hk Hx _ Hr Hlen; cbn [push_down].
  - rewrite skipn_all2 by lia. cbn [a_down]. exists t, L. auto.
  - destruct (nth_error (deps A k) i) as [[w p]|] eqn:Ei; [|apply nth_error_None in Ei; lia].
    assert (skipn i (deps A k) = (w, p) :: skipn (S i) (deps A k)) as Es.
    { clear - Ei. revert i Ei. generalize (deps A k) as l. induction l as [|y l IH]; intros [|i] E; try discriminate; cbn [nth_error skipn] in *; [now injection E as ->|]. rewrite (IH i E). reflexivity. }
    rewrite Es in *. destruct (Hr 0 w p eq_refl) as (Hp & R1 & R2). rewrite Nat.add_0_r in R1, R2. rewrite R2. cbn [obind]. rewrite R1. cbn [obind].
    rewrite (get_adjoint_ok t L A m k H Hk), Hx. cbn [obind]. rewrite (get_adjoint_ok t L A m p H) by lia. cbn [obind a_down].
    destruct (set_adjoint_ok t L A m p (add (adj A p) (mul x w)) H ltac:(lia)) as (t1 & L1 & E1 & H1 & D1 & Ed & Ea & Em). rewrite E1. cbn [obind].
    assert (deps (a_set A p (add (adj A p) (mul x w))) k = deps A k) as Ek by (apply a_set_deps; lia).
    destruct (IH (S i) t1 L1 (a_set A p (add (adj A p) (mul x w))) m H1) as (t2 & L2 & E2 & H2 & D2 & M2).
    + rewrite a_set_length. exact Hk.
    + rewrite a_set_adj by lia. destruct (Nat.eqb_spec k p); [lia|exact Hx].
    + now right.
    + rewrite Ek, Ed, Ea. intros j w' p' Hj. destruct (Hr (S j) w' p') as (X1 & X2 & X3); [exact Hj|]. rewrite Nat.add_succ_r in X2, X3. auto.
    + rewrite Ek. lia.
    + rewrite Ek in H2. exists t2, L2. split; [exact E2|]. split; [exact H2|]. split; congruence.
Qed.
Lemma propagate_one_ok t L A m k : sim t L A m -> k < length A -> exists t' L', propagate_one add mul tiny is_zero (place_of k) t = Ok t' /\
  sim t' L' (fst (a_one k (A, dropped t))) m /\ dropped t' = snd (a_one k (A, dropped t)) /\ mark (nodes t') = mark (nodes t).
Proof.
  intros H Hk. destruct (sim_node t L A m k H Hk) as (nd & E & EL & [O1 O2 O3 O4]). unfold propagate_one, a_one. rewrite E. cbn [obind fst snd] in *. rewrite O1, O2.
  destruct (Nat.eqb_spec (length (deps A k)) 0) as [E0|E0]; [cbn [fst snd]; exists t, L; auto|]. destruct (tiny (adj A k)).
  - eexists _, L. split; [reflexivity|]. cbn [fst snd dropped nodes]. split; [|auto]. destruct H; constructor; auto.
  - cbn [fst snd]. assert (deps A k <> []) as Hne by (intros Hn; rewrite Hn in E0; now elim E0). destruct (O4 Hne) as (_ & _ & _ & _ & Q).
    destruct (push_down_ok k nd (adj A k) (length (deps A k)) 0 t L A m H Hk eq_refl (or_intror Logic.I)) as (t' & L' & E1 & H1 & D1 & M1).
    + cbn [skipn]. intros j w p Hj. destruct (Q j w p Hj). rewrite Forall_forall in O3. pose proof (O3 _ (nth_error_In _ _ Hj)). auto.
    + reflexivity.
    + exists t', L'. auto.
Qed.
Lemma a_one_length k s : length (fst (a_one k s)) = length (fst s) .
Proof.
  destruct s as [A d]. unfold a_one. destruct (length (deps A k) =? 0); [reflexivity|]. destruct (tiny (adj A k)); [reflexivity|]. cbn [fst].
  generalize (adj A k) as x. generalize (deps A k) as ws. clear k d. intros ws x. revert A. induction ws as [|[w j] ws IH]; intros A; cbn [a_down]; [reflexivity|]. now rewrite IH, a_set_length.
Qed.
Lemma propagate_at_ok l : forall t L A m, sim t L A m -> Forall (fun k => k < length A) l -> exists t' L', propagate_at add mul tiny is_zero (map place_of l) t = Ok t' /\
  sim t' L' (fst (a_all l (A, dropped t))) m /\ dropped t' = snd (a_all l (A, dropped t)) /\ mark (nodes t') = mark (nodes t).
Proof.
  induction l as [|k l IH]; intros t L A m H Hl; cbn [map propagate_at].
  - cbn. exists t, L. auto.
  - inversion Hl as [|? ? Hk Hl']; subst. destruct (propagate_one_ok t L A m k H Hk) as (t1 & L1 & E1 & H1 & D1 & M1). rewrite E1. cbn [obind].
    destruct (IH t1 L1 _ m H1) as (t2 & L2 & E2 & H2 & D2 & M2).
    { eapply Forall_impl; [|exact Hl']. intros j Hj. cbn beta. now rewrite a_one_length. }
    exists t2, L2. split; [exact E2|]. unfold a_all in *. cbn [fold_left]. rewrite D1 in H2, D2. rewrite <- surjective_pairing in H2, D2. split; [exact H2|]. split; [exact D2|congruence].
Qed.
Lemma sim_slots t L A m k : sim t L A m -> k < length A -> k < slots BN (nodes t).
Proof. intros [S1 _ _ S4 _ _] Hk. pose proof (holds_len BN HN _ _ S1) as Hl. destruct S1 as [_ H2 H3 _ _]. cbn [fst] in Hl. unfold slots. nia. Qed.
(** nodes [from], [from] - 1, ..., [to] *)
Definition downto (from to : nat) : list nat := rev (seq to (S (from - to))).
Lemma propagate_ok t L A m from to : sim t L A m -> to <= from -> from < length A -> exists t' L',
  propagate add mul tiny is_zero BN (place_of from) (place_of to) t = Ok t' /\
  sim t' L' (fst (a_all (downto from to) (A, dropped t))) m /\ dropped t' = snd (a_all (downto from to) (A, dropped t)) /\ mark (nodes t') = mark (nodes t).
Proof.
  intros H Hle Hf. unfold propagate. pose proof (sim_slots _ _ _ _ _ H Hf). replace (place_of from) with (place_of (to + (from - to))) by (f_equal; lia).
  rewrite (walk_down_places BN HN) by lia. cbn [obind]. apply (propagate_at_ok _ t L A m H). unfold downto. apply Forall_forall. intros k Hk. apply in_rev, in_seq in Hk. lia.
Qed.
Lemma propagate_from_ok t L A m v k to : sim t L A m -> to <= k -> k < length A -> exists t' L',
  propagate_from one add mul tiny is_zero BN (Number v (place_of k)) (place_of to) t = Ok t' /\
  sim t' L' (fst (a_all (downto k to) (a_set A k one, dropped t))) m /\ dropped t' = snd (a_all (downto k to) (a_set A k one, dropped t)) /\ mark (nodes t') = mark (nodes t).
Proof.
  intros H Hle Hk. unfold propagate_from. cbn [at_node]. destruct (set_adjoint_ok t L A m k one H Hk) as (t1 & L1 & E1 & H1 & D1 & _ & _ & M1). rewrite E1. cbn [obind].
  rewrite (find_holds BN HN (nodes t1) (L1, m) k (sm_holds _ _ _ _ H1)) by (cbn [fst]; rewrite (sm_length _ _ _ _ H1), a_set_length; exact Hk). cbn [obind].
  destruct (propagate_ok t1 L1 _ m k to H1 Hle) as (t2 & L2 & E2 & H2 & D2 & M2); [now rewrite a_set_length|]. rewrite D1 in H2, D2. exists t2, L2. split; [exact E2|]. split; [exact H2|]. split; [exact D2|congruence].
Qed.
(** * The mark *)
Lemma mark_ok t L A m : sim t L A m -> exists L', sim (mark_tape zero BN BD t) L' A (Some (length A)).
Proof.
  intros [S1 S2 S3 S4 S5 S6]. exists L. unfold mark_tape. destruct (set_mark_store BD zero HD (ders t) S2) as (D1 & D2 & D3 & D4).
  destruct (set_mark_store BD (0, 0) HD (args t) S3) as (F1 & F2 & F3 & F4).
  destruct (step_holds BN (blank_node zero) HN SetMark (nodes t) (L, m) (L, Some (length L)) S1 eq_refl) as (ns & E & Hn). cbn [apply] in E. injection E as <-.
  constructor; cbn [nodes ders args]; auto.
  - rewrite <- S4. exact Hn.
  - intros k nd a H1 H2. apply (node_ok_mono _ _ _ _ _ _ _ _ _ _ _ (S5 k nd a H1 H2)); auto.
  - intros j Ej. injection Ej as <-. split; [lia|]. rewrite D3, F3. eexists _, _. split; [reflexivity|]. split; [reflexivity|].
    intros k nd a Hk H1 H2 Hne. destruct (no_room _ _ _ _ _ _ _ (S5 k nd a H1 H2) Hne) as (X1 & X2 & _). unfold top in *. lia.
Qed.
Lemma rewind_ok t L A j : sim t L A (Some j) -> exists t' L', rewind_tape t = Ok t' /\ sim t' L' (firstn j A) (Some j) /\ dropped t' = dropped t.
Proof.
  intros [S1 S2 S3 S4 S5 S6]. destruct (S6 j eq_refl) as (Hj & [b1 o1] & [b2 o2] & M1 & M2 & M3). unfold rewind_tape.
  destruct (rewind_to_mark_store BD (ders t) b1 o1 S2 M1) as (ds & E1 & Sd & T1 & K1 & R1). rewrite E1. cbn [obind].
  destruct (rewind_to_mark_store BD (args t) b2 o2 S3 M2) as (az & E2 & Sa & T2 & K2 & R2). rewrite E2. cbn [obind].
  destruct (step_holds BN (blank_node zero) HN RewindToMark (nodes t) (L, Some j) (firstn j L, Some j) S1) as (ns & E & Hn).
  { cbn [spec_step]. rewrite S4. apply Nat.leb_le in Hj. now rewrite Hj. }
  cbn [apply] in E. rewrite E. cbn [obind].
  assert (forall X (l : list X) k x, nth_error (firstn j l) k = Some x -> k < j /\ nth_error l k = Some x) as Hf.
  { intros X l k x Hx. assert (k < length (firstn j l)) as Hl by (apply nth_error_Some; congruence). rewrite firstn_length in Hl. split; [lia|]. rewrite <- (firstn_skipn j l), nth_error_app1; [exact Hx|]. rewrite firstn_length. lia. }
  eexists _, _. split; [reflexivity|]. split; [|reflexivity]. constructor; cbn [nodes ders args]; eauto.
  - rewrite !firstn_length, S4. reflexivity.
  - intros k nd a H1 H2. apply Hf in H1 as [Hk H1]. apply Hf in H2 as [_ H2]. destruct (S5 k nd a H1 H2) as [O1 O2 O3 O4]. constructor; auto. intros Hne. destruct (O4 Hne) as (X1 & X2 & X3 & X4 & X5).
    destruct (M3 k nd a Hk H1 H2 Hne). rewrite T1, T2. split; [lia|]. split; [lia|]. split; [lia|]. split; [lia|]. intros i w p Hi. destruct (X5 i w p Hi). auto.
  - intros j' Ej. injection Ej as <-. split; [rewrite firstn_length; lia|]. exists (b1, o1), (b2, o2). split; [congruence|]. split; [congruence|].
    intros k nd a Hk H1 H2. apply Hf in H1 as [_ H1]. apply Hf in H2 as [_ H2]. eauto.
Qed.
Lemma mark_it_ok t L A j : sim t L A (Some j) -> mark_it t = Ok (place_of j).
Proof.
  intros [S1 _ _ _ _ _]. destruct S1 as [_ _ _ _ H]. cbn [snd] in H. destruct H as (b & o & M & Hb & Ho & ->). unfold mark_it. rewrite M, place_of_pos by assumption. reflexivity.
Qed.
End Sim.
