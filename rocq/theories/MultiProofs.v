(** The tape with several results is a list of weighted dependencies with rows of adjoints. *)
From Coq Require Import List Arith Bool Lia.
From Verif Require Import Base Vec BlockModel BlockSpec BlockProofs AadModel AadSpec AadStore AadProofs AadExec MultiModel.
Import ListNotations.

Section Sim.
Context {D : Type}.
Variables (zero one : D) (add mul : D -> D -> D).
Variable tiny : D -> bool.
Variable is_zero : D -> bool.
Variables (beval : bop -> D -> D -> D) (bleft bright : bop -> D -> D -> D -> D).
Variables (ueval : uop -> D -> D -> D) (uder : uop -> D -> D -> D -> D).
Variables (BN BA BD K : nat).
Hypothesis HN : 0 < BN.
Hypothesis HA : 0 < BA.
Hypothesis HD : 0 < BD.
Hypothesis HK : K <= BA.
Notation md := (Mode true K).
Notation place_of := (place_of BN).
Notation posd := (pos BD).
Notation posa := (pos BA).

(** a node: the weights of the nodes it depends on, and its adjoints *)
Definition row : Type := (list (D * nat) * list D)%type.
Definition spot_of (L : list (mnode D)) (k : nat) : option place := match nth_error L k with Some nd => q_adj nd | None => None end.
Definition kept (ds : blocks D) (ps : blocks addr) (L : list (mnode D)) (q r : place) (ws : list (D * nat)) : Prop :=
  forall i w j, nth_error ws i = Some (w, j) -> read ds (shift q i) = Ok w /\ exists a, spot_of L j = Some a /\ read ps (shift r i) = Ok (ManyOf a).
Record row_ok (t : mtape D) (L : list (mnode D)) (k : nat) (nd : mnode D) (a : row) : Prop := RowOk {
  ro_len : q_args nd = length (fst a); ro_down : Forall (fun w => snd w < k) (fst a); ro_many : length (snd a) = K;
  ro_adj : exists q, q_adj nd = Some q /\ posa q + K <= top BA (madj t) /\ snd q + K <= BA /\ forall j x, nth_error (snd a) j = Some x -> read (madj t) (shift q j) = Ok x;
  ro_room : fst a <> [] -> posd (q_ders nd) + q_args nd <= top BD (mders t) /\ posd (q_ptrs nd) + q_args nd <= top BD (mptrs t) /\
            snd (q_ders nd) + q_args nd <= BD /\ snd (q_ptrs nd) + q_args nd <= BD /\ kept (mders t) (mptrs t) L (q_ders nd) (q_ptrs nd) (fst a) }.
Record msim (t : mtape D) (L : list (mnode D)) (A : list row) : Prop := MSim {
  ms_holds : holds BN (mnodes t) (L, None);
  ms_adj : store BA (madj t); ms_ders : store BD (mders t); ms_ptrs : store BD (mptrs t);
  ms_length : length L = length A;
  ms_each : forall k nd a, nth_error L k = Some nd -> nth_error A k = Some a -> row_ok t L k nd a;
  ms_order : forall k j q r, k < j -> spot_of L k = Some q -> spot_of L j = Some r -> posa q + K <= posa r }.

Lemma new_msim : msim (new_mtape zero BN BA BD) [] [].
Proof.
  constructor; cbn [new_mtape mnodes madj mders mptrs]; try (apply init_store; assumption); try reflexivity; [apply init_holds; exact HN|intros [|k]; discriminate|].
  intros k j q r _ H. unfold spot_of in H. destruct k; discriminate.
Qed.
Lemma below_top {T} B (s : blocks T) p : 0 < B -> store B s -> pos B p < top B s -> fst p < length (data s).
Proof. intros HB [_ H2 H3 _] H. unfold top, pos in H. cbn [fst snd] in H. nia. Qed.

Lemma fill_ok (x : D) q n : forall i s, store BA s -> posa q + i + n <= top BA s -> snd q + i + n <= BA ->
  exists s', fill x s q i n = Ok s' /\ store BA s' /\ top BA s' = top BA s /\
    (forall p y, (forall k, i <= k -> p <> shift q k) -> read s p = Ok y -> read s' p = Ok y) /\ (forall k, i <= k < i + n -> read s' (shift q k) = Ok x).
Proof.
  induction n as [|n IH]; intros i s Hs Ht Hq; cbn [fill].
  - exists s. do 4 (split; [auto; fail|]). intros k Hk. lia.
  - assert (fst (shift q i) < length (data s)) as Hb by (apply (below_top BA); auto; unfold shift, pos in *; cbn [fst snd] in *; lia).
    destruct (write_store BA HA s (shift q i) x Hs Hb) as (s1 & E1 & S1 & C1 & N1 & M1 & L1 & R1 & O1); [unfold shift; cbn [snd]; lia|]. rewrite E1. cbn [obind].
    assert (T1 : top BA s1 = top BA s) by (unfold top; now rewrite C1, N1).
    destruct (IH (S i) s1 S1) as (s2 & E2 & S2 & T2 & O2 & R2); [lia|lia|]. exists s2. split; [exact E2|]. split; [exact S2|]. split; [congruence|]. split.
    + intros p y Hp Hy. apply O2; [intros k Hk; apply Hp; lia|]. apply O1; [apply Hp; lia|exact Hy].
    + intros k Hk. destruct (Nat.eq_dec k i) as [->|Hne]; [|apply R2; lia]. apply O2; [|exact R1]. intros k Hk' E. unfold shift in E. injection E. lia.
Qed.
Lemma mpush_ok L q r ws : forall i (t : mtape D), holds BN (mnodes t) (L, None) -> store BD (mders t) -> store BD (mptrs t) ->
  fst q < length (data (mders t)) -> fst r < length (data (mptrs t)) -> snd q + i + length ws <= BD -> snd r + i + length ws <= BD ->
  Forall (fun w => exists a, spot_of L (snd w) = Some a) ws ->
  exists t', mpush md q r i (map (fun w => (fst w, place_of (snd w))) ws) t = Ok t' /\ mnodes t' = mnodes t /\ madj t' = madj t /\ lost t' = lost t /\ store BD (mders t') /\ store BD (mptrs t') /\
    top BD (mders t') = top BD (mders t) /\ top BD (mptrs t') = top BD (mptrs t) /\
    (forall p x, (forall k, i <= k -> p <> shift q k) -> read (mders t) p = Ok x -> read (mders t') p = Ok x) /\
    (forall p x, (forall k, i <= k -> p <> shift r k) -> read (mptrs t) p = Ok x -> read (mptrs t') p = Ok x) /\
    (forall k w j, nth_error ws k = Some (w, j) -> read (mders t') (shift q (i + k)) = Ok w /\ exists a, spot_of L j = Some a /\ read (mptrs t') (shift r (i + k)) = Ok (ManyOf a)).
Proof.
  induction ws as [|[w j] ws IH]; intros i t Hn Sd Sa Hq Hr Lq Lr Hw; cbn [map mpush fst snd length] in *.
  - exists t. do 10 (split; [auto; fail|]). intros [|k]; discriminate.
  - inversion Hw as [|? ? [a Ha] Hw']; subst. cbn [snd] in Ha. unfold target. unfold spot_of in Ha. destruct (nth_error L j) as [nd|] eqn:Ej; [|discriminate].
    assert (j < length L) by (apply nth_error_Some; congruence). rewrite (read_place BN HN (mnodes t) _ j Hn) by (cbn [fst]; lia). cbn [fst]. unfold get. rewrite Ej. cbn [obind multi]. rewrite Ha. cbn [obind].
    destruct (write_store BD HD (mptrs t) (shift r i) (ManyOf a) Sa) as (az & E1 & Sa1 & C1 & N1 & M1 & L1 & R1 & O1); try (unfold shift; cbn [fst snd]; lia).
    destruct (write_store BD HD (mders t) (shift q i) w Sd) as (ds & E2 & Sd1 & C2 & N2 & M2 & L2 & R2 & O2); try (unfold shift; cbn [fst snd]; lia).
    rewrite E1. cbn [obind]. rewrite E2. cbn [obind].
    destruct (IH (S i) (MTape (mnodes t) (madj t) ds az (lost t))) as (t' & E & G1 & Gm & G2 & G3 & G4 & G5 & G6 & G9 & G10 & G11); cbn [mders mptrs mnodes madj lost] in *; auto; try lia.
    exists t'. do 6 (split; [auto; fail|]). split; [|split; [|split; [|split]]].
    + rewrite G5. unfold top. now rewrite C2, N2.
    + rewrite G6. unfold top. now rewrite C1, N1.
    + intros p x Hp Hx. apply G9; [intros k Hk; apply Hp; lia|]. apply O2; [apply Hp; lia|exact Hx].
    + intros p x Hp Hx. apply G10; [intros k Hk; apply Hp; lia|]. apply O1; [apply Hp; lia|exact Hx].
    + intros [|k] w0 j0 H0; cbn [nth_error] in H0.
      * injection H0 as <- <-. rewrite Nat.add_0_r. split.
        -- apply G9; [|exact R2]. intros k Hk E'. unfold shift in E'. injection E'. lia.
        -- exists a. split; [unfold spot_of; now rewrite Ej|]. apply G10; [|exact R1]. intros k Hk E'. unfold shift in E'. injection E'. lia.
      * rewrite Nat.add_succ_r, <- Nat.add_succ_l. apply (G11 k w0 j0 H0).
Qed.
Lemma spot_app L nd k : k < length L -> spot_of (L ++ [nd]) k = spot_of L k.
Proof. intros H. unfold spot_of. now rewrite nth_error_app1 by exact H. Qed.
Lemma spot_last L nd : spot_of (L ++ [nd]) (length L) = q_adj nd.
Proof. unfold spot_of. now rewrite nth_error_app2, Nat.sub_diag by lia. Qed.
Lemma sim_spot t L A k : msim t L A -> k < length A -> exists nd a q, nth_error L k = Some nd /\ nth_error A k = Some a /\ row_ok t L k nd a /\ q_adj nd = Some q /\ spot_of L k = Some q /\
  posa q + K <= top BA (madj t) /\ snd q + K <= BA /\ forall j x, nth_error (snd a) j = Some x -> read (madj t) (shift q j) = Ok x.
Proof.
  intros H Hk. destruct (nth_error L k) as [nd|] eqn:E; [|apply nth_error_None in E; rewrite (ms_length _ _ _ H) in E; lia]. destruct (nth_error A k) as [a|] eqn:Ea; [|apply nth_error_None in Ea; lia].
  pose proof (ms_each _ _ _ H k nd a E Ea) as O. destruct (ro_adj _ _ _ _ _ O) as (q & Q1 & Q2 & Q3 & Q4). exists nd, a, q. unfold spot_of. rewrite E. do 7 (split; [auto; fail|]). exact Q4.
Qed.

(** recording a node with its weights *)
Lemma mrecord_push_ok t L A ws : msim t L A -> length ws <= BD -> Forall (fun w => snd w < length A) ws ->
  exists t1 t2 nd L', mrecord zero BN BA BD md (length ws) t = Ok (place_of (length A), t1) /\ read (mnodes t1) (place_of (length A)) = Ok nd /\
    mpush md (q_ders nd) (q_ptrs nd) 0 (map (fun w => (fst w, place_of (snd w))) ws) t1 = Ok t2 /\ msim t2 L' (A ++ [(ws, repeat zero K)]) /\ lost t2 = lost t.
Proof.
  intros H Hw Hd. pose proof H as [S1 SA S2 S3 S4 S5 S6]. unfold mrecord.
  destruct (emplace_place BN (blank_mnode zero) HN (mnodes t) L None (MNode (length ws) zero None (0, 0) (0, 0)) S1) as (ns & E & Hns). rewrite E. cbn [obind]. rewrite <- S4. cbn [multi num].
  destruct (emplace_multi_store BA zero HA K (madj t) SA HK) as (qa & sa & Eqa & Ssa & A1 & A2 & A3 & A4 & _ & A6). rewrite Eqa. cbn [obind].
  destruct (fill_ok zero qa K 0 sa Ssa) as (s' & Ef & Ss' & Ts' & Of & Rf); [lia|lia|]. rewrite Ef. cbn [obind].
  destruct (write_place BN HN ns _ None (length L) (MNode (length ws) zero (Some qa) (0, 0) (0, 0)) Hns) as (ns1 & Ew & Hns1 & _ & _); [rewrite app_length; cbn; lia|].
  rewrite Ew. cbn [obind]. rewrite set_nth_app in Hns1.
  assert (RA : forall p x, posa p < top BA (madj t) -> snd p < BA -> read (madj t) p = Ok x -> read s' p = Ok x).
  { intros p x Hp Hs Hx. apply Of; [|apply A6; exact Hx]. intros k _ ->. unfold shift, pos in *; cbn [fst snd] in *. lia. }
  assert (ZR : forall j x, nth_error (repeat zero K) j = Some x -> read s' (shift qa j) = Ok x).
  { intros j x Hx. assert (j < K) by (rewrite <- (repeat_length zero K); apply nth_error_Some; congruence). rewrite Rf by lia. f_equal. apply nth_error_In, repeat_spec in Hx. now symmetry. }
  assert (Old : forall nd', q_adj nd' = Some qa -> forall k j q r, k < j -> spot_of (L ++ [nd']) k = Some q -> spot_of (L ++ [nd']) j = Some r -> posa q + K <= posa r).
  { intros nd' Hnd k j q r Hkj Hk Hj. assert (j < length L + 1) by (unfold spot_of in Hj; destruct (nth_error (L ++ [nd']) j) eqn:E'; [|discriminate]; assert (j < length (L ++ [nd'])) by (apply nth_error_Some; congruence); rewrite app_length in *; cbn [length] in *; lia).
    rewrite spot_app in Hk by lia. destruct (Nat.eq_dec j (length L)) as [->|Hne].
    - rewrite spot_last, Hnd in Hj. injection Hj as <-. destruct (sim_spot t L A k H) as (nd0 & a0 & q0 & _ & _ & _ & _ & Q1 & Q2 & _); [lia|]. assert (q0 = q) as <- by congruence. lia.
    - rewrite spot_app in Hj by lia. exact (S6 k j q r Hkj Hk Hj). }
  destruct (Nat.eqb_spec (length ws) 0) as [E0|E0].
  - destruct ws as [|? ?]; [|discriminate]. cbn [length map mpush] in *.
    eexists _, _, (MNode 0 zero (Some qa) (0, 0) (0, 0)), (L ++ [MNode 0 zero (Some qa) (0, 0) (0, 0)]). split; [reflexivity|]. cbn [mnodes]. split.
    { rewrite (read_place BN HN ns1 _ (length L) Hns1) by (cbn [fst]; rewrite app_length; cbn; lia). cbn [fst]. apply get_app. }
    split; [reflexivity|]. split; [|reflexivity]. constructor; cbn [mnodes madj mders mptrs]; auto.
    + rewrite !app_length, S4. reflexivity.
    + intros k nd a H1 H2. destruct (Nat.lt_ge_cases k (length L)) as [Hk|Hk].
      * rewrite nth_error_app1 in H1, H2 by lia. destruct (S5 _ _ _ H1 H2) as [O1 O2 O3 (q & Q1 & Q2 & Q3 & Q4) O5]. constructor; cbn [madj mders mptrs]; auto.
        -- exists q. split; [exact Q1|]. split; [lia|]. split; [exact Q3|]. intros j x Hj. assert (j < length (snd a)) by (apply nth_error_Some; congruence). apply RA; [unfold shift, pos in *; cbn [fst snd]; lia|unfold shift; cbn [snd]; lia|auto].
        -- intros Hne. destruct (O5 Hne) as (X1 & X2 & X3 & X4 & X5). repeat (split; [assumption|]). intros i w j Hi. destruct (X5 i w j Hi) as (Y1 & a' & Y2 & Y3). split; [exact Y1|]. exists a'. split; [|exact Y3].
           rewrite spot_app; [exact Y2|]. unfold spot_of in Y2. apply nth_error_Some. destruct (nth_error L j); [discriminate|discriminate].
      * rewrite nth_error_app2 in H1, H2 by lia. rewrite <- S4 in H2. destruct (k - length L) as [|z] eqn:Ez; [|destruct z; discriminate].
        injection H1 as <-. injection H2 as <-. constructor; cbn [fst snd q_args q_adj madj]; auto; [apply repeat_length| |intros []; reflexivity]. exists qa. split; [reflexivity|]. split; [lia|]. split; [lia|exact ZR].
    + apply Old. reflexivity.
  - destruct (emplace_multi_store BD zero HD (length ws) (mders t) S2 Hw) as (q & ds & Eq & Sd & T1 & T2 & T3 & T4 & _ & T6).
    destruct (emplace_multi_store BD Null HD (length ws) (mptrs t) S3 Hw) as (r & az & Er & Sa & U1 & U2 & U3 & U4 & _ & U6).
    rewrite Eq. cbn [obind]. rewrite Er. cbn [obind].
    destruct (write_place BN HN ns1 _ None (length L) (MNode (length ws) zero (Some qa) q r) Hns1) as (ns' & Ew2 & Hns' & _ & _); [rewrite app_length; cbn; lia|].
    rewrite Ew2. cbn [obind]. rewrite set_nth_app in Hns'. set (nd' := MNode (length ws) zero (Some qa) q r) in *.
    destruct (mpush_ok (L ++ [nd']) q r ws 0 (MTape ns' s' ds az (lost t)) Hns' Sd Sa T4 U4) as (t' & Ep & G1 & Gm & G2 & G3 & G4 & G5 & G6 & G9 & G10 & G11); try lia.
    { eapply Forall_impl; [|exact Hd]. intros w Hlt. cbv beta in *. destruct (sim_spot t L A (snd w) H Hlt) as (_ & _ & q0 & _ & _ & _ & _ & Q & _). exists q0. rewrite spot_app by lia. exact Q. }
    cbn [mnodes madj mders mptrs lost] in *.
    eexists _, t', nd', (L ++ [nd']). split; [reflexivity|]. cbn [mnodes]. split.
    { rewrite (read_place BN HN ns' _ (length L) Hns') by (cbn [fst]; rewrite app_length; cbn; lia). cbn [fst]. apply get_app. }
    split; [exact Ep|]. split; [|exact G2].
    assert (forall p x, posd p < top BD (mders t) -> snd p < BD -> read (mders t) p = Ok x -> read (mders t') p = Ok x) as Rd.
    { intros p x Hp Hs Hx. apply G9; [|apply T6; exact Hx]. intros k _ ->. unfold shift, pos in *; cbn [fst snd] in *. lia. }
    assert (forall p x, posd p < top BD (mptrs t) -> snd p < BD -> read (mptrs t) p = Ok x -> read (mptrs t') p = Ok x) as Ra.
    { intros p x Hp Hs Hx. apply G10; [|apply U6; exact Hx]. intros k _ ->. unfold shift, pos in *; cbn [fst snd] in *. lia. }
    constructor; auto; rewrite ?Gm; auto.
    + rewrite G1. exact Hns'.
    + rewrite !app_length, S4. reflexivity.
    + intros k nd a H1 H2. destruct (Nat.lt_ge_cases k (length L)) as [Hk|Hk].
      * rewrite nth_error_app1 in H1, H2 by lia. destruct (S5 _ _ _ H1 H2) as [O1 O2 O3 (q0 & Q1 & Q2 & Q3 & Q4) O5]. constructor; auto.
        -- exists q0. rewrite Gm. split; [exact Q1|]. split; [lia|]. split; [exact Q3|]. intros j x Hj. assert (j < length (snd a)) by (apply nth_error_Some; congruence). apply RA; [unfold shift, pos in *; cbn [fst snd]; lia|unfold shift; cbn [snd]; lia|auto].
        -- intros Hne. destruct (O5 Hne) as (X1 & X2 & X3 & X4 & X5). split; [lia|]. split; [lia|]. split; [exact X3|]. split; [exact X4|]. intros i w j Hi. assert (i < length (fst a)) by (apply nth_error_Some; congruence). destruct (X5 i w j Hi) as (Y1 & a' & Y2 & Y3).
           split; [apply Rd; auto; unfold shift, pos in *; cbn [fst snd]; lia|]. exists a'. split; [|apply Ra; auto; unfold shift, pos in *; cbn [fst snd]; lia].
           rewrite spot_app; [exact Y2|]. unfold spot_of in Y2. apply nth_error_Some. destruct (nth_error L j); discriminate.
      * rewrite nth_error_app2 in H1, H2 by lia. rewrite <- S4 in H2. destruct (k - length L) as [|z] eqn:Ez; [|destruct z; discriminate].
        injection H1 as <-. injection H2 as <-. constructor; cbn [fst snd q_args q_adj q_ders q_ptrs nd']; auto.
        { replace k with (length A) by lia. exact Hd. } { apply repeat_length. } { exists qa. rewrite Gm. split; [reflexivity|]. split; [lia|]. split; [lia|exact ZR]. }
        intros _. split; [lia|]. split; [lia|]. split; [lia|]. split; [lia|]. intros i w j Hi. exact (G11 i w j Hi).
    + exact (Old nd' eq_refl).
Qed.

(** * Running a program *)
Lemma mexec_ok inputs p : forall vs t L A, msim t L A -> length A = length vs -> scoped p (length vs) -> leaves_fit BD p ->
  exists t' L', mexec zero one mul beval bleft bright ueval uder BN BA BD md inputs p (numbers zero BN vs) t = Ok (numbers zero BN (values zero beval ueval inputs p vs), t') /\
    msim t' L' (A ++ map (fun ws => (ws, repeat zero K)) (recorded zero one mul beval bleft bright ueval uder inputs p vs)) /\ lost t' = lost t.
Proof.
  induction p as [|s p IH]; intros vs t L A H HAl Hs Hf.
  - cbn. rewrite app_nil_r. exists t, L. auto.
  - destruct Hs as [Hs1 Hs2]. inversion Hf as [|? ? Hf1 Hf2]; subst.
    assert (exists t1 L1, mexec1 zero one mul beval bleft bright ueval uder BN BA BD md inputs s (numbers zero BN vs) t = Ok (Number (value_of zero beval ueval inputs s vs) (place_of (length vs)), t1) /\
      msim t1 L1 (A ++ [(new_deps zero one mul beval bleft bright ueval uder s vs, repeat zero K)]) /\ lost t1 = lost t) as (t1 & L1 & E1 & H1 & D1).
    { destruct s as [i|v|e]; cbn [mexec1 value_of new_deps].
      - destruct (mrecord_push_ok t L A [] H) as (t1 & t2 & nd & L' & E1 & E2 & E3 & H2 & D2); [cbn; lia|constructor|].
        cbn [length map mpush] in *. injection E3 as ->. unfold mfrom_double. rewrite E1. cbn [obind]. rewrite <- HAl. eauto.
      - destruct (mrecord_push_ok t L A [] H) as (t1 & t2 & nd & L' & E1 & E2 & E3 & H2 & D2); [cbn; lia|constructor|].
        cbn [length map mpush] in *. injection E3 as ->. unfold mfrom_double. rewrite E1. cbn [obind]. rewrite <- HAl. eauto.
      - cbn [scoped1] in Hs1. rewrite (resolve_ok zero BN vs e Hs1). cbn [obind]. unfold mfrom_expr. rewrite emap_eval, emap_weights. cbn [value].
        set (ws := weights mul beval bleft bright ueval uder (fun k => nth k vs zero) e one).
        assert (length ws = length (leaves e)) as Hl by (rewrite <- (weights_leaves mul beval bleft bright ueval uder (fun k => nth k vs zero) e one), map_length; reflexivity).
        destruct (mrecord_push_ok t L A ws H) as (t1 & t2 & nd & L' & E1 & E2 & E3 & H2 & D2); [lia| |].
        { rewrite HAl. rewrite <- (weights_leaves mul beval bleft bright ueval uder (fun k => nth k vs zero) e one) in Hs1. fold ws in Hs1. apply Forall_forall. intros w Hw. rewrite Forall_forall in Hs1. apply Hs1. now apply in_map. }
        rewrite map_length, E1. cbn [obind]. rewrite E2. cbn [obind]. rewrite map_map. cbn [fst snd at_node]. rewrite E3. cbn [obind]. rewrite <- HAl. eauto. }
    cbn [mexec]. rewrite E1. cbn [obind]. rewrite <- numbers_app.
    destruct (IH (vs ++ [value_of zero beval ueval inputs s vs]) t1 L1 (A ++ [(new_deps zero one mul beval bleft bright ueval uder s vs, repeat zero K)]) H1) as (t2 & L2 & E2 & H2 & D2).
    + rewrite !app_length, HAl. reflexivity.
    + rewrite app_length, Nat.add_1_r. exact Hs2.
    + exact Hf2.
    + exists t2, L2. split; [exact E2|]. split; [|congruence]. cbn [recorded map]. rewrite <- app_assoc in H2. exact H2.
Qed.

(** * Adjoints on the list *)
Definition m_blank : row := ([], []).
Definition m_row (A : list row) (k : nat) : list D := snd (nth k A m_blank).
Definition m_deps (A : list row) (k : nat) : list (D * nat) := fst (nth k A m_blank).
Definition m_set (A : list row) (k : nat) (r : list D) : list row := set_nth A k (m_deps A k, r).
Definition row_add (w : D) (xs ys : list D) : list D := map (fun yx => add (fst yx) (mul w (snd yx))) (combine ys xs).
Fixpoint m_down (xs : list D) (ws : list (D * nat)) (A : list row) : list row :=
  match ws with [] => A | (w, j) :: r => m_down xs r (m_set A j (row_add w xs (m_row A j))) end.
Definition m_one (k : nat) (s : list row * bool) : list row * bool :=
  let '(A, d) := s in
  if length (m_deps A k) =? 0 then (A, d)
  else if forallb tiny (m_row A k) then (A, d || negb (forallb is_zero (m_row A k)))
  else (m_down (m_row A k) (m_deps A k) A, d).
Definition m_all (l : list nat) (s : list row * bool) : list row * bool := fold_left (fun s k => m_one k s) l s.
Fixpoint m_seed (j : nat) (results : list nat) (A : list row) : list row :=
  match results with [] => A | r :: l => m_seed (S j) l (m_set A r (set_nth (m_row A r) j one)) end.
Definition m_reset (A : list row) : list row := map (fun a : row => (fst a, repeat zero K)) A.

Lemma m_set_length A k r : length (m_set A k r) = length A.
Proof. apply set_nth_length. Qed.
Lemma m_set_deps A k r j : k < length A -> m_deps (m_set A k r) j = m_deps A j.
Proof. intros H. unfold m_set, m_deps. rewrite nth_set_nth by exact H. destruct (Nat.eqb_spec j k) as [->|]; reflexivity. Qed.
Lemma m_set_row A k r j : k < length A -> m_row (m_set A k r) j = if j =? k then r else m_row A j.
Proof. intros H. unfold m_set, m_row. rewrite nth_set_nth by exact H. destruct (Nat.eqb_spec j k) as [->|]; reflexivity. Qed.
Lemma row_add_length w xs ys : length ys = K -> length xs = K -> length (row_add w xs ys) = K.
Proof. clear HN HA HD HK. intros H1 H2. unfold row_add. rewrite map_length, combine_length. lia. Qed.
Lemma m_down_length xs ws : forall A, length (m_down xs ws A) = length A.
Proof. induction ws as [|[w j] ws IH]; intros A; cbn [m_down]; [reflexivity|]. now rewrite IH, m_set_length. Qed.
Lemma m_one_length k s : length (fst (m_one k s)) = length (fst s).
Proof. destruct s as [A d]. unfold m_one. destruct (length (m_deps A k) =? 0); [reflexivity|]. destruct (forallb tiny (m_row A k)); [reflexivity|]. cbn [fst]. apply m_down_length. Qed.
Lemma m_all_length l : forall s, length (fst (m_all l s)) = length (fst s).
Proof. induction l as [|k l IH]; intros s; cbn; [reflexivity|]. unfold m_all in *. rewrite IH. apply m_one_length. Qed.
Lemma m_seed_length rs : forall j A, length (m_seed j rs A) = length A.
Proof. induction rs as [|r rs IH]; intros j A; cbn [m_seed]; [reflexivity|]. now rewrite IH, m_set_length. Qed.

Lemma sim_at t L A k : msim t L A -> k < length A -> exists nd q, read (mnodes t) (place_of k) = Ok nd /\ nth_error L k = Some nd /\ row_ok t L k nd (m_deps A k, m_row A k) /\ q_adj nd = Some q /\ spot_of L k = Some q /\
  posa q + K <= top BA (madj t) /\ snd q + K <= BA /\ (forall j x, nth_error (m_row A k) j = Some x -> read (madj t) (shift q j) = Ok x) /\ length (m_row A k) = K.
Proof.
  intros H Hk. destruct (sim_spot t L A k H Hk) as (nd & a & q & E1 & E2 & O & Q1 & Q2 & Q3 & Q4 & Q5). exists nd, q.
  rewrite (read_place BN HN (mnodes t) _ k (ms_holds _ _ _ H)) by (cbn [fst]; rewrite (ms_length _ _ _ H); lia). cbn [fst]. unfold get. rewrite E1.
  assert (nth k A m_blank = a) as En by (apply nth_error_nth; exact E2). unfold m_deps, m_row. rewrite En. destruct a as [ws xs]. cbn [fst snd] in *. pose proof (ro_many _ _ _ _ _ O). do 8 (split; [auto; fail|]). assumption.
Qed.
(** replacing the adjoints of one node *)
Lemma set_row_ok t L A k q s' r : msim t L A -> k < length A -> spot_of L k = Some q -> length r = K -> store BA s' -> top BA s' = top BA (madj t) ->
  (forall p x, (forall j, j < K -> p <> shift q j) -> read (madj t) p = Ok x -> read s' p = Ok x) -> (forall j x, nth_error r j = Some x -> read s' (shift q j) = Ok x) ->
  msim (MTape (mnodes t) s' (mders t) (mptrs t) (lost t)) L (m_set A k r).
Proof.
  intros H Hk Hq Hr Hs Ht Ho Hn. pose proof H as [S1 SA S2 S3 S4 S5 S6]. constructor; cbn [mnodes madj mders mptrs]; auto.
  - rewrite m_set_length. exact S4.
  - intros i nd a H1 H2. destruct (Nat.eq_dec i k) as [->|Hne].
    + unfold m_set in H2. rewrite nth_error_set_same in H2 by exact Hk. injection H2 as <-. destruct (sim_at t L A k H Hk) as (nd0 & q0 & _ & E & O & Q1 & Q2 & Q3 & Q4 & _). assert (nd0 = nd) as -> by congruence. assert (q0 = q) as -> by congruence.
      destruct O as [O1 O2 O3 O4 O5]. constructor; cbn [fst snd madj mders mptrs] in *; auto. exists q. split; [exact Q1|]. split; [lia|]. split; [exact Q4|exact Hn].
    + unfold m_set in H2. rewrite nth_error_set_other in H2 by exact Hne. destruct (S5 i nd a H1 H2) as [O1 O2 O3 (q0 & Q1 & Q2 & Q3 & Q4) O5]. constructor; cbn [madj mders mptrs]; auto. exists q0. split; [exact Q1|]. split; [lia|]. split; [exact Q3|].
      intros j x Hj. assert (j < length (snd a)) by (apply nth_error_Some; congruence). apply Ho; [|auto]. intros j' Hj' E. assert (P : posa (shift q0 j) = posa (shift q j')) by now rewrite E. unfold shift, pos in P. cbn [fst snd] in P.
      assert (spot_of L i = Some q0) as Hi by (unfold spot_of; now rewrite H1). destruct (Nat.lt_ge_cases i k) as [Hl|Hl]; [pose proof (S6 i k q0 q Hl Hi Hq) as P2|pose proof (S6 k i q q0 ltac:(lia) Hq Hi) as P2]; unfold pos in P2; lia.
Qed.
Lemma get_many_ok t L A k j x : msim t L A -> k < length A -> nth_error (m_row A k) j = Some x -> get_many (place_of k) j t = Ok x.
Proof.
  intros H Hk Hx. destruct (sim_at t L A k H Hk) as (nd & q & E & _ & _ & Q1 & _ & _ & _ & R & _). unfold get_many, own_adj. rewrite E. cbn [obind]. rewrite Q1. cbn [obind]. now apply R.
Qed.
Lemma set_many_ok t L A k j x : msim t L A -> k < length A -> j < K -> exists t', set_many (place_of k) j x t = Ok t' /\ msim t' L (m_set A k (set_nth (m_row A k) j x)) /\ lost t' = lost t.
Proof.
  intros H Hk Hj. destruct (sim_at t L A k H Hk) as (nd & q & E & _ & _ & Q1 & Q2 & Q3 & Q4 & R & Lr). unfold set_many, own_adj. rewrite E. cbn [obind]. rewrite Q1. cbn [obind].
  assert (fst (shift q j) < length (data (madj t))) as Hb by (apply (below_top BA); auto; [exact (ms_adj _ _ _ H)|unfold shift, pos in *; cbn [fst snd] in *; lia]).
  destruct (write_store BA HA (madj t) (shift q j) x (ms_adj _ _ _ H) Hb) as (s' & Ew & Ss & C1 & N1 & M1 & L1 & R1 & O1); [unfold shift; cbn [snd]; lia|]. rewrite Ew. cbn [obind].
  eexists. split; [reflexivity|]. split; [|reflexivity]. apply (set_row_ok t L A k q); auto.
  - now rewrite set_nth_length.
  - unfold top. now rewrite C1, N1.
  - intros j' y Hy. destruct (Nat.eq_dec j' j) as [->|Hne].
    + rewrite nth_error_set_same in Hy by lia. assert (x = y) as <- by congruence. exact R1.
    + rewrite nth_error_set_other in Hy by exact Hne. apply O1; [|auto]. intros E'. unfold shift in E'. injection E'. lia.
Qed.
Lemma seed_ok vs rs : forall j t L A, msim t L A -> length A = length vs -> Forall (fun r => r < length vs) rs -> j + length rs <= K ->
  exists t', seed one (numbers zero BN vs) j rs t = Ok t' /\ msim t' L (m_seed j rs A) /\ lost t' = lost t.
Proof.
  induction rs as [|r rs IH]; intros j t L A H HAl Hf Hj; cbn [seed m_seed length] in *; [exists t; auto|]. inversion Hf as [|? ? Hr Hf']; subst.
  rewrite numbers_get by exact Hr. cbn [obind at_node]. destruct (set_many_ok t L A r j one H) as (t1 & E1 & H1 & D1); [lia|lia|]. rewrite E1. cbn [obind].
  destruct (IH (S j) t1 L _ H1) as (t2 & E2 & H2 & D2); [rewrite m_set_length; exact HAl|exact Hf'|lia|]. exists t2. split; [exact E2|]. split; [exact H2|congruence].
Qed.
Lemma read_many_ok (s : blocks D) q xs : forall i, (forall j x, nth_error xs j = Some x -> read s (shift q (i + j)) = Ok x) -> read_many s q i (length xs) = Ok xs.
Proof.
  induction xs as [|x xs IH]; intros i H; cbn [length read_many]; [reflexivity|]. pose proof (H 0 x eq_refl) as H0. rewrite Nat.add_0_r in H0. rewrite H0. cbn [obind].
  rewrite IH; [reflexivity|]. intros j y Hy. rewrite Nat.add_succ_l, <- Nat.add_succ_r. exact (H (S j) y Hy).
Qed.
Lemma add_many_ok w own to n : forall j s xs ys, store BA s -> length xs = n -> length ys = n -> posa to + j + n <= top BA s -> snd to + j + n <= BA -> posa to + j + n <= posa own + j ->
  (forall k x, nth_error xs k = Some x -> read s (shift own (j + k)) = Ok x) -> (forall k y, nth_error ys k = Some y -> read s (shift to (j + k)) = Ok y) ->
  exists s', add_many add mul w own to j n s = Ok s' /\ store BA s' /\ top BA s' = top BA s /\
    (forall p x, (forall k, j <= k < j + n -> p <> shift to k) -> read s p = Ok x -> read s' p = Ok x) /\ (forall k x, nth_error (row_add w xs ys) k = Some x -> read s' (shift to (j + k)) = Ok x).
Proof.
  induction n as [|n IH]; intros j s xs ys Hs Lx Ly Ht Hb Hd Rx Ry; cbn [add_many].
  - exists s. do 4 (split; [auto; fail|]). intros k x Hx. destruct ys; [|discriminate]. destruct k; discriminate.
  - destruct xs as [|x xs]; [discriminate|]. destruct ys as [|y ys]; [discriminate|]. cbn [length] in *. pose proof (Rx 0 x eq_refl) as X0. pose proof (Ry 0 y eq_refl) as Y0. rewrite Nat.add_0_r in X0, Y0. rewrite Y0. cbn [obind]. rewrite X0. cbn [obind].
    assert (fst (shift to j) < length (data s)) as Hbl by (apply (below_top BA); auto; unfold shift, pos in *; cbn [fst snd] in *; lia).
    destruct (write_store BA HA s (shift to j) (add y (mul w x)) Hs Hbl) as (s1 & E1 & S1 & C1 & N1 & M1 & L1 & R1 & O1); [unfold shift; cbn [snd]; lia|]. rewrite E1. cbn [obind].
    assert (T1 : top BA s1 = top BA s) by (unfold top; now rewrite C1, N1).
    assert (Ne : forall p k, p = shift to j -> p = shift to (S j + k) -> False) by (intros p k -> E'; unfold shift in E'; injection E'; lia).
    destruct (IH (S j) s1 xs ys S1) as (s2 & E2 & S2 & T2 & O2 & R2); try lia.
    + intros k z Hz. apply O1; [|rewrite Nat.add_succ_l, <- Nat.add_succ_r; exact (Rx (S k) z Hz)]. intros E'. assert (k < length xs) by (apply nth_error_Some; congruence). assert (P : posa (shift own (S j + k)) = posa (shift to j)) by now rewrite E'. unfold shift, pos in *. cbn [fst snd] in P. lia.
    + intros k z Hz. apply O1; [|rewrite Nat.add_succ_l, <- Nat.add_succ_r; exact (Ry (S k) z Hz)]. intros E'. unfold shift in E'. injection E'. lia.
    + exists s2. split; [exact E2|]. split; [exact S2|]. split; [congruence|]. split.
      * intros p z Hp Hz. apply O2; [intros k Hk; apply Hp; lia|]. apply O1; [apply Hp; lia|exact Hz].
      * intros k z Hz. destruct k as [|k].
        -- cbn in Hz. assert (add y (mul w x) = z) as <- by congruence. rewrite Nat.add_0_r. apply O2; [|exact R1]. intros k Hk E'. unfold shift in E'. injection E'. lia.
        -- rewrite Nat.add_succ_r, <- Nat.add_succ_l. apply R2. exact Hz.
Qed.
Lemma mpush_down_ok k nd q xs : forall n i t L A, msim t L A -> k < length A -> m_row A k = xs -> spot_of L k = Some q ->
  (forall j w p, nth_error (skipn i (m_deps A k)) j = Some (w, p) -> p < k /\ read (mders t) (shift (q_ders nd) (i + j)) = Ok w /\ exists a, spot_of L p = Some a /\ read (mptrs t) (shift (q_ptrs nd) (i + j)) = Ok (ManyOf a)) ->
  length (m_deps A k) = i + n ->
  exists t', mpush_down add mul K nd q i n t = Ok t' /\ msim t' L (m_down xs (skipn i (m_deps A k)) A) /\ lost t' = lost t.
Proof.
  induction n as [|n IH]; intros i t L A H Hk Hx Hq Hr Hlen; cbn [mpush_down].
  - rewrite skipn_all2 by lia. cbn [m_down]. exists t. auto.
  - destruct (nth_error (m_deps A k) i) as [[w p]|] eqn:Ei; [|apply nth_error_None in Ei; lia].
    assert (skipn i (m_deps A k) = (w, p) :: skipn (S i) (m_deps A k)) as Es.
    { clear - Ei. revert i Ei. generalize (m_deps A k) as l. induction l as [|y l IH]; intros [|i] E; try discriminate; cbn [nth_error skipn] in *; [now injection E as ->|]. rewrite (IH i E). reflexivity. }
    rewrite Es in *. destruct (Hr 0 w p eq_refl) as (Hp & R1 & a & Ra & R2). rewrite Nat.add_0_r in R1, R2. rewrite R2. cbn [obind]. rewrite R1. cbn [obind m_down].
    destruct (sim_at t L A k H Hk) as (ndk & qk & _ & _ & _ & _ & Sk & _ & _ & Rk & Lk). assert (qk = q) as -> by congruence. rewrite Hx in Rk, Lk.
    destruct (sim_at t L A p H ltac:(lia)) as (ndp & qp & _ & _ & _ & _ & Sp & Tp & Bp & Rp & Lp). assert (qp = a) as -> by congruence.
    pose proof (ms_order _ _ _ H p k a q Hp Sp Hq) as Hord.
    destruct (add_many_ok w q a K 0 (madj t) xs (m_row A p) (ms_adj _ _ _ H) Lk Lp) as (s' & E' & Ss & Ts & Os & Rs); [lia|lia|lia|exact Rk|exact Rp|]. rewrite E'. cbn [obind].
    pose proof (set_row_ok t L A p a s' (row_add w xs (m_row A p)) H ltac:(lia) Sp (row_add_length w xs _ Lp Lk) Ss Ts) as H1.
    assert (H1' := H1 ltac:(intros p0 x Hp0; apply Os; intros k0 Hk0; apply Hp0; lia) Rs). clear H1.
    assert (m_deps (m_set A p (row_add w xs (m_row A p))) k = m_deps A k) as Ek by (apply m_set_deps; lia).
    destruct (IH (S i) _ L _ H1') as (t2 & E2 & H2 & D2).
    + rewrite m_set_length. exact Hk.
    + rewrite m_set_row by lia. destruct (Nat.eqb_spec k p); [lia|exact Hx].
    + exact Hq.
    + rewrite Ek. cbn [mders mptrs]. intros j w' p' Hj. destruct (Hr (S j) w' p') as (X1 & X2 & X3); [exact Hj|]. rewrite Nat.add_succ_r in X2, X3. auto.
    + rewrite Ek. lia.
    + rewrite Ek in H2. exists t2. split; [exact E2|]. split; [exact H2|exact D2].
Qed.
Lemma propagate_all_ok t L A k : msim t L A -> k < length A -> exists t', propagate_all add mul tiny is_zero md (place_of k) t = Ok t' /\
  msim t' L (fst (m_one k (A, lost t))) /\ lost t' = snd (m_one k (A, lost t)).
Proof.
  intros H Hk. destruct (sim_at t L A k H Hk) as (nd & q & E & EL & [O1 O2 O3 O4 O5] & Q1 & Q2 & Q3 & Q4 & R & Lr). unfold propagate_all, m_one. rewrite E. cbn [obind fst snd num] in *. rewrite O1.
  destruct (Nat.eqb_spec (length (m_deps A k)) 0) as [E0|E0]; [cbn [fst snd]; exists t; auto|]. rewrite Q1. assert (read_many (madj t) q 0 K = Ok (m_row A k)) as -> by (rewrite <- Lr; apply read_many_ok; exact R). cbn [obind]. destruct (forallb tiny (m_row A k)).
  - eexists. split; [reflexivity|]. cbn [fst snd lost]. split; [|auto]. destruct H as [S1 SA S2 S3 S4 S5 S6]. constructor; cbn [mnodes madj mders mptrs]; auto. intros i nd' a H1 H2. destruct (S5 i nd' a H1 H2) as [P1 P2 P3 P4 P5]. constructor; auto.
  - cbn [fst snd]. assert (m_deps A k <> []) as Hne by (intros Hn; rewrite Hn in E0; now elim E0). destruct (O5 Hne) as (_ & _ & _ & _ & Q).
    apply (mpush_down_ok k nd q (m_row A k) (length (m_deps A k)) 0 t L A H Hk eq_refl Q2); [|reflexivity].
    cbn [skipn]. intros j w p Hj. destruct (Q j w p Hj). rewrite Forall_forall in O2. pose proof (O2 _ (nth_error_In _ _ Hj)). auto.
Qed.
Lemma propagate_all_at_ok l : forall t L A, msim t L A -> Forall (fun k => k < length A) l -> exists t', propagate_all_at add mul tiny is_zero md (map place_of l) t = Ok t' /\
  msim t' L (fst (m_all l (A, lost t))) /\ lost t' = snd (m_all l (A, lost t)).
Proof.
  induction l as [|k l IH]; intros t L A H Hl; cbn [map propagate_all_at].
  - cbn. exists t. auto.
  - inversion Hl as [|? ? Hk Hl']; subst. destruct (propagate_all_ok t L A k H Hk) as (t1 & E1 & H1 & D1). rewrite E1. cbn [obind].
    destruct (IH t1 L _ H1) as (t2 & E2 & H2 & D2).
    { eapply Forall_impl; [|exact Hl']. intros j Hj. cbn beta. now rewrite m_one_length. }
    exists t2. split; [exact E2|]. unfold m_all in *. cbn [fold_left]. rewrite D1 in H2, D2. rewrite <- surjective_pairing in H2, D2. auto.
Qed.
Lemma sweep_ok vs rs t L A : msim t L A -> length A = length vs -> vs <> [] -> Forall (fun r => r < length vs) rs -> length rs <= K ->
  exists t', sweep one add mul tiny is_zero BN md (numbers zero BN vs) rs t = Ok t' /\ msim t' L (fst (m_all (downto (length vs - 1) 0) (m_seed 0 rs A, lost t))) /\
    lost t' = snd (m_all (downto (length vs - 1) 0) (m_seed 0 rs A, lost t)).
Proof.
  intros H HAl Hne Hf Hrs. unfold sweep. destruct (seed_ok vs rs 0 t L A H HAl Hf Hrs) as (t1 & E1 & H1 & D1). rewrite E1. cbn [obind].
  assert (length (numbers zero BN vs) = length vs) as Hln by (unfold numbers; now rewrite map_length, seq_length). assert (0 < length vs) as Hpos by (destruct vs; [congruence|cbn; lia]).
  rewrite Hln, numbers_get by lia. cbn [obind at_node]. assert (Lm : length L = length vs) by (rewrite (ms_length _ _ _ H); exact HAl).
  rewrite (find_holds BN HN (mnodes t1) (L, None) (length vs - 1) (ms_holds _ _ _ H1)) by (cbn [fst]; lia). cbn [obind]. unfold propagate_multi.
  assert (place_of 0 = begin_) as E0 by (unfold begin_; rewrite <- (place_of_pos BN HN 0 0) by exact HN; reflexivity). rewrite <- E0.
  assert (length vs - 1 < slots BN (mnodes t1)) as Hsl. { pose proof (ms_holds _ _ _ H1) as S1. pose proof (holds_len BN HN _ _ S1) as Hl. destruct S1 as [_ X2 X3 _ _]. cbn [fst] in Hl. unfold slots. nia. }
  replace (place_of (length vs - 1)) with (place_of (0 + (length vs - 1))) by (f_equal; lia). rewrite (walk_down_places BN HN) by lia. cbn [obind]. rewrite <- D1.
  replace (rev (seq 0 (S (length vs - 1)))) with (downto (length vs - 1) 0) by (unfold downto; now rewrite Nat.sub_0_r).
  apply (propagate_all_at_ok _ t1 L _ H1). unfold downto. apply Forall_forall. intros k Hk. apply in_rev, in_seq in Hk. rewrite m_seed_length. lia.
Qed.
Lemma reset_ok t L A : msim t L A -> msim (reset_many zero t) L (m_reset A).
Proof.
  intros [S1 SA S2 S3 S4 S5 S6]. set (s0 := Blocks (map (map (fun _ => zero)) (data (madj t))) (curr (madj t)) (next (madj t)) (mark (madj t))).
  assert (Rd : forall p x, read (madj t) p = Ok x -> read s0 p = Ok zero).
  { intros p x Hx. unfold read, get in *. unfold s0. cbn [data]. rewrite nth_error_map. destruct (nth_error (data (madj t)) (fst p)) as [b|]; cbn [obind option_map] in *; [|discriminate Hx]. rewrite nth_error_map. destruct (nth_error b (snd p)); cbn [option_map]; [reflexivity|discriminate Hx]. }
  constructor; cbn [reset_many mnodes madj mders mptrs]; auto.
  - destruct SA as [F1 F2 F3 F4]. constructor; cbn [data curr next mark]; auto; rewrite ?map_length; auto. apply Forall_forall. intros b Hb. apply in_map_iff in Hb as (b0 & <- & Hb0). rewrite map_length. rewrite Forall_forall in F1. auto.
  - unfold m_reset. now rewrite map_length.
  - intros k nd a H1 H2. unfold m_reset in H2. rewrite nth_error_map in H2. destruct (nth_error A k) as [a0|] eqn:Ea; [|discriminate H2]. cbn [option_map] in H2. injection H2 as <-. destruct (S5 k nd a0 H1 Ea) as [O1 O2 O3 (q & Q1 & Q2 & Q3 & Q4) O5].
    constructor; cbn [fst snd reset_many madj mders mptrs]; auto; [apply repeat_length|]. exists q. split; [exact Q1|]. split; [exact Q2|]. split; [exact Q3|]. intros j x Hx. assert (j < K) as Hj by (rewrite <- (repeat_length zero K); apply nth_error_Some; congruence).
    apply nth_error_In, repeat_spec in Hx. subst x. destruct (nth_error (snd a0) j) as [y|] eqn:Ey; [|apply nth_error_None in Ey; lia]. exact (Rd _ _ (Q4 j y Ey)).
Qed.
End Sim.
