(** Running a program records its weights. *)
From Coq Require Import List Arith Bool Lia.
From Verif Require Import Base Vec BlockModel BlockSpec BlockProofs AadModel AadSpec AadStore AadProofs.
Import ListNotations.

Section Exec.
Context {D : Type}.
Variables (zero one : D) (add mul : D -> D -> D).
Variable tiny : D -> bool.
Variable is_zero : D -> bool.
Variables (beval : bop -> D -> D -> D) (bleft bright : bop -> D -> D -> D -> D).
Variables (ueval : uop -> D -> D -> D) (uder : uop -> D -> D -> D -> D).
Variables (BN BD : nat).
Hypothesis HN : 0 < BN.
Hypothesis HD : 0 < BD.
Notation place_of := (place_of BN).
Notation sim := (sim BN BD).
Notation weights := (weights mul beval bleft bright ueval uder).
Notation eval := (eval beval ueval).
Notation values := (values zero beval ueval).
Notation exec := (exec zero one mul beval bleft bright ueval uder BN BD).

Fixpoint emap {L M} (f : L -> M) (e : expr D L) : expr D M :=
  match e with Num x => Num (f x) | Bin o l r => Bin o (emap f l) (emap f r) | Un o a d => Un o (emap f a) d end.
Lemma emap_eval {L M} (f : L -> M) val e : eval val (emap f e) = eval (fun k => val (f k)) e.
Proof using. clear HN HD. induction e as [x|o l IHl r IHr|o a IHa d]; cbn [emap AadModel.eval]; congruence. Qed.
Lemma emap_weights {L M} (f : L -> M) val e : forall x, weights val (emap f e) x = map (fun w => (fst w, f (snd w))) (weights (fun k => val (f k)) e x).
Proof using.
  clear HN HD. induction e as [y|o l IHl r IHr|o a IHa d]; intros x; cbn [emap AadModel.weights].
  - reflexivity.
  - rewrite map_app, <- IHl, <- IHr. cbn [AadModel.eval]. now rewrite !emap_eval.
  - rewrite <- IHa. cbn [AadModel.eval]. now rewrite !emap_eval.
Qed.
Lemma weights_leaves val (e : expr D nat) : forall x, map snd (weights val e x) = leaves e.
Proof using. clear HN HD. induction e as [y|o l IHl r IHr|o a IHa d]; intros x; cbn [AadModel.weights leaves]; [reflexivity| |apply IHa]. now rewrite map_app, IHl, IHr. Qed.
(** the numbers made so far *)
Definition numbers (vs : list D) : list (number D) := map (fun k => Number (nth k vs zero) (place_of k)) (seq 0 (length vs)).
Lemma numbers_get vs k : k < length vs -> get (numbers vs) k = Ok (Number (nth k vs zero) (place_of k)).
Proof using. clear HN HD. intros H. unfold get, numbers. rewrite nth_error_map. rewrite (nth_error_nth' (seq 0 (length vs)) 0) by (rewrite seq_length; exact H). cbn [option_map]. now rewrite seq_nth by exact H. Qed.
Lemma numbers_app vs v : numbers (vs ++ [v]) = numbers vs ++ [Number v (place_of (length vs))].
Proof using.
  clear HN HD. unfold numbers. rewrite app_length. cbn [length]. rewrite Nat.add_1_r, seq_S, map_app. cbn [map]. f_equal.
  - apply map_ext_in. intros k Hk. apply in_seq in Hk. rewrite app_nth1 by lia. reflexivity.
  - rewrite Nat.add_0_l, app_nth2, Nat.sub_diag by lia. reflexivity.
Qed.
Lemma resolve_ok vs (e : expr D nat) : Forall (fun k => k < length vs) (leaves e) ->
  resolve (numbers vs) e = Ok (emap (fun k => Number (nth k vs zero) (place_of k)) e).
Proof using.
  clear HN HD. induction e as [k|o l IHl r IHr|o a IHa d]; intros H; cbn [leaves resolve emap] in *.
  - inversion H; subst. now rewrite numbers_get.
  - apply Forall_app in H as [H1 H2]. now rewrite IHl, IHr by assumption.
  - now rewrite IHa by assumption.
Qed.
(** what is recorded by a statement *)
Definition new_deps (s : stmt D) (vs : list D) : list (D * nat) :=
  match s with Expr e => weights (fun k => nth k vs zero) e one | _ => [] end.
Fixpoint recorded (inputs : nat -> D) (p : list (stmt D)) (vs : list D) : list (list (D * nat)) :=
  match p with [] => [] | s :: r => new_deps s vs :: recorded inputs r (vs ++ [value_of zero beval ueval inputs s vs]) end.
Definition fresh (l : list (list (D * nat))) : list (anode (D := D)) := map (fun ws => (ws, zero)) l.

Lemma exec_ok inputs p : forall vs t L A m, sim t L A m -> length A = length vs -> scoped p (length vs) -> leaves_fit BD p ->
  exists t' L', exec inputs p (numbers vs) t = Ok (numbers (values inputs p vs), t') /\ sim t' L' (A ++ fresh (recorded inputs p vs)) m /\ dropped t' = dropped t.
Proof.
  induction p as [|s p IH]; intros vs t L A m H HA Hs Hf.
  - cbn. rewrite app_nil_r. exists t, L. auto.
  - destruct Hs as [Hs1 Hs2]. inversion Hf as [|? ? Hf1 Hf2]; subst.
    assert (exists t1 L1, exec1 zero one mul beval bleft bright ueval uder BN BD inputs s (numbers vs) t = Ok (Number (value_of zero beval ueval inputs s vs) (place_of (length vs)), t1) /\
      sim t1 L1 (A ++ [(new_deps s vs, zero)]) m /\ dropped t1 = dropped t) as (t1 & L1 & E1 & H1 & D1).
    { destruct s as [i|v|e]; cbn [exec1 value_of new_deps].
      - destruct (record_push_ok zero BN BD HN HD t L A m [] H) as (t1 & t2 & nd & L' & E1 & E2 & E3 & H2 & D2); [cbn; lia|constructor|].
        cbn [length map push] in *. injection E3 as ->. unfold from_double. rewrite E1. cbn [obind]. rewrite <- HA. eauto.
      - destruct (record_push_ok zero BN BD HN HD t L A m [] H) as (t1 & t2 & nd & L' & E1 & E2 & E3 & H2 & D2); [cbn; lia|constructor|].
        cbn [length map push] in *. injection E3 as ->. unfold from_double. rewrite E1. cbn [obind]. rewrite <- HA. eauto.
      - cbn [scoped1] in Hs1. rewrite (resolve_ok vs e Hs1). cbn [obind]. unfold from_expr. rewrite emap_eval, emap_weights. cbn [value].
        set (ws := weights (fun k => nth k vs zero) e one).
        assert (length ws = length (leaves e)) as Hl by (rewrite <- (weights_leaves (fun k => nth k vs zero) e one), map_length; reflexivity).
        destruct (record_push_ok zero BN BD HN HD t L A m ws H) as (t1 & t2 & nd & L' & E1 & E2 & E3 & H2 & D2); [lia| |].
        { rewrite HA. rewrite <- (weights_leaves (fun k => nth k vs zero) e one) in Hs1. fold ws in Hs1. apply Forall_forall. intros w Hw. rewrite Forall_forall in Hs1. apply Hs1. now apply in_map. }
        rewrite map_length, E1. cbn [obind]. rewrite E2. cbn [obind]. rewrite map_map. cbn [fst snd at_node]. rewrite E3. cbn [obind]. rewrite <- HA. eauto. }
    cbn [AadModel.exec]. rewrite E1. cbn [obind]. rewrite <- numbers_app.
    destruct (IH (vs ++ [value_of zero beval ueval inputs s vs]) t1 L1 (A ++ [(new_deps s vs, zero)]) m H1) as (t2 & L2 & E2 & H2 & D2).
    + rewrite !app_length, HA. reflexivity.
    + rewrite app_length, Nat.add_1_r. exact Hs2.
    + exact Hf2.
    + exists t2, L2. split; [exact E2|]. split; [|congruence]. cbn [recorded fresh map]. unfold fresh in H2. rewrite <- app_assoc in H2. exact H2.
Qed.
Lemma values_length inputs p : forall vs, length (values inputs p vs) = length vs + length p.
Proof using. clear HN HD. induction p as [|s p IH]; intros vs; cbn [AadSpec.values length]; [lia|]. rewrite IH, app_length. cbn [length]. lia. Qed.
Lemma recorded_length inputs p : forall vs, length (recorded inputs p vs) = length p.
Proof using. clear HN HD. induction p as [|s p IH]; intros vs; cbn [recorded length]; [reflexivity|]. now rewrite IH. Qed.

(** the whole computation on lists *)
Definition a_gradient (inputs : nat -> D) (p : list (stmt D)) (result : nat) : list (anode (D := D)) * bool :=
  a_all zero add mul tiny is_zero (downto result 0) (a_set zero (fresh (recorded inputs p [])) result one, false).
Lemma gradient_ok inputs p result : scoped p 0 -> leaves_fit BD p -> result < length p ->
  exists t L, gradient zero one add mul tiny is_zero beval bleft bright ueval uder BN BD inputs p result = Ok (numbers (values inputs p []), t) /\
    sim t L (fst (a_gradient inputs p result)) None /\ dropped t = snd (a_gradient inputs p result).
Proof.
  intros Hs Hf Hr. unfold gradient. destruct (exec_ok inputs p [] _ _ _ _ (new_sim zero BN BD HN HD) eq_refl Hs Hf) as (t & L & E & H & Dr).
  change (numbers []) with (@nil (number D)) in E. rewrite E. cbn [obind].
  rewrite numbers_get by (rewrite values_length; cbn [length]; lia). cbn [obind]. unfold propagate_to_start. cbn [app] in H.
  destruct (propagate_from_ok zero one add mul tiny is_zero BN BD HN HD t L _ None (nth result (values inputs p []) zero) result 0 H) as (t1 & L1 & E1 & H1 & D1 & _); [lia| |].
  { unfold fresh. rewrite map_length, recorded_length. exact Hr. }
  assert (place_of 0 = begin_) as E0 by (unfold begin_; rewrite <- (place_of_pos BN HN 0 0) by exact HN; reflexivity).
  rewrite E0 in E1. rewrite E1. cbn [obind]. rewrite Dr in H1, D1. exists t1, L1. split; [reflexivity|]. split; [exact H1|exact D1].
Qed.
Fixpoint a_paths (inputs : nat -> D) (vs : list D) (l : list (list (stmt D) * nat)) (s : list (anode (D := D)) * bool) : list (anode (D := D)) * bool :=
  match l with
  | [] => s
  | (p, result) :: r =>
      let A := firstn (length vs) (fst s) ++ fresh (recorded inputs p vs) in
      a_paths inputs vs r (a_all zero add mul tiny is_zero (downto result (length vs)) (a_set zero A result one, snd s))
  end.
Lemma a_all_length l : forall s, length (fst (a_all zero add mul tiny is_zero l s)) = length (fst s).
Proof. induction l as [|k l IH]; intros s; cbn; [reflexivity|]. unfold a_all in *. rewrite IH. now apply a_one_length. Qed.
Definition path_ok (n : nat) (q : list (stmt D) * nat) : Prop := scoped (fst q) n /\ leaves_fit BD (fst q) /\ n <= snd q < n + length (fst q).
Lemma paths_ok inputs vs l : forall t L A, sim t L A (Some (length vs)) -> length vs <= length A -> Forall (path_ok (length vs)) l ->
  exists t' L', paths zero one add mul tiny is_zero beval bleft bright ueval uder BN BD inputs (numbers vs) l t = Ok t' /\
    sim t' L' (fst (a_paths inputs vs l (A, dropped t))) (Some (length vs)) /\ dropped t' = snd (a_paths inputs vs l (A, dropped t)) /\
    length vs <= length (fst (a_paths inputs vs l (A, dropped t))).
Proof.
  induction l as [|[p result] l IH]; intros t L A H HA Hl; cbn [paths a_paths fst snd].
  - exists t, L. auto.
  - inversion Hl as [|? ? (Hs & Hf & Hr) Hl']; subst. cbn [fst snd] in *.
    destruct (rewind_ok zero BN BD HN HD t L A (length vs) H) as (t1 & L1 & E1 & H1 & D1). rewrite E1. cbn [obind].
    destruct (exec_ok inputs p vs t1 L1 _ _ H1) as (t2 & L2 & E2 & H2 & D2); auto; [rewrite firstn_length; lia|]. rewrite E2. cbn [obind].
    rewrite numbers_get by (rewrite values_length; lia). cbn [obind]. unfold propagate_to_mark. rewrite (mark_it_ok _ _ HN _ _ _ _ H2). cbn [obind].
    destruct (propagate_from_ok zero one add mul tiny is_zero BN BD HN HD t2 L2 _ _ (nth result (values inputs p vs) zero) result (length vs) H2) as (t3 & L3 & E3 & H3 & D3 & _); [lia| |].
    { rewrite app_length, firstn_length. unfold fresh. rewrite map_length, recorded_length. lia. }
    rewrite E3. cbn [obind]. rewrite D2, D1 in H3, D3.
    destruct (IH t3 L3 _ H3) as (t4 & L4 & E4 & H4 & D4 & HA4); auto.
    { rewrite a_all_length. cbn [fst]. rewrite a_set_length, app_length, firstn_length. lia. }
    rewrite D3 in H4, D4, HA4. rewrite <- surjective_pairing in H4, D4, HA4. exists t4, L4. auto.
Qed.
Definition a_path_gradient (inputs : nat -> D) (pre : list (stmt D)) (l : list (list (stmt D) * nat)) : list (anode (D := D)) * bool :=
  a_all zero add mul tiny is_zero (downto (length pre - 1) 0) (a_paths inputs (values inputs pre []) l (fresh (recorded inputs pre []), false)).
Lemma path_gradient_ok inputs pre l : scoped pre 0 -> leaves_fit BD pre -> pre <> [] -> Forall (path_ok (length pre)) l ->
  exists t L, path_gradient zero one add mul tiny is_zero beval bleft bright ueval uder BN BD inputs pre l = Ok (numbers (values inputs pre []), t) /\
    sim t L (fst (a_path_gradient inputs pre l)) (Some (length pre)) /\ dropped t = snd (a_path_gradient inputs pre l).
Proof.
  intros Hs Hf Hne Hl. unfold path_gradient. destruct (exec_ok inputs pre [] _ _ _ _ (new_sim zero BN BD HN HD) eq_refl Hs Hf) as (t & L & E & H & Dr).
  change (numbers []) with (@nil (number D)) in E. rewrite E. cbn [obind app] in *. destruct (mark_ok zero BN BD HN HD t L _ _ H) as (L1 & H1).
  assert (length (values inputs pre []) = length pre) as Hv by (rewrite values_length; reflexivity).
  assert (length (fresh (recorded inputs pre [])) = length pre) as Hlen by (unfold fresh; now rewrite map_length, recorded_length). rewrite Hlen in H1.
  rewrite <- Hv in H1, Hl. destruct (paths_ok inputs (values inputs pre []) l _ L1 _ H1) as (t2 & L2 & E2 & H2 & D2 & HA2); [lia|exact Hl|]. rewrite E2. cbn [obind].
  change (dropped (mark_tape zero BN BD t)) with (dropped t) in *. rewrite Dr in H2, D2, HA2. change (dropped (new_tape zero BN BD)) with false in *.
  unfold propagate_mark_to_start. rewrite (mark_it_ok _ _ HN _ _ _ _ H2). cbn [obind]. rewrite Hv in *.
  assert (0 < length pre) as Hpos by (destruct pre; [congruence|cbn; lia]). replace (place_of (length pre)) with (place_of (S (length pre - 1))) by (f_equal; lia). rewrite (step_down_place BN HN). cbn [obind].
  destruct (propagate_ok zero add mul tiny is_zero BN BD HN HD t2 L2 _ _ (length pre - 1) 0 H2) as (t3 & L3 & E3 & H3 & D3 & _); [lia|lia|].
  assert (place_of 0 = begin_) as E0 by (unfold begin_; rewrite <- (place_of_pos BN HN 0 0) by exact HN; reflexivity).
  rewrite E0 in E3. rewrite E3. cbn [obind]. rewrite D2 in H3, D3. rewrite <- surjective_pairing in H3, D3. exists t3, L3. auto.
Qed.
End Exec.
