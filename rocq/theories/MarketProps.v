(** C81: models, their parameters and copies. *)
From Coq Require Import String List Arith Lia ZArith.
From Verif Require Import Base Vec StringModel StringProofs JsonModel DealModel DealProofs DealProps MarketModel MarketSpec MarketProofs.
Import ListNotations.
Open Scope list_scope.
Open Scope nat_scope.

Section Market.
Context {N : Type}.
Variable fixed : N -> str.
Lemma inv_nil : inv (N:=N) [].
Proof. intros i x H. destruct i; discriminate. Qed.
(** However models are made, copied, changed through their parameters and destroyed, each behaves as a list of named numbers of its own;
    only using a model that is not there, or a parameter it does not have, is undefined. *)
Theorem C81_independent l : Forall sound_op l ->
  match run fixed [] l with
  | Ok h => exists s, history fixed [] l = Ok s /\ forall i, look h i = there s i
  | UB => history fixed [] l = UB
  | _ => False
  end.
Proof.
  intros F. pose proof (run_ok fixed l [] inv_nil F) as P. destruct (run fixed [] l) as [h| | |]; auto. destruct P as [I E]. exists (abs h). split; [exact E|]. intros i. now apply (look_ok fixed).
Qed.
(** What a model simulates with is what its parameters show. *)
Theorem C81_simulated l h i x : Forall sound_op l -> run fixed [] l = Ok h -> live h i = Ok x -> look h i = Ok (labels x, params_of (fields x)).
Proof.
  intros F E H. pose proof (run_ok fixed l [] inv_nil F) as P. rewrite E in P. destruct P as [I _]. rewrite (look_ok fixed) by exact I. destruct (live_cases h i) as [(y & _ & Ey & ->)|[Ey _]]; [|congruence]. now replace y with x by congruence.
Qed.
(** There is a name for each parameter. *)
Theorem C81_names l h i names values : Forall sound_op l -> run fixed [] l = Ok h -> look h i = Ok (names, values) -> length names = length values.
Proof.
  intros F E H. pose proof (C81_independent l F) as P. rewrite E in P. destruct P as (s & Es & P). rewrite P in H. clear P E h. revert H.
  assert (G : forall l s s', Forall sound_op l -> (forall i p, there s i = Ok p -> length (fst p) = length (snd p)) -> history fixed s l = Ok s' -> forall i p, there s' i = Ok p -> length (fst p) = length (snd p)).
  { clear. induction l as [|o l IH]; intros s s' F A E; cbn [history] in E; [assert (s' = s) as -> by congruence; exact A|]. inversion F as [|? ? Q F']; subst. destruct (next fixed s o) as [s1| | |] eqn:En; try discriminate; [|now apply (IH s s')]. apply (IH s1 s' F'); [|exact E]. clear IH E F F'.
    assert (Ap : forall q, length (fst q) = length (snd q) -> forall i p, there (s ++ [Some q]) i = Ok p -> length (fst p) = length (snd p)).
    { intros q Lq i p H. unfold there in H. destruct (Nat.lt_ge_cases i (length s)) as [L|L]; [rewrite nth_error_app1 in H by exact L; exact (A i p H)|]. rewrite nth_error_app2 in H by exact L. destruct (i - length s) as [|k]; cbn [nth_error] in H; [congruence|destruct k; discriminate]. }
    assert (In_there : forall j p, there s j = Ok p -> j < length s) by (intros j p H; unfold there in H; destruct (nth_error s j) eqn:E1; [apply nth_error_Some; congruence|discriminate]).
    destruct o as [d|j|j|j k v]; cbn [next] in En.
    - destruct (described fixed d) as [q| | |] eqn:Ed; cbn [obind] in En; try discriminate. assert (s1 = s ++ [Some q]) as -> by congruence. apply Ap. destruct d as [[n sp v r dv|n sp r q0 ss ti c vols|n]|]; cbn [described] in Ed; try discriminate; [injection Ed as <-; reflexivity|].
      destruct (dupire_labels fixed ss ti (length vols) c) as [ls| | |] eqn:El; cbn [obind] in Ed; try discriminate. injection Ed as <-. cbn [fst snd length]. cbn [sound_op rectangular] in Q. rewrite (concat_length c vols Q). clear - El. unfold dupire_labels in El.
      assert (R : forall nc times s0 l, lvol_row fixed s0 times nc = Ok l -> length l = nc). { induction nc as [|nc IH]; intros [|t ts] s0 l H; cbn [lvol_row] in H; try discriminate; try (injection H as <-; reflexivity). destruct (lvol_row fixed s0 ts nc) as [l0| | |] eqn:E0; cbn [obind] in H; try discriminate. injection H as <-. cbn [length]. f_equal. exact (IH ts s0 l0 E0). }
      assert (R2 : forall nr spots l, lvol_rows fixed spots ti nr c = Ok l -> length l = nr * c). { induction nr as [|nr IH]; intros [|s0 sps] l H; cbn [lvol_rows] in H; try discriminate; try (injection H as <-; reflexivity). { destruct c; [injection H as <-; cbn; now rewrite Nat.mul_0_r|discriminate]. }
        destruct (lvol_row fixed s0 ti c) as [l1| | |] eqn:E1; cbn [obind] in H; try discriminate. destruct (lvol_rows fixed sps ti nr c) as [l2| | |] eqn:E2; cbn [obind] in H; try discriminate. injection H as <-. rewrite app_length, (R _ _ _ _ E1), (IH _ _ E2). reflexivity. }
      destruct (lvol_rows fixed ss ti (length vols) c) as [lv| | |] eqn:E1; cbn [obind] in El; try discriminate. injection El as <-. cbn [length]. now rewrite (R2 _ _ _ E1).
    - destruct (there s j) as [q| | |] eqn:Ej; cbn [obind] in En; try discriminate. assert (s1 = s ++ [Some q]) as -> by congruence. apply Ap. exact (A j q Ej).
    - destruct (there s j) as [q| | |] eqn:Ej; cbn [obind] in En; try discriminate. rewrite put_ok in En by (eapply In_there; eauto). injection En as <-. intros i p H. unfold there in H. rewrite nth_error_set in H by (eapply In_there; eauto). destruct (i =? j); [discriminate|exact (A i p H)].
    - destruct (there s j) as [q| | |] eqn:Ej; cbn [obind] in En; try discriminate. destruct (put (snd q) k v) as [vs| | |] eqn:Ev; cbn [obind] in En; try discriminate. rewrite put_ok in En by (eapply In_there; eauto). injection En as <-. intros i p H. unfold there in H. rewrite nth_error_set in H by (eapply In_there; eauto). destruct (i =? j); [|exact (A i p H)].
      assert (p = (fst q, vs)) as -> by congruence. cbn [fst snd]. rewrite (A j q Ej). destruct (Nat.lt_ge_cases k (length (snd q))) as [Lk|Lk]; [rewrite put_ok in Ev by exact Lk; injection Ev as <-; now rewrite set_nth_length|rewrite put_ub in Ev by exact Lk; discriminate]. }
  intros H. apply (G l [] s F) with (i := i) in H; auto. intros j p Hj. unfold there in Hj. destruct j; discriminate.
Qed.
(** A copy starts with the parameters of the original, and nothing else changes. *)
Theorem C81_clone l h i p : Forall sound_op l -> run fixed [] l = Ok h -> look h i = Ok p ->
  exists h', clone h i = Ok h' /\ look h' (length h) = Ok p /\ forall j, j <> length h -> look h' j = look h j.
Proof.
  intros F E H. pose proof (run_ok fixed l [] inv_nil F) as P. rewrite E in P. destruct P as [I _]. pose proof (step_ok fixed h (Clone i) I Logic.I) as Q. cbn [step next] in Q. rewrite (look_ok fixed) in H by exact I. rewrite H in Q. cbn [obind] in Q.
  destruct (clone h i) as [h'| | |]; try discriminate; [|contradiction]. destruct Q as [I' Q]. assert (A : abs h' = abs h ++ [Some p]) by congruence. exists h'. split; [reflexivity|]. assert (La : length (abs h) = length h) by (unfold abs; apply map_length). split.
  - rewrite (look_ok fixed) by exact I'. rewrite A. unfold there. rewrite nth_error_app2 by (unfold state in *; lia). now replace (length h - length (abs h)) with 0 by lia.
  - intros j Hj. rewrite !(look_ok fixed) by assumption. rewrite A. unfold there. destruct (Nat.lt_ge_cases j (length h)) as [L|L]; [now rewrite nth_error_app1 by (unfold state in *; lia)|].
    rewrite (proj2 (nth_error_None _ _)) by (rewrite app_length; cbn [length]; unfold state in *; lia). now rewrite (proj2 (nth_error_None _ _)) by (unfold state in *; lia).
Qed.
(** A model keeps its parameters whatever is done to the others: the tasks of a simulation with sensitivities change copies only. *)
Theorem C81_spared l1 l2 h1 h2 i p : Forall sound_op (l1 ++ l2) -> run fixed [] l1 = Ok h1 -> look h1 i = Ok p -> Forall (spares i) l2 -> run fixed h1 l2 = Ok h2 -> look h2 i = Ok p.
Proof.
  intros F E1 H Sp E2. apply Forall_app in F as [F1 F2]. pose proof (run_ok fixed l1 [] inv_nil F1) as P1. rewrite E1 in P1. destruct P1 as [I1 _]. pose proof (run_ok fixed l2 h1 I1 F2) as P2. rewrite E2 in P2. destruct P2 as [I2 Hh].
  rewrite (look_ok fixed) in * by assumption. eapply spared; eauto.
Qed.
(** A description is stored and read back. *)
Theorem C81_stored {T} d o : store (T:=T) d = Ok o -> restore o = Ok (d : model_data N).
Proof.
  intros H. destruct d as [n s v r dv|n s r q sp ti c vols|n]; cbn [store] in H; [| |discriminate].
  - assert (o = _) as -> by (symmetry; injection H as E; exact E). unfold restore. cbn [otype members]. change (ci_eqb (lit "BSModelData_v1") (lit "BSModelData_v1")) with true. cbn match. unfold read_name, read_number. destruct n as [|c n]; reflexivity.
  - pose proof (numbers_map (N:=N) (T:=T) sp) as Es. pose proof (numbers_map (N:=N) (T:=T) ti) as Et. pose proof (all_numbers_map (N:=N) (T:=T) vols) as Ev. revert H Es Et Ev.
    generalize (map (ANum (N:=N) (T:=T)) sp) (map (ANum (N:=N) (T:=T)) ti) (map (map (ANum (N:=N) (T:=T))) vols). intros a b m H Es Et Ev. pose proof (Nat2Z.id c) as Ec.
    match type of H with Ok ?x = Ok _ => replace o with x by congruence end. clear H. unfold restore. cbn [otype members].
    change (ci_eqb (lit "DupireModelData_v1") (lit "BSModelData_v1")) with false. change (ci_eqb (lit "DupireModelData_v1") (lit "DupireModelData_v1")) with true. cbv iota. unfold read_name, read_number, read_vector, read_matrix.
    match goal with |- context [child ?x "spots"] => set (L := x) end.
    assert (E1 : child L "spot" = Some (VOne (ANum s))) by (destruct n; reflexivity). assert (E2 : child L "rate" = Some (VOne (ANum r))) by (destruct n; reflexivity). assert (E3 : child L "repo" = Some (VOne (ANum q))) by (destruct n; reflexivity).
    assert (E4 : child L "spots" = Some (VVec KNum a)) by (destruct n; reflexivity). assert (E5 : child L "times" = Some (VVec KNum b)) by (destruct n; reflexivity). assert (E6 : child L "vols" = Some (VMat KNum (Z.of_nat c) m)) by (destruct n; reflexivity).
    assert (E7 : child L "name" = match n with [] => None | _ => Some (VOne (AStr n)) end) by (destruct n; reflexivity).
    rewrite E1, E2, E3, E4, E5, E6, E7, Es, Et, Ev. cbn [obind]. rewrite Ec. now destruct n.
Qed.
(** A copy of a description under another name. *)
Theorem C81_renamed {Slide} d name : match d with OtherData _ => False | _ => True end ->
  exists e, mutant_model (Slide:=Slide) d name [] = Ok (e : model_data N) /\ data_name e = name /\ forall h, create fixed h (Some e) = create fixed h (Some d).
Proof. intros H. destruct d as [n s v r dv|n s r q sp ti c vols|n]; [..|contradiction]; eexists; (split; [reflexivity|]); split; reflexivity. Qed.
(** Finding: a copy with any slide reads the new name through a null pointer. *)
Theorem C81_slides_refuted {Slide} d name (s : Slide) slides : match d with OtherData _ => False | _ => True end -> mutant_model d name (s :: slides) = (UB : outcome (model_data N)).
Proof. intros H. destruct d; [..|contradiction]; reflexivity. Qed.
(** Finding: a description of a local volatility model is accepted whatever the shape of its volatilities; if they have more rows than there are spots, or more
    columns than times, making the model is undefined. *)
Theorem C81_shape_refuted name spot rate repo spots times cols vols h : 0 < cols -> 0 < length vols -> length spots < length vols \/ length times < cols ->
  create fixed h (Some (DupireData name spot rate repo spots times cols vols)) = UB.
Proof.
  intros Hc Hv H. cbn [create]. assert (R : forall nc ts s0, lvol_row fixed s0 ts nc = UB \/ (exists l, lvol_row fixed s0 ts nc = Ok l /\ nc <= length ts)).
  { induction nc as [|nc IH]; intros [|t ts] s0; cbn [lvol_row length]; [right; eexists; split; [reflexivity|lia]|right; eexists; split; [reflexivity|lia]|now left|]. destruct (IH ts s0) as [->|(l & -> & L)]; [now left|]. right. eexists. split; [reflexivity|lia]. }
  assert (G : forall nr ss, 0 < nr -> length ss < nr \/ length times < cols -> lvol_rows fixed ss times nr cols = UB).
  { induction nr as [|nr IH]; intros [|s0 ss] Hn Hs; [lia|lia|cbn [lvol_rows]; destruct cols; [lia|reflexivity]|]. cbn [lvol_rows]. destruct (R cols times s0) as [->|(l & -> & L)]; [reflexivity|]. cbn [obind]. cbn [length] in Hs.
    rewrite (IH ss); [reflexivity|lia|lia]. }
  unfold dupire_labels. now rewrite G by assumption.
Qed.
(** Finding: the description of a Black-Scholes model names the parameters of the model; that of a local volatility model names none. *)
Theorem C81_labels n spot vol rate div h : exists x, create fixed h (Some (BSData n spot vol rate div)) = Ok (h ++ [Some x]) /\ labels x = data_labels (BSData n spot vol rate div).
Proof. eexists. split; reflexivity. Qed.
Theorem C81_labels_refuted name spot rate repo spots times cols vols h h' : create fixed h (Some (DupireData name spot rate repo spots times cols vols)) = Ok h' ->
  data_labels (DupireData name spot rate repo spots times cols vols) = [] /\ exists x, h' = h ++ [Some x] /\ 3 <= length (labels x).
Proof.
  intros H. split; [reflexivity|]. cbn [create] in H. destruct (dupire_labels fixed spots times (length vols) cols) as [l| | |] eqn:El; cbn [obind] in H; try discriminate. injection H as <-. eexists. split; [reflexivity|]. cbn [labels]. unfold dupire_labels in El. destruct (lvol_rows fixed spots times (length vols) cols); cbn [obind] in El; try discriminate. injection El as <-. cbn [length]. lia.
Qed.
End Market.
Print Assumptions C81_independent. Print Assumptions C81_simulated. Print Assumptions C81_names. Print Assumptions C81_clone. Print Assumptions C81_spared. Print Assumptions C81_stored.
Print Assumptions C81_renamed. Print Assumptions C81_slides_refuted. Print Assumptions C81_shape_refuted. Print Assumptions C81_labels. Print Assumptions C81_labels_refuted.

(** A local volatility model, two copies of it changed and destroyed in turn, a second model, and an error. *)
Definition ex_dupire : model_data Z := (DupireData (lit "loc") 100 3 1 [90; 110] [1] 1%nat [[20]; [25]])%Z.
Definition ex_session : list (op Z) := [Create (Some ex_dupire); Clone 0; Create None; Assign 1 4 26%Z; Clone 0; Create (Some (BSData [] 50 10 2 0)%Z); Assign 2 0 99%Z; Destroy 1; Assign 3 1 11%Z].
Example C81_case : Forall sound_op ex_session /\ exists h, run DictModel.show_int [] ex_session = Ok h /\
  look h 0 = Ok ([lit "spot"; lit "rate"; lit "repo"; lit "lvol 90 1"; lit "lvol 110 1"], [100; 3; 1; 20; 25]%Z) /\ look h 1 = UB /\
  look h 2 = Ok ([lit "spot"; lit "rate"; lit "repo"; lit "lvol 90 1"; lit "lvol 110 1"], [99; 3; 1; 20; 25]%Z) /\ look h 3 = Ok ([lit "spot"; lit "vol"; lit "rate"; lit "div"], [50; 11; 2; 0]%Z) /\
  Forall (spares 0) (skipn 1 ex_session) /\ (exists o, store (T:=unit) ex_dupire = Ok o).
Proof.
  split; [repeat constructor|]. eexists. split; [vm_compute; reflexivity|]. split; [vm_compute; reflexivity|]. split; [vm_compute; reflexivity|]. split; [vm_compute; reflexivity|]. split; [vm_compute; reflexivity|]. split; [|eexists; reflexivity].
  cbn [skipn ex_session]. repeat (constructor; [cbn [spares]; try exact Logic.I; discriminate|]). constructor.
Qed.
