(** The adjoints of a task and the derivative of what the script pays. *)
From Coq Require Import Reals ZArith List Bool Lia Lra Permutation.
From Verif Require Import Base Vec AadModel AadSpec AadRealSpec AadReal AadProps DomainSpec FuzzyModel FuzzyProps SimModel ValueSpec RiskModel RiskHom RiskSpec ScriptModel.
Import ListNotations.
Open Scope R_scope.

Section Proofs.
Variables ncdf erfc : R -> R.
Local Notation den := (den ncdf erfc).
Local Notation numbers_of := (numbers_of ncdf erfc).
Local Notation less_at := (less_at ncdf erfc).
Lemma den_bin x o a b : den x (mk_bin o a b) = r_beval o (den x a) (den x b).
Proof. destruct a, b; reflexivity. Qed.
Lemma den_fun x o a : den x (mk_fun ncdf erfc o a) = r_ueval ncdf erfc o (den x a) 0.
Proof. destruct a; reflexivity. Qed.
Lemma den_un x o a d : den x (mk_un ncdf erfc o a d) = r_ueval ncdf erfc o (den x a) d.
Proof. destruct o; cbn [mk_un]; rewrite ?den_bin, ?den_fun; reflexivity. Qed.
Lemma den_expr y us e : den y (sym_expr ncdf erfc us e) = eval r_beval (r_ueval ncdf erfc) (fun k => nth k (map (den y) us) 0) e.
Proof.
  induction e as [k|o l IHl r IHr|o a IH d]; cbn [sym_expr eval].
  - rewrite <- (map_nth (den y)). reflexivity.
  - now rewrite den_bin, IHl, IHr.
  - now rewrite den_un, IH.
Qed.
Lemma den_stmt y us s : den y (sym_stmt ncdf erfc us s) = value_of 0 r_beval (r_ueval ncdf erfc) y s (map (den y) us).
Proof. destruct s as [i|v|e]; cbn; auto. apply den_expr. Qed.
Lemma den_numbers y p : forall us, r_values ncdf erfc y p (map (den y) us) = map (den y) (numbers_of p us).
Proof.
  induction p as [|s p IH]; intros us; [reflexivity|]. cbn [RiskSpec.numbers_of]. rewrite <- IH, map_app. cbn [map]. rewrite den_stmt. reflexivity.
Qed.

Lemma sym_respects x : @respects (SymNum ncdf erfc (less_at x)) RN (SymFuzzy ncdf erfc (less_at x)) RFuzzy SCon (den x).
Proof.
  split; cbn; intros; auto; try apply den_bin; try apply den_fun; try (rewrite ?den_bin, ?den_fun; cbn; ring).
  { destruct a; cbn; ring. }
  unfold RiskSpec.less_at, rltb, reqb. cbn. set (u := den x a). clearbody u. destruct (Rlt_dec u 0), (Rlt_dec 0 u), (Req_EM_T u 0); cbn; try reflexivity; exfalso; destruct (Rtotal_order u 0) as [|[]]; try contradiction; lra.
Qed.
Section Task.
Variables (defEps : R) (init : list R) (events : list (list (@stmt RN))) (rows : nat) (consts : list sym).
Local Notation real_task := (real_task ncdf erfc defEps init events rows consts).
Local Notation sym_task := (sym_task ncdf erfc defEps init events rows consts).
Lemma real_sym x ps : sim (fun a b => map (map (den x)) a = b) (sym_task (less_at x) ps) (real_task x ps).
Proof.
  unfold RiskSpec.sym_task, RiskSpec.real_task.
  apply (@fsim_simulate (SymNum ncdf erfc (less_at x)) RN (SymFuzzy ncdf erfc (less_at x)) RFuzzy SCon (den x) (sym_respects x)).
  - reflexivity.
  - reflexivity.
  - clear. induction ps as [|p ps IH]; cbn [map]; constructor; auto. unfold sym_path, real_path. induction p as [|[a b] p IHp]; cbn [map]; constructor; auto. split; reflexivity.
  - apply (@rel_new (SymNum ncdf erfc (less_at x)) RN (SymFuzzy ncdf erfc (less_at x)) RFuzzy SCon (den x) (sym_respects x)).
Qed.
Lemma payoffs_recorded x y at_ ps traces pre l : sym_task (less_at x) ps = Ok traces -> recorded ncdf erfc at_ traces pre l -> sym_task (less_at y) ps = sym_task (less_at x) ps ->
  Forall (fun c => snd c < length pre + length (fst c))%nat l ->
  payoffs at_ (real_task y ps) = fold_right Rplus 0 (map (fun c => nth (snd c) (r_values ncdf erfc y (fst c) (r_values ncdf erfc y pre [])) 0) l).
Proof.
  intros Ht Hr Hs Hl. pose proof (real_sym y ps) as S0. rewrite Hs, Ht in S0. cbn in S0. destruct (real_task y ps) as [vs| | |]; try contradiction. subst vs. cbn [payoffs].
  f_equal. rewrite map_map. revert Hr Hl. unfold recorded. clear. revert traces. induction l as [|c l IH]; intros [|t traces] Hr Hl; try discriminate; [reflexivity|].
  cbn [map] in *. assert (nth_error t at_ = nth_error (numbers_of (fst c) (numbers_of pre [])) (snd c)) as Hc by congruence.
  assert (map (fun vs => nth_error vs at_) traces = map (fun c => nth_error (numbers_of (fst c) (numbers_of pre [])) (snd c)) l) as Hr' by congruence. inversion Hl as [|? ? Hc1 Hl']; subst. f_equal; [|now apply IH].
  change (@nil R) with (map (den y) []). rewrite !den_numbers. change 0 with (den y (SCon 0)) at 1 2. rewrite !map_nth.
  assert (forall (p : list (AadModel.stmt R)) us, length (numbers_of p us) = (length us + length p)%nat) as HL.
  { induction p as [|s p IHp]; intros us; cbn [RiskSpec.numbers_of length]; [lia|]. rewrite IHp, app_length. cbn. lia. }
  assert (snd c < length (numbers_of (fst c) (numbers_of pre [])))%nat as Hlt by (rewrite !HL; cbn [length]; lia).
  rewrite (nth_error_nth' _ (SCon 0) Hlt) in Hc.
  f_equal. now apply nth_error_nth.
Qed.
End Task.

(** derivatives only depend on nearby values *)
Lemma lim_near f g x l d : 0 < d -> (forall y, Rabs (y - x) < d -> g y = f y) -> derivable_pt_lim f x l -> derivable_pt_lim g x l.
Proof.
  intros Hd He Hf e Hpos. destruct (Hf e Hpos) as [d1 H1]. assert (0 < Rmin d1 d) as Hm by (apply Rmin_glb_lt; [apply cond_pos|exact Hd]).
  exists (mkposreal _ Hm). intros h Hh Hlt. cbn in Hlt. rewrite !He.
  - apply H1; auto. eapply Rlt_le_trans; [exact Hlt|apply Rmin_l].
  - replace (x - x) with 0 by ring. now rewrite Rabs_R0.
  - replace (x + h - x) with h by ring. eapply Rlt_le_trans; [exact Hlt|apply Rmin_r].
Qed.

Lemma den_derive x i s : smooth_sym ncdf erfc x s -> exists d, derivable_pt_lim (fun y => den (with_input x i y) s) (x i) d.
Proof.
  assert (forall s, den (with_input x i (x i)) s = den x s) as E.
  { clear s. induction s as [j|v|o a IHa b IHb|o a IHa]; cbn [RiskSpec.den]; [unfold with_input; destruct (Nat.eqb_spec j i) as [->|]; reflexivity|reflexivity|now rewrite IHa, IHb|now rewrite IHa]. }
  induction s as [j|v|o a IHa b IHb|o a IHa]; cbn [smooth_sym RiskSpec.den].
  - intros _. unfold with_input. destruct (Nat.eqb j i); [exists 1; apply derivable_pt_lim_id|exists 0; apply derivable_pt_lim_const].
  - intros _. exists 0. apply derivable_pt_lim_const.
  - intros (A & B & C). destruct (IHa A) as [da Ha], (IHb B) as [db Hb]. eexists. apply (b_derive o _ _ _ _ _ Ha Hb). now rewrite !E.
  - intros (A & C). destruct (IHa A) as [da Ha]. eexists. apply (u_derive ncdf erfc o _ 0 _ _ Ha). now rewrite E.
Qed.
Lemma clear_near x i p : clear_at ncdf erfc x p -> exists d, 0 < d /\ forall y, Rabs (y - x i) < d -> less_at (with_input x i y) (fst p) (snd p) = less_at x (fst p) (snd p).
Proof.
  intros (Hne & Ha & Hb). destruct p as [a b]. cbn [fst snd] in *. destruct (den_derive x i a Ha) as [da Da], (den_derive x i b Hb) as [db Db].
  pose proof (derivable_pt_lim_minus _ _ _ _ _ Da Db) as Dm. set (f := fun y => den (with_input x i y) a) in *. set (g := fun y => den (with_input x i y) b) in *.
  assert (continuity_pt (f - g)%F (x i)) as Hc by (apply derivable_continuous_pt; exists (da - db); exact Dm).
  assert (forall s, den (with_input x i (x i)) s = den x s) as E.
  { induction s as [j|v|o u IHu w IHw|o u IHu]; cbn [RiskSpec.den]; [unfold with_input; destruct (Nat.eqb_spec j i) as [->|]; reflexivity|reflexivity|now rewrite IHu, IHw|now rewrite IHu]. }
  assert (f (x i) = den x a /\ g (x i) = den x b) as [Ef Eg] by (split; apply E).
  assert (0 < Rabs (f (x i) - g (x i))) as Hp by (apply Rabs_pos_lt; rewrite Ef, Eg; lra).
  destruct (Hc _ Hp) as (d & Hd & Hnear). exists d. split; [exact Hd|]. intros y Hy. unfold RiskSpec.less_at. rewrite <- Ef, <- Eg. change (den (with_input x i y) a) with (f y). change (den (with_input x i y) b) with (g y).
  assert (Rabs ((f y - g y) - (f (x i) - g (x i))) < Rabs (f (x i) - g (x i))) as H1.
  { destruct (Req_dec (x i) y) as [<-|Hny]; [replace (f (x i) - g (x i) - (f (x i) - g (x i))) with 0 by ring; now rewrite Rabs_R0|].
    apply (Hnear y). split; [split; [exact Logic.I|exact Hny]|exact Hy]. }
  clear - H1. clearbody f g. revert H1. generalize (f y) (g y) (f (x i)) (g (x i)). intros u v p q H1. unfold rltb.
  destruct (Rlt_dec u v), (Rlt_dec p q); auto; exfalso; revert H1; unfold Rabs; repeat destruct (Rcase_abs _); lra.
Qed.
Lemma decided_steady x i l run : Forall (clear_at ncdf erfc x) l -> decided_by ncdf erfc x l run -> steady ncdf erfc x i run.
Proof.
  intros Hl Hd. assert (exists d, 0 < d /\ forall y, Rabs (y - x i) < d -> Forall (fun p => less_at (with_input x i y) (fst p) (snd p) = less_at x (fst p) (snd p)) l) as (d & Hp & H).
  { clear Hd. induction Hl as [|p l Hp _ (d & Hd & IH)]; [exists 1; split; [lra|constructor]|]. destruct (clear_near x i p Hp) as (e & He & Hn).
    exists (Rmin d e). split; [now apply Rmin_glb_lt|]. intros y Hy. constructor; [apply Hn|apply IH]; (eapply Rlt_le_trans; [exact Hy|]); [apply Rmin_r|apply Rmin_l]. }
  exists d. split; [exact Hp|]. intros y Hy. apply Hd. now apply H.
Qed.

(** * One task *)
Lemma inputs_only m pre l i : starts_with_inputs m pre l -> (i < m)%nat -> only_input pre i i /\ Forall (fun c => no_input (fst c) i) l.
Proof.
  intros [(rest & -> & Hr) Hl] Hi. split.
  - intros k. split.
    + intros Hk. destruct (Nat.lt_ge_cases k m) as [Hlt|Hge].
      * rewrite nth_error_app1, nth_error_map in Hk by (rewrite map_length, seq_length; exact Hlt). rewrite (nth_error_nth' _ 0%nat), seq_nth in Hk by (rewrite ?seq_length; exact Hlt). cbn in Hk. congruence.
      * rewrite nth_error_app2 in Hk by (rewrite map_length, seq_length; exact Hge). apply nth_error_In in Hk. rewrite Forall_forall in Hr. exact (False_ind _ (Hr _ Hk i eq_refl)).
    + intros ->. rewrite nth_error_app1, nth_error_map by (rewrite map_length, seq_length; exact Hi). rewrite (nth_error_nth' _ 0%nat), seq_nth by (rewrite ?seq_length; exact Hi). reflexivity.
  - eapply Forall_impl; [|exact Hl]. intros c Hc Hin. rewrite Forall_forall in Hc. exact (Hc _ Hin i eq_refl).
Qed.
Lemma read_ok (ns : list (number R)) t m : forall j, (forall i, (j <= i < j + m)%nat -> exists n a, nth_error ns i = Some n /\ get_adjoint (at_node n) t = Ok a) ->
  exists l, read_adjoints ns t j m = Ok l /\ length l = m /\ forall i, (i < m)%nat -> exists n, nth_error ns (j + i) = Some n /\ get_adjoint (at_node n) t = Ok (nth i l 0).
Proof.
  induction m as [|m IH]; intros j H; [exists []; repeat split; auto; intros i Hi; lia|]. cbn [read_adjoints].
  destruct (H j) as (n & a & En & Ea); [lia|]. unfold get. rewrite En. cbn [obind]. rewrite Ea. cbn [obind].
  destruct (IH (S j)) as (l & El & Ll & Hl); [intros i Hi; apply H; lia|]. rewrite El. cbn [obind]. exists (a :: l). repeat split; [cbn; lia|].
  intros [|i] Hi; [rewrite Nat.add_0_r; exists n; auto|]. replace (j + S i)%nat with (S j + i)%nat by lia. apply Hl. lia.
Qed.
Section OneTask.
Variables (BN BD : nat) (x : nat -> R) (m at_ : nat) (defEps : R) (init : list R) (events : list (list (@stmt RN))) (rows : nat) (consts : list sym).
Hypothesis HN : (0 < BN)%nat.
Hypothesis HD : (0 < BD)%nat.
Local Notation real_task := (real_task ncdf erfc defEps init events rows consts).
Local Notation sym_task := (sym_task ncdf erfc defEps init events rows consts).
Lemma task_ok ps traces pre l : sym_task (less_at x) ps = Ok traces -> recorded ncdf erfc at_ traces pre l -> proper ncdf erfc BD x pre l -> starts_with_inputs m pre l ->
  (forall i, (i < m)%nat -> steady ncdf erfc x i (fun T => sym_task T ps)) ->
  exists ns t, r_path_gradient ncdf erfc BN BD x pre l = Ok (ns, t) /\ (dropped t = false ->
    exists adj, task_adjoints (r_path_gradient ncdf erfc BN BD x pre l) m = Ok adj /\ length adj = m /\
      forall i, (i < m)%nat -> derivable_pt_lim (fun y => payoffs at_ (real_task (with_input x i y) ps)) (x i) (nth i adj 0)).
Proof.
  intros Ht Hr (P1 & P2 & P3 & P4 & P5) Hin Hst. destruct (C32_paths ncdf erfc BN BD x pre l HN HD P1 P2 P3 P4 P5) as (ns & t & E & HA). exists ns, t. split; [exact E|]. intros Hd.
  assert (forall i, (i < m)%nat -> exists n a, nth_error ns i = Some n /\ get_adjoint (at_node n) t = Ok a /\ derivable_pt_lim (fun y => payoffs at_ (real_task (with_input x i y) ps)) (x i) a) as HB.
  { intros i Hi. destruct (inputs_only m pre l i Hin Hi) as [O1 O2]. destruct (HA Hd i i O1 O2) as (n & a & En & Ea & Hlim). exists n, a. split; [exact En|]. split; [exact Ea|].
    destruct (Hst i Hi) as (d & Hd0 & Hs). refine (lim_near _ _ _ _ d Hd0 _ Hlim). intros y Hy. apply (payoffs_recorded defEps init events rows consts x _ at_ ps traces pre l Ht Hr); [now apply Hs|].
    eapply Forall_impl; [|exact P5]. intros c Hc. cbv beta in Hc. lia. }
  destruct (read_ok ns t m 0) as (adj & Eadj & Ladj & Hadj).
  { intros i Hi. destruct (HB i) as (n & a & En & Ea & _); [lia|]. eauto. }
  exists adj. unfold task_adjoints. rewrite E. cbn [obind]. split; [exact Eadj|]. split; [exact Ladj|]. intros i Hi. destruct (HB i Hi) as (n & a & En & Ea & Hlim). destruct (Hadj i Hi) as (n' & En' & Ea').
  cbn [Nat.add] in En'. rewrite En in En'. injection En' as <-. rewrite Ea in Ea'. injection Ea' as <-. exact Hlim.
Qed.
End OneTask.

(** * Adding up *)
Local Notation sum := (fold_right Rplus 0).
Definition part (i : nat) (l : list R) : R := nth i l 0.
Lemma add_adjoints_length n (a : list R) : forall b : list R, length (@add_adjoints RN n a b) = length a.
Proof. induction a as [|x a IH]; intros [|y b]; cbn; auto. Qed.
Lemma add_risks_length (a : list R) : forall b : list R, length (@add_risks RN a b) = length a.
Proof. induction a as [|x a IH]; intros [|y b]; cbn; auto. Qed.
Lemma add_adjoints_part n i (a : list R) : forall b : list R, length b = length a -> (i < length a)%nat -> part i (@add_adjoints RN n a b) = part i a + part i b / n.
Proof.
  revert i. induction a as [|x a IH]; intros i [|y b] H Hi; cbn in H, Hi; try lia. destruct i as [|i]; [reflexivity|]. unfold part in *. cbn. apply IH; lia.
Qed.
Lemma add_risks_part i (a : list R) : forall b : list R, length b = length a -> (i < length a)%nat -> part i (@add_risks RN a b) = part i a + part i b.
Proof.
  revert i. induction a as [|x a IH]; intros i [|y b] H Hi; cbn in H, Hi; try lia. destruct i as [|i]; [reflexivity|]. unfold part in *. cbn. apply IH; lia.
Qed.
Lemma sum_set (f : list R -> R) l : forall k v d, (k < length l)%nat -> sum (map f (set_nth l k v)) = sum (map f l) + (f v - f (nth k l d)).
Proof.
  induction l as [|x l IH]; intros k v d Hk; cbn in Hk; [lia|]. destruct k as [|k]; cbn [set_nth map fold_right nth]; [ring|]. rewrite (IH k v d) by lia. ring.
Qed.
Lemma thread_risks_ok n m adj order : forall res, Forall (fun r => length r = m) res -> Forall (fun p => (snd p < length res)%nat) order -> Forall (fun p => length (adj (fst p)) = m) order ->
  exists res', @thread_risks RN n adj order res = Ok res' /\ length res' = length res /\ Forall (fun r => length r = m) res' /\
    forall i, (i < m)%nat -> sum (map (part i) res') = sum (map (part i) res) + sum (map (fun p => part i (adj (fst p)) / n) order).
Proof.
  induction order as [|[k th] order IH]; intros res Hr Ht Ha.
  - exists res. repeat split; auto. intros i _. cbn. ring.
  - pose proof (Forall_inv Ht) as Ht1. pose proof (Forall_inv_tail Ht) as Ht2. pose proof (Forall_inv Ha) as Ha1. pose proof (Forall_inv_tail Ha) as Ha2. cbn [fst snd] in *. cbn [thread_risks]. rewrite (Vec.get_ok res th []) by exact Ht1. cbn [obind]. rewrite Vec.put_ok by exact Ht1. cbn [obind].
    assert (length (nth th res []) = m) as Hl by (rewrite Forall_forall in Hr; apply Hr, nth_In, Ht1).
    assert (forall (A : Type) (l : list A) j v, length (set_nth l j v) = length l) as SL by (intros A l; induction l as [|? ? IHl]; intros [|j] v; cbn; auto).
    destruct (IH (set_nth res th (@add_adjoints RN n (nth th res []) (adj k)))) as (res' & E & L & F & S0).
    + apply Forall_forall. intros r Hin. assert (forall (l : list (list R)) j v, In r (set_nth l j v) -> r = v \/ In r l) as SI.
      { clear. induction l as [|y l IHl]; intros [|j] v H; cbn in *; try tauto; [destruct H; auto|]. destruct H as [H|H]; auto. apply IHl in H. tauto. }
      apply SI in Hin as [->|Hin]; [now rewrite add_adjoints_length|]. rewrite Forall_forall in Hr. now apply Hr.
    + rewrite SL. exact Ht2.
    + exact Ha2.
    + exists res'. split; [exact E|]. split; [now rewrite L, SL|]. split; [exact F|]. intros i Hi. rewrite S0 by exact Hi. cbn [map fold_right fst].
      rewrite (sum_set (part i) res th _ []) by exact Ht1. rewrite add_adjoints_part; [change (@num RN) with R in *; ring|exact (eq_trans Ha1 (eq_sym Hl))|exact (eq_ind_r (fun z => (i < z)%nat) Hi Hl)].
Qed.
Lemma fold_risks_ok m res : Forall (fun r => length r = m) res -> forall z, length z = m ->
  length (fold_left (@add_risks RN) res z) = m /\ forall i, (i < m)%nat -> part i (fold_left (@add_risks RN) res z) = part i z + sum (map (part i) res).
Proof.
  induction 1 as [|r res Hr _ IH]; intros z Hz; cbn [fold_left map fold_right]; [split; [exact Hz|]; intros; ring|].
  destruct (IH (@add_risks RN z r)) as [L P]; [now rewrite add_risks_length|]. split; [exact L|]. intros i Hi. rewrite P by exact Hi. rewrite add_risks_part; [change (@num RN) with R in *; ring|exact (eq_trans Hr (eq_sym Hz))|exact (eq_ind_r (fun q => (i < q)%nat) Hi Hz)].
Qed.
Lemma sum_perm (f : nat -> R) l l' : Permutation l l' -> sum (map f l) = sum (map f l').
Proof. induction 1; cbn; lra. Qed.
Lemma sum_scale (f : nat -> R) n l : sum (map (fun k => f k / n) l) = sum (map f l) / n.
Proof. induction l as [|k l IH]; cbn; [unfold Rdiv; ring|]. rewrite IH. unfold Rdiv. ring. Qed.
Lemma total_ok n m adj pool order tasks : any_schedule pool tasks order -> (forall k, (k < tasks)%nat -> length (adj k) = m) ->
  exists risks, @total_risks RN m n adj pool order = Ok risks /\ length risks = m /\ forall i, (i < m)%nat -> nth i risks 0 = sum (map (fun k => nth i (adj k) 0) (seq 0 tasks)) / n.
Proof.
  intros [Hp Ht] Ha. unfold total_risks.
  destruct (thread_risks_ok n m adj order (repeat (repeat (@n_zero RN) m) (num_threads pool))) as (res & E & L & F & S0).
  - apply Forall_forall. intros r Hr. apply repeat_spec in Hr. subst. now rewrite repeat_length.
  - eapply Forall_impl; [|exact Ht]. intros p Hin. rewrite repeat_length. unfold num_threads, thread_numbers in *. cbv beta in Hin. destruct Hin as [<-|Hin]; [lia|]. apply in_map_iff in Hin as (j & <- & Hj). apply in_seq in Hj. lia.
  - apply Forall_forall. intros p Hin. apply Ha. assert (In (fst p) (seq 0 tasks)) as Hs by (eapply Permutation_in; [exact Hp|]; now apply in_map). apply in_seq in Hs. lia.
  - change (num : Type) with R in *. rewrite E. cbn [obind]. destruct (fold_risks_ok m res F (repeat 0 m) (repeat_length _ _)) as [L2 P2].
    eexists. split; [reflexivity|]. split; [exact L2|]. intros i Hi. change (nth i (fold_left (@add_risks RN) res (repeat 0 m)) 0) with (part i (fold_left (@add_risks RN) res (repeat 0 m))).
    transitivity (part i (repeat 0 m) + sum (map (part i) res)); [exact (P2 i Hi)|]. transitivity (part i (repeat 0 m) + (sum (map (part i) (repeat (repeat (@n_zero RN) m) (num_threads pool))) + sum (map (fun p => part i (adj (fst p)) / n) order)));
      [f_equal; exact (S0 i Hi)|]. rewrite <- (sum_scale (fun k => part i (adj k))), <- (sum_perm _ _ _ Hp), map_map.
    assert (part i (repeat 0 m) = 0) as -> by (unfold part; apply nth_repeat).
    assert (sum (map (part i) (repeat (repeat (@n_zero RN) m) (num_threads pool))) = 0) as ->.
    { assert (part i (repeat (@n_zero RN) m) = 0) as Hz by (unfold part; apply nth_repeat). clear - Hz. induction (num_threads pool) as [|j IHj]; cbn [repeat map fold_right]; [reflexivity|]. etransitivity; [exact (f_equal2 Rplus Hz IHj)|ring]. }
    unfold part. ring.
Qed.
Lemma sum_derive {A} (F : A -> R -> R) (d : A -> R) x l : (forall a, In a l -> derivable_pt_lim (F a) x (d a)) -> derivable_pt_lim (fun y => sum (map (fun a => F a y) l)) x (sum (map d l)).
Proof.
  induction l as [|a l IH]; intros H; cbn [map fold_right]; [apply derivable_pt_lim_const|]. apply (derivable_pt_lim_plus (F a)); [apply H; now left|]. apply IH. intros b Hb. apply H. now right.
Qed.
End Proofs.
