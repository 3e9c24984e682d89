(** Statements and events: what the analysis rewrites runs as before on every path inside the assumed domains. *)
From Coq Require Import ZArith List Bool Reals Lra Lia ZifyBool Sorted.
From Verif Require Import Base StringModel ScriptModel ScriptSpec ScriptEval FuzzySpec FuzzyProofs DomainModel DomainSpec DomainProofs DomainSound.
Import ListNotations.
Local Open Scope R_scope.

Section Real.
Variables (f_log f_sqrt f_exp : R -> R) (f_pow : R -> R -> R).
Local Notation RN := (RNum f_log f_sqrt f_exp f_pow).
#[local] Hint Extern 0 Num => exact (RNum f_log f_sqrt f_exp f_pow) : typeclass_instances.
#[local] Hint Extern 0 (DomNum _) => exact (exact_tests f_log f_sqrt f_exp f_pow) : typeclass_instances.
Local Notation mem := (mem f_log f_sqrt f_exp f_pow).
Local Notation dom_ok := (dom_ok f_log f_sqrt f_exp f_pow).
Local Notation valid := (valid f_log f_sqrt f_exp f_pow).
Local Notation inI := (inI f_log f_sqrt f_exp f_pow).
Local Notation good := (good f_log f_sqrt f_exp f_pow).
Local Notation doms_ok := (doms_ok f_log f_sqrt f_exp f_pow).
Local Notation env_in := (env_in f_log f_sqrt f_exp f_pow).
Local Notation fs l := (l f_log f_sqrt f_exp f_pow) (only parsing).
Local Notation half := (Interval (@Fin RN n_zero) PInf).

Lemma half_inv : i_inv half = Ok half.
Proof.
  assert (E : rltb 0 0 = false) by (apply rltb_niff; lra). assert (E2 : reqb 0 0 = true) by now apply reqb_iff.
  unfold i_inv, is_zero, is_single, is_infinite, mk. cbn. rewrite ?E, ?E2. cbn.
  assert (E3 : beq f_log f_sqrt f_exp f_pow (Fin 0) (Fin 0) = true) by now apply (fs beq_iff). now rewrite E3.
Qed.
Lemma half_in x : 0 <= x -> inI x half.
Proof. intros H. split; cbn [ileft iright DomainSpec.blt]; [now apply rltb_niff|reflexivity]. Qed.
Lemma pay_pairs d : forall acc, over_pairs (fun i (_ : @interval RN) => i_div i half) d [half] acc = over_pairs i_div d [half] acc.
Proof.
  induction d as [|i d IH]; intros acc; cbn [over_pairs]; [reflexivity|]. cbn [over_right].
  destruct (i_div i half) as [k| | |]; cbn [obind]; try reflexivity. destruct (add_interval k acc); cbn [obind]; try reflexivity. apply IH.
Qed.
Lemma pay_zero d r x : dom_ok d -> mem x d -> lift2 i_div d [half] = Ok r -> mem 0 r.
Proof.
  intros Hd Hx H. set (f := fun i (_ : @interval RN) => i_div i half).
  assert (E : lift2 f d [half] = Ok r).
  { rewrite <- H. apply pay_pairs. }
  refine (proj2 (fs lift2_ok f (fun _ _ => 0) (fun _ => True) (fun i j k => fs i_div_valid i half k) _ d [half] r Hd (half_line_ok _ _ _ _) E) x 0 Hx _ Logic.I).
  - intros i j k u w _ _ Ek Hu _ _. unfold f, i_div in Ek. rewrite half_inv in Ek. cbn [obind] in Ek. replace 0 with (u * 0) by ring.
    apply (fs i_mul_ok i half k u 0 Ek Hu). apply half_in. lra.
  - constructor. apply half_in. lra.
Qed.
Lemma pay_dom d r : dom_ok d -> lift2 i_div d [half] = Ok r -> dom_ok r.
Proof. intros Hd H. exact (lift2_dom _ _ _ _ i_div d [half] r (fs i_div_valid) Hd (half_line_ok _ _ _ _) H). Qed.
Lemma pay_in d r x n : dom_ok d -> mem x d -> 0 < n -> lift2 i_div d [half] = Ok r -> mem (x / n) r.
Proof.
  intros Hd Hx Hn H. refine (proj2 (fs lift2_ok i_div Rdiv (fun y => y <> 0) (fs i_div_valid) (fun i j k x y _ V E Hx Hy P => fs i_div_ok i j k x y V E Hx Hy P) d [half] r Hd (half_line_ok _ _ _ _) H) x n Hx _ _); [|lra].
  constructor. apply half_in. lra.
Qed.
Lemma sum_dom d e r : dom_ok d -> dom_ok e -> lift2 i_add d e = Ok r -> dom_ok r.
Proof. intros Hd He H. exact (lift2_dom _ _ _ _ i_add d e r (fun i j k => fs mk_valid _ _ k) Hd He H). Qed.
Lemma sum_in d e r x y : dom_ok d -> dom_ok e -> mem x d -> mem y e -> lift2 i_add d e = Ok r -> mem (x + y) r.
Proof.
  intros Hd He Hx Hy H. exact (proj2 (fs lift2_ok i_add Rplus (fun _ => True) (fun i j k => fs mk_valid _ _ k) (fun i j k x y _ _ E Hx Hy _ => fs i_add_ok i j k x y E Hx Hy) d e r Hd He H) x y Hx Hy Logic.I).
Qed.

(** * Branches *)
Lemma restore_ok af old : forall new r, restore af old new = Ok r ->
  length r = length new /\ forall j, vget r j = if existsb (Z.eqb j) af then vget old j else vget new j.
Proof.
  induction af as [|i af IH]; intros new r H; cbn [restore existsb] in *; [injection H as <-; auto|].
  destruct (vget old i) as [d| | |] eqn:E; cbn [obind] in H; try discriminate. destruct (vput new i d) as [n'| | |] eqn:E2; cbn [obind] in H; try discriminate.
  destruct (vput_vget _ _ _ _ E2) as (L & _ & G). destruct (IH _ _ H) as [L2 G2]. split; [congruence|]. intros j. rewrite G2, G.
  destruct (j =? i)%Z eqn:Ej; cbn [orb]; [|reflexivity]. replace j with i by lia. rewrite E. now destruct (existsb _ af).
Qed.
Lemma merge_in_ok af stored : forall cur r, doms_ok cur -> doms_ok stored -> merge_in af stored cur = Ok r ->
  length r = length cur /\ doms_ok r /\ (forall j, ~ In j af -> vget r j = vget cur j) /\
  (forall j d, vget r j = Ok d -> (exists d0, vget cur j = Ok d0 /\ forall x, mem x d0 -> mem x d) /\
     (In j af -> exists d0, vget stored j = Ok d0 /\ forall x, mem x d0 -> mem x d)).
Proof.
  induction af as [|i af IH]; intros cur r Hc Hs H; cbn [merge_in] in H.
  - injection H as <-. split; [reflexivity|]. split; [exact Hc|]. split; [auto|]. intros j d Hj. split; [eauto|]. intros [].
  - destruct (vget cur i) as [d| | |] eqn:E; cbn [obind] in H; try discriminate. destruct (vget stored i) as [e| | |] eqn:E1; cbn [obind] in H; try discriminate.
    destruct (fs add_domain_ok e d (proj1 (Hs _ _ E1)) (proj1 (Hc _ _ E))) as (m & Em & Gm & Nm & Mm). rewrite Em in H. cbn [obind] in H.
    destruct (vput cur i m) as [c'| | |] eqn:E2; cbn [obind] in H; try discriminate. destruct (vput_vget _ _ _ _ E2) as (L & _ & G).
    assert (Hc' : doms_ok c').
    { intros j dj. rewrite G. destruct (j =? i)%Z; [|apply Hc]. intros Q. injection Q as <-. split; [exact Gm|]. apply Nm. apply (Hc _ _ E). }
    destruct (IH _ _ Hc' Hs H) as (L2 & D2 & O2 & M2). split; [congruence|]. split; [exact D2|]. split.
    + intros j Hj. cbn [In] in Hj. rewrite O2 by tauto. rewrite G. replace (j =? i)%Z with false by lia. reflexivity.
    + intros j dj Hj. destruct (M2 j dj Hj) as [(d0 & A1 & A2) A3]. rewrite G in A1. destruct (j =? i)%Z eqn:Ej.
      * replace j with i in * by lia. injection A1 as <-. split; [exists d; split; [exact E|]|intros _; exists e; split; [exact E1|]]; intros x Hx; apply A2, Mm; auto.
      * split; [eauto|]. intros [Q|Q]; [lia|auto].
Qed.

Section Fuzzy.
Variable fuzzy : bool.
Fixpoint go_all (l : list (@stmt RN)) (vd : list domain) : outcome (list domain * list stmt) :=
  match l with [] => Ok (vd, []) | x :: r => do p <- dom_stmt fuzzy x vd; do q <- go_all r (fst p); Ok (fst q, snd p :: snd q) end.
Lemma go_dom_all l : forall vd, go_all l vd = dom_all fuzzy l vd.
Proof. reflexivity. Qed.
Lemma dom_if f af c t e vd : dom_stmt fuzzy (SIf f af c t e) vd =
  do p <- dom_cond fuzzy vd c;
  let '(v, c') := p in
  match v with
  | AlwaysTrue => do q <- dom_all fuzzy t vd; Ok (fst q, SIf (flags_of v) af c' (snd q) e)
  | AlwaysFalse => match e with
                   | None => Ok (vd, SIf (flags_of v) af c' t None)
                   | Some l => do q <- dom_all fuzzy l vd; Ok (fst q, SIf (flags_of v) af c' t (Some (snd q)))
                   end
  | TrueOrFalse =>
      do q <- dom_all fuzzy t vd; do vd0 <- restore af vd (fst q);
      match e with
      | None => do vd2 <- merge_in af (fst q) vd0; Ok (vd2, SIf (flags_of v) af c' (snd q) None)
      | Some l => do q2 <- dom_all fuzzy l vd0; do vd2 <- merge_in af (fst q) (fst q2); Ok (vd2, SIf (flags_of v) af c' (snd q) (Some (snd q2)))
      end
  end.
Proof. reflexivity. Qed.
Lemma dom_collect l vd : dom_stmt fuzzy (SCollect l) vd = do q <- dom_all fuzzy l vd; Ok (fst q, SCollect (snd q)).
Proof. reflexivity. Qed.

(** * What the analysis of a statement does to the domains *)
Definition keeps (l : list Z) (vd vd' : list (@domain RN)) : Prop :=
  doms_ok vd' /\ length vd' = length vd /\ forall j, ~ In j l -> vget vd' j = vget vd j.
Definition st_keeps (s : @stmt RN) : Prop := forall vd vd' s', marked s -> doms_ok vd -> dom_stmt fuzzy s vd = Ok (vd', s') -> keeps (assigned s) vd vd'.
Lemma keeps_trans a b v1 v2 v3 : keeps a v1 v2 -> keeps b v2 v3 -> keeps (a ++ b) v1 v3.
Proof.
  intros (A1 & A2 & A3) (B1 & B2 & B3). split; [exact B1|]. split; [congruence|]. intros j Hj. rewrite in_app_iff in Hj. rewrite B3, A3 by tauto. reflexivity.
Qed.
Lemma all_keeps l : Forall st_keeps l -> forall vd vd' l', Forall marked l -> doms_ok vd -> dom_all fuzzy l vd = Ok (vd', l') -> keeps (flat_map assigned l) vd vd'.
Proof.
  induction 1 as [|s l Hs Hl IH]; intros vd vd' l' Hm Hd H; cbn [dom_all flat_map] in *.
  - injection H as <- <-. split; [exact Hd|]. auto.
  - inversion Hm; subst. destruct (dom_stmt fuzzy s vd) as [[v1 s1]| | |] eqn:E1; cbn [obind fst snd] in H; try discriminate.
    destruct (dom_all fuzzy l v1) as [[v2 l2]| | |] eqn:E2; cbn [obind fst snd] in H; try discriminate. injection H as <- <-.
    pose proof (Hs _ _ _ ltac:(assumption) Hd E1) as K. eapply keeps_trans; [exact K|]. eapply IH; eauto. apply K.
Qed.
Lemma restored af t e (vd vd1 vd0 : list (@domain RN)) : set_of af (t ++ e) -> doms_ok vd -> keeps t vd vd1 -> restore af vd vd1 = Ok vd0 ->
  doms_ok vd0 /\ length vd0 = length vd /\ forall j, vget vd0 j = vget vd j.
Proof.
  intros [_ Haf] Hd (K1 & K2 & K3) H. destruct (restore_ok _ _ _ _ H) as [L G].
  assert (P : forall j, vget vd0 j = vget vd j).
  { intros j. rewrite G. destruct (existsb (Z.eqb j) af) eqn:E; [reflexivity|]. apply K3. intros Hj.
    assert (In j af) by (apply Haf, in_app_iff; auto). assert (existsb (Z.eqb j) af = true) by (apply existsb_exists; exists j; split; [assumption|lia]). congruence. }
  split; [intros j d; rewrite P; apply Hd|]. split; [congruence|exact P].
Qed.
Lemma stmt_keeps s : st_keeps s.
Proof.
  induction s as [v e|v e|f af c t Ht|f af c t l Ht Hl|l Hl] using stmt_ind'; intros vd vd' s' Hm Hd H; cbn [marked assigned] in *.
  - destruct v as [a n i|]; cbn [dom_stmt] in H; [|discriminate]. destruct (dom_expr vd e) as [d| | |] eqn:E; cbn [obind] in H; try discriminate.
    destruct (vput vd i d) as [v1| | |] eqn:E1; cbn [obind] in H; try discriminate. injection H as <- <-. destruct (vput_vget _ _ _ _ E1) as (L & _ & G).
    split; [|split; [exact L|]].
    + intros j dj. rewrite G. destruct (j =? i)%Z; [|apply Hd]. intros Q. injection Q as <-. now apply (fs dom_expr_ok vd e).
    + intros j Hj. cbn [target In] in Hj. rewrite G. replace (j =? i)%Z with false by lia. reflexivity.
  - destruct v as [a n i|]; cbn [dom_stmt] in H; [|discriminate]. destruct (dom_expr vd e) as [d| | |] eqn:E; cbn [obind] in H; try discriminate.
    destruct (lift2 i_div d [half]) as [p| | |] eqn:Ep; cbn [obind] in H; try discriminate. destruct (vget vd i) as [o| | |] eqn:Eo; cbn [obind] in H; try discriminate.
    destruct (lift2 i_add o p) as [sm| | |] eqn:Es; cbn [obind] in H; try discriminate.
    destruct (vput vd i sm) as [v1| | |] eqn:E1; cbn [obind] in H; try discriminate. injection H as <- <-. destruct (vput_vget _ _ _ _ E1) as (L & _ & G).
    split; [|split; [exact L|]].
    + intros j dj. rewrite G. destruct (j =? i)%Z; [|apply Hd]. intros Q. injection Q as <-. apply (sum_dom o p sm); [now apply (Hd i)| |exact Es]. apply (pay_dom d); [|exact Ep]. now apply (fs dom_expr_ok vd e).
    + intros j Hj. cbn [target In] in Hj. rewrite G. replace (j =? i)%Z with false by lia. reflexivity.
  - destruct Hm as (Haf & M1 & _). rewrite F_iff in M1. rewrite dom_if in H. destruct (dom_cond fuzzy vd c) as [[v c']| | |]; cbn [obind] in H; try discriminate. rewrite app_nil_r in *. destruct v.
    + destruct (dom_all fuzzy t vd) as [[v1 t1]| | |] eqn:E; cbn [obind fst snd] in H; try discriminate. injection H as <- <-. now apply (all_keeps t Ht vd v1 t1).
    + injection H as <- <-. split; [exact Hd|]. auto.
    + destruct (dom_all fuzzy t vd) as [[v1 t1]| | |] eqn:E; cbn [obind fst snd] in H; try discriminate. pose proof (all_keeps t Ht vd v1 t1 M1 Hd E) as K.
      destruct (restore af vd v1) as [v0| | |] eqn:Er; cbn [obind] in H; try discriminate. rewrite <- (app_nil_r (flat_map assigned t)) in Haf. destruct (restored _ _ _ _ _ _ Haf Hd K Er) as (D0 & L0 & G0).
      rewrite app_nil_r in Haf. destruct (merge_in af v1 v0) as [v2| | |] eqn:Em; cbn [obind] in H; try discriminate. injection H as <- <-.
      destruct (merge_in_ok _ _ _ _ D0 (proj1 K) Em) as (L2 & D2 & O2 & _). split; [exact D2|]. split; [congruence|]. intros j Hj. rewrite O2, G0; [reflexivity|]. intros Q. apply Haf in Q. tauto.
  - destruct Hm as (Haf & M1 & M2). rewrite F_iff in M1, M2. rewrite dom_if in H. destruct (dom_cond fuzzy vd c) as [[v c']| | |]; cbn [obind] in H; try discriminate. destruct v.
    + destruct (dom_all fuzzy t vd) as [[v1 t1]| | |] eqn:E; cbn [obind fst snd] in H; try discriminate. injection H as <- <-.
      destruct (all_keeps t Ht vd v1 t1 M1 Hd E) as (A & B & C). split; [exact A|]. split; [exact B|]. intros j Hj. apply C. rewrite in_app_iff in Hj. tauto.
    + destruct (dom_all fuzzy l vd) as [[v1 t1]| | |] eqn:E; cbn [obind fst snd] in H; try discriminate. injection H as <- <-.
      destruct (all_keeps l Hl vd v1 t1 M2 Hd E) as (A & B & C). split; [exact A|]. split; [exact B|]. intros j Hj. apply C. rewrite in_app_iff in Hj. tauto.
    + destruct (dom_all fuzzy t vd) as [[v1 t1]| | |] eqn:E; cbn [obind fst snd] in H; try discriminate. pose proof (all_keeps t Ht vd v1 t1 M1 Hd E) as K.
      destruct (restore af vd v1) as [v0| | |] eqn:Er; cbn [obind] in H; try discriminate. destruct (restored _ _ _ _ _ _ Haf Hd K Er) as (D0 & L0 & G0).
      destruct (dom_all fuzzy l v0) as [[v3 l3]| | |] eqn:E3; cbn [obind fst snd] in H; try discriminate. destruct (all_keeps l Hl v0 v3 l3 M2 D0 E3) as (D3 & L3 & G3).
      destruct (merge_in af v1 v3) as [v2| | |] eqn:Em; cbn [obind] in H; try discriminate. injection H as <- <-.
      destruct (merge_in_ok _ _ _ _ D3 (proj1 K) Em) as (L2 & D2 & O2 & _). split; [exact D2|]. split; [congruence|]. intros j Hj.
      rewrite O2, G3, G0; [reflexivity| |]; [intros Q; apply Hj, in_app_iff; auto|]. intros Q. apply Haf in Q. tauto.
  - rewrite F_iff in Hm. rewrite dom_collect in H. destruct (dom_all fuzzy l vd) as [[v1 t1]| | |] eqn:E; cbn [obind fst snd] in H; try discriminate. injection H as <- <-. now apply (all_keeps l Hl vd v1 t1).
Qed.

(** * Running *)
Section Path.
Variables (past : bool) (smp : @sample RN) (nv : Z) (consts : list R).
Local Notation inside_all := (inside_all f_log f_sqrt f_exp f_pow past smp).
Local Notation inside := (inside f_log f_sqrt f_exp f_pow past smp).
Definition st_sound (s : @stmt RN) : Prop := forall vd vd' s' env, marked s -> @wf_stmt RN nv consts s -> Z.of_nat (length env) = nv -> doms_ok vd -> env_in env vd -> inside s env ->
  dom_stmt fuzzy s vd = Ok (vd', s') ->
  env_in (exec past smp s env) vd' /\ exec past smp s' env = exec past smp s env /\ exec past smp (cc_stmt s') env = exec past smp s env.
Lemma inside_if f af c t e env : inside (SIf f af c t e) env = (inside_cond f_log f_sqrt f_exp f_pow past smp env c /\
  if truth past smp env c then inside_all t env else match e with None => True | Some l => inside_all l env end).
Proof. reflexivity. Qed.
Lemma inside_collect l env : inside (SCollect l) env = inside_all l env.
Proof. reflexivity. Qed.
Lemma all_sound l : Forall st_sound l -> forall vd vd' l' env, Forall marked l -> Forall (@wf_stmt RN nv consts) l -> Z.of_nat (length env) = nv -> doms_ok vd -> env_in env vd -> inside_all l env ->
  dom_all fuzzy l vd = Ok (vd', l') ->
  env_in (exec_all past smp l env) vd' /\ exec_all past smp l' env = exec_all past smp l env /\ exec_all past smp (map cc_stmt l') env = exec_all past smp l env.
Proof.
  induction 1 as [|s l Hs Hl IH]; intros vd vd' l' env Hm Hw Hn Hd He Hi H; cbn [dom_all DomainSpec.inside_all] in *.
  - injection H as <- <-. auto.
  - apply Forall_cons_iff in Hm as [Hm1 Hm2]. apply Forall_cons_iff in Hw as [Hw1 Hw2]. destruct Hi as [I1 I2]. destruct (dom_stmt fuzzy s vd) as [[v1 s1]| | |] eqn:E1; cbn [obind fst snd] in H; try discriminate.
    destruct (dom_all fuzzy l v1) as [[v2 l2]| | |] eqn:E2; cbn [obind fst snd] in H; try discriminate. injection H as <- <-.
    destruct (Hs vd v1 s1 env) as (A1 & A2 & A3); auto. destruct (IH v1 v2 l2 (exec past smp s env)) as (B1 & B2 & B3); auto.
    + rewrite (@exec_length RN past consts smp nv); auto.
    + now apply (stmt_keeps s vd v1 s1).
    + split; [exact B1|]. unfold exec_all in *. cbn [map fold_left]. rewrite A2, A3. auto.
Qed.
Lemma stored_in env vd vd' i d x : (0 <= i < Z.of_nat (length env))%Z -> env_in env vd -> vput vd i d = Ok vd' -> mem x d -> env_in (@store RN env i x) vd'.
Proof.
  intros Hi [L E] Hp Hx. destruct (vput_vget _ _ _ _ Hp) as (L1 & _ & G). split; [etransitivity; [exact (@store_length RN env i x Hi)|exact (eq_trans L (eq_sym L1))]|]. intros j dj Hj. pose proof (vget_range _ _ _ Hj) as Hr. rewrite G in Hj.
  rewrite (@lookup_store RN env i j x Hi (proj1 Hr)). destruct (j =? i)%Z; [injection Hj as <-; exact Hx|now apply E].
Qed.
Lemma stmt_sound s : st_sound s.
Proof.
  induction s as [v e|v e|f af c t Ht|f af c t l Ht Hl|l Hl] using stmt_ind'; intros vd vd' s' env Hm Hw Hn Hd He Hi H.
  - destruct v as [a n i|]; cbn [dom_stmt] in H; [|discriminate]. destruct (dom_expr vd e) as [d| | |] eqn:E; cbn [obind] in H; try discriminate.
    destruct (vput vd i d) as [v1| | |] eqn:E1; cbn [obind] in H; try discriminate. injection H as <- <-. cbn [cc_stmt]. split; [|auto]. cbn [exec lhs_index wf_stmt wf_lhs DomainSpec.inside] in *.
    apply (stored_in env vd v1 i d); auto; [rewrite Hn; apply Hw|]. now apply (fs dom_expr_mem past smp vd env e).
  - destruct v as [a n i|]; cbn [dom_stmt] in H; [|discriminate]. destruct (dom_expr vd e) as [d| | |] eqn:E; cbn [obind] in H; try discriminate.
    destruct (lift2 i_div d [half]) as [p| | |] eqn:Ep; cbn [obind] in H; try discriminate. destruct (vget vd i) as [o| | |] eqn:Eo; cbn [obind] in H; try discriminate.
    destruct (lift2 i_add o p) as [sm| | |] eqn:Es; cbn [obind] in H; try discriminate.
    destruct (vput vd i sm) as [v1| | |] eqn:E1; cbn [obind] in H; try discriminate. injection H as <- <-. cbn [cc_stmt]. split; [|auto]. cbn [exec lhs_index wf_stmt wf_lhs DomainSpec.inside] in *.
    destruct Hi as [I1 I2]. pose proof (fs dom_expr_mem past smp vd env e d Hd He I1 E) as M. pose proof (fs dom_expr_ok vd e d Hd E) as Od. pose proof (pay_dom _ _ Od Ep) as Op. pose proof (Hd _ _ Eo) as Oo.
    pose proof (proj2 He _ _ Eo) as Mo. destruct past.
    + split; [destruct (vput_vget _ _ _ _ E1) as (L1 & _ & _); destruct He; congruence|]. intros j dj Hj. destruct (vput_vget _ _ _ _ E1) as (_ & _ & G). rewrite G in Hj.
      destruct (j =? i)%Z eqn:Ej; [|now apply He]. injection Hj as <-. replace j with i by lia. replace (@lookup RN env i) with (@lookup RN env i + 0) by (cbn; ring).
      apply (sum_in o p); auto. now apply (pay_zero d p (meaning true smp env e)).
    + apply (stored_in env vd v1 i sm); auto; [rewrite Hn; apply Hw|]. apply (sum_in o p); auto. apply (pay_in d); auto.
  - destruct Hm as (Haf & M1 & _). rewrite F_iff in M1. destruct Hw as (W1 & W2 & _). rewrite F_iff in W2. rewrite inside_if in Hi. destruct Hi as [I1 I2]. rewrite dom_if in H.
    destruct (dom_cond fuzzy vd c) as [[v c']| | |] eqn:Ec; cbn [obind] in H; try discriminate. destruct (fs dom_cond_ok past smp fuzzy vd env c v c' Hd He I1 Ec) as (V & T1 & T2).
    rewrite app_nil_r in Haf. destruct v; cbn [agrees] in V.
    + destruct (dom_all fuzzy t vd) as [[v1 t1]| | |] eqn:E; cbn [obind fst snd] in H; try discriminate. injection H as <- <-. rewrite V in I2.
      destruct (all_sound t Ht vd v1 t1 env) as (B1 & B2 & B3); auto. unfold exec_all in *. cbn [cc_stmt flags_of alwaysTrue exec]. rewrite T1, V. auto.
    + injection H as <- <-. cbn [cc_stmt flags_of alwaysTrue alwaysFalse exec fold_left]. rewrite T1, V. auto.
    + destruct (dom_all fuzzy t vd) as [[v1 t1]| | |] eqn:E; cbn [obind fst snd] in H; try discriminate.
      assert (K : keeps (flat_map assigned t) vd v1) by (apply (all_keeps t) with (l' := t1); auto; apply Forall_forall; intros; apply stmt_keeps).
      destruct (restore af vd v1) as [v0| | |] eqn:Er; cbn [obind] in H; try discriminate. rewrite <- (app_nil_r (flat_map assigned t)) in Haf. destruct (restored _ _ _ _ _ _ Haf Hd K Er) as (D0 & L0 & G0).
      rewrite app_nil_r in Haf. destruct (merge_in af v1 v0) as [v2| | |] eqn:Em; cbn [obind] in H; try discriminate. injection H as <- <-.
      destruct (merge_in_ok _ _ _ _ D0 (proj1 K) Em) as (L2 & D2 & O2 & M3). cbn [cc_stmt flags_of alwaysTrue alwaysFalse exec option_map]. rewrite T1, T2. destruct (truth past smp env c) eqn:Tc.
      * destruct (all_sound t Ht vd v1 t1 env) as (B1 & B2 & B3); auto. unfold exec_all in *. split; [|auto]. destruct B1 as [BL BM]. destruct K as (K1 & K2 & K3). split; [congruence|]. intros j d Hj.
        destruct (M3 j d Hj) as [(d0 & A1 & A2) A3]. destruct (in_dec Z.eq_dec j af) as [Q|Q].
        { destruct (A3 Q) as (d1 & A4 & A5). apply A5. now apply BM. }
        { apply A2. apply BM. rewrite K3; [congruence|]. intros Q2. apply Q. now apply Haf. }
      * split; [|auto]. destruct He as [EL EM]. split; [congruence|]. intros j d Hj. destruct (M3 j d Hj) as [(d0 & A1 & A2) _]. apply A2, EM. congruence.
  - destruct Hm as (Haf & M1 & M2). rewrite F_iff in M1, M2. destruct Hw as (W1 & W2 & W3). rewrite F_iff in W2, W3. rewrite inside_if in Hi. destruct Hi as [I1 I2]. rewrite dom_if in H.
    destruct (dom_cond fuzzy vd c) as [[v c']| | |] eqn:Ec; cbn [obind] in H; try discriminate. destruct (fs dom_cond_ok past smp fuzzy vd env c v c' Hd He I1 Ec) as (V & T1 & T2).
    destruct v; cbn [agrees] in V.
    + destruct (dom_all fuzzy t vd) as [[v1 t1]| | |] eqn:E; cbn [obind fst snd] in H; try discriminate. injection H as <- <-. rewrite V in I2.
      destruct (all_sound t Ht vd v1 t1 env) as (B1 & B2 & B3); auto. unfold exec_all in *. cbn [cc_stmt flags_of alwaysTrue exec]. rewrite T1, V. auto.
    + destruct (dom_all fuzzy l vd) as [[v1 t1]| | |] eqn:E; cbn [obind fst snd] in H; try discriminate. injection H as <- <-. rewrite V in I2.
      destruct (all_sound l Hl vd v1 t1 env) as (B1 & B2 & B3); auto. unfold exec_all in *. cbn [cc_stmt flags_of alwaysTrue alwaysFalse exec]. rewrite T1, V. auto.
    + destruct (dom_all fuzzy t vd) as [[v1 t1]| | |] eqn:E; cbn [obind fst snd] in H; try discriminate.
      assert (K : keeps (flat_map assigned t) vd v1) by (apply (all_keeps t) with (l' := t1); auto; apply Forall_forall; intros; apply stmt_keeps).
      destruct (restore af vd v1) as [v0| | |] eqn:Er; cbn [obind] in H; try discriminate. destruct (restored _ _ _ _ _ _ Haf Hd K Er) as (D0 & L0 & G0).
      destruct (dom_all fuzzy l v0) as [[v3 l3]| | |] eqn:E3; cbn [obind fst snd] in H; try discriminate.
      assert (K3 : keeps (flat_map assigned l) v0 v3) by (apply (all_keeps l) with (l' := l3); auto; apply Forall_forall; intros; apply stmt_keeps).
      destruct (merge_in af v1 v3) as [v2| | |] eqn:Em; cbn [obind] in H; try discriminate. injection H as <- <-.
      destruct (merge_in_ok _ _ _ _ (proj1 K3) (proj1 K) Em) as (L2 & D2 & O2 & M3). cbn [cc_stmt flags_of alwaysTrue alwaysFalse exec option_map]. rewrite T1, T2.
      destruct K as (KA & KB & KC), K3 as (KD & KE & KF). destruct (truth past smp env c) eqn:Tc.
      * destruct (all_sound t Ht vd v1 t1 env) as (B1 & B2 & B3); auto. unfold exec_all in *. split; [|auto]. destruct B1 as [BL BM]. split; [congruence|]. intros j d Hj.
        destruct (M3 j d Hj) as [(d0 & A1 & A2) A3]. destruct (in_dec Z.eq_dec j af) as [Q|Q].
        { destruct (A3 Q) as (d1 & A4 & A5). apply A5. now apply BM. }
        { apply A2. apply BM. assert (Q2 : ~ In j (flat_map assigned t ++ flat_map assigned l)) by (intros Q2; apply Q; now apply Haf). rewrite in_app_iff in Q2. rewrite KC by tauto. rewrite KF, G0 in A1 by tauto. exact A1. }
      * assert (He0 : env_in env v0) by (destruct He as [EL EM]; split; [congruence|]; intros j d Hj; apply EM; congruence).
        destruct (all_sound l Hl v0 v3 l3 env) as (B1 & B2 & B3); auto. unfold exec_all in *. split; [|auto]. destruct B1 as [BL BM]. split; [congruence|]. intros j d Hj.
        destruct (M3 j d Hj) as [(d0 & A1 & A2) _]. apply A2, BM, A1.
  - cbn [marked wf_stmt] in *. rewrite F_iff in Hm. rewrite F_iff in Hw. rewrite inside_collect in Hi. rewrite dom_collect in H.
    destruct (dom_all fuzzy l vd) as [[v1 t1]| | |] eqn:E; cbn [obind fst snd] in H; try discriminate. injection H as <- <-.
    destruct (all_sound l Hl vd v1 t1 env) as (B1 & B2 & B3); auto.
Qed.
Lemma event_sound l vd vd' l' env : Forall marked l -> @wf_all RN nv consts l -> Z.of_nat (length env) = nv -> doms_ok vd -> env_in env vd -> inside_all l env ->
  dom_all fuzzy l vd = Ok (vd', l') ->
  doms_ok vd' /\ env_in (exec_all past smp l env) vd' /\ exec_all past smp l' env = exec_all past smp l env /\ exec_all past smp (map cc_stmt l') env = exec_all past smp l env.
Proof.
  intros Hm Hw Hn Hd He Hi H. split; [|apply (all_sound l) with (vd := vd); auto; apply Forall_forall; intros; apply stmt_sound].
  apply (all_keeps l) with (vd := vd) (l' := l'); auto. apply Forall_forall; intros; apply stmt_keeps.
Qed.
End Path.
End Fuzzy.

(** * Past and future events *)
Lemma dom_events_app fuzzy (p q : list (list (@stmt RN))) : forall vd vd' l', dom_events fuzzy (p ++ q) vd = Ok (vd', l') ->
  exists v1 p' q', dom_events fuzzy p vd = Ok (v1, p') /\ dom_events fuzzy q v1 = Ok (vd', q') /\ l' = p' ++ q' /\ length p' = length p.
Proof.
  induction p as [|x p IH]; intros vd vd' l' H; cbn [app dom_events] in *; [exists vd, [], l'; auto|].
  destruct (dom_all fuzzy x vd) as [[v1 x1]| | |] eqn:E; cbn [obind fst snd] in *; try discriminate.
  destruct (dom_events fuzzy (p ++ q) v1) as [[v2 l2]| | |] eqn:E2; cbn [obind fst snd] in *; try discriminate. injection H as <- <-.
  destruct (IH _ _ _ E2) as (v3 & p' & q' & -> & E4 & -> & L). cbn [obind fst snd]. exists v3, (x1 :: p'), q'. split; [reflexivity|]. split; [exact E4|]. split; [reflexivity|]. cbn [length]. congruence.
Qed.
Lemma past_sound fuzzy nv consts l : forall vd vd' l' env, Forall (Forall marked) l -> Forall (@wf_all RN nv consts) l -> Z.of_nat (length env) = nv -> doms_ok vd -> env_in env vd ->
  inside_past f_log f_sqrt f_exp f_pow l env -> dom_events fuzzy l vd = Ok (vd', l') -> doms_ok vd' /\ env_in (exec_past l env) vd' /\ Z.of_nat (length (exec_past l env)) = nv.
Proof.
  induction l as [|x l IH]; intros vd vd' l' env Hm Hw Hn Hd He Hi H; cbn [dom_events inside_past] in *; [injection H as <- <-; auto|].
  apply Forall_cons_iff in Hm as [Hm1 Hm2]. apply Forall_cons_iff in Hw as [Hw1 Hw2]. destruct Hi as [I1 I2]. destruct (dom_all fuzzy x vd) as [[v1 x1]| | |] eqn:E; cbn [obind fst snd] in *; try discriminate.
  destruct (dom_events fuzzy l v1) as [[v2 l2]| | |] eqn:E2; cbn [obind fst snd] in *; try discriminate. injection H as <- <-.
  destruct (event_sound fuzzy true (@Sample RN 0 0) nv consts x vd v1 x1 env) as (A1 & A2 & _); auto.
  apply (IH v1 v2 l2 (exec_all true (@Sample RN 0 0) x env)); auto. transitivity (Z.of_nat (length env)); [f_equal; apply (@exec_all_length RN true consts (@Sample RN 0 0) nv x env); auto|exact Hn].
Qed.
Lemma future_sound fuzzy nv consts l : forall scen vd vd' l' env, Forall (Forall marked) l -> Forall (@wf_all RN nv consts) l -> Z.of_nat (length env) = nv -> doms_ok vd -> env_in env vd ->
  inside_future f_log f_sqrt f_exp f_pow l scen env -> dom_events fuzzy l vd = Ok (vd', l') ->
  exec_events l' scen env = exec_events l scen env /\ exec_events (cc_events l') scen env = exec_events l scen env.
Proof.
  induction l as [|x l IH]; intros scen vd vd' l' env Hm Hw Hn Hd He Hi H; cbn [dom_events] in *; [injection H as <- <-; auto|].
  apply Forall_cons_iff in Hm as [Hm1 Hm2]. apply Forall_cons_iff in Hw as [Hw1 Hw2]. destruct (dom_all fuzzy x vd) as [[v1 x1]| | |] eqn:E; cbn [obind fst snd] in *; try discriminate.
  destruct (dom_events fuzzy l v1) as [[v2 l2]| | |] eqn:E2; cbn [obind fst snd] in *; try discriminate. injection H as <- <-.
  destruct scen as [|smp scen]; [split; reflexivity|]. cbn [inside_future] in Hi. destruct Hi as [I1 I2].
  destruct (event_sound fuzzy false smp nv consts x vd v1 x1 env) as (A1 & A2 & A3 & A4); auto.
  cbn [exec_events cc_events map]. rewrite A3, A4. apply (IH scen v1 v2 l2 (exec_all false smp x env)); auto. transitivity (Z.of_nat (length env)); [f_equal; apply (@exec_all_length RN false consts smp nv x env); auto|exact Hn].
Qed.
Lemma init_ok n : doms_ok (dom_init n) /\ env_in (repeat 0 n) (dom_init n).
Proof.
  assert (G : forall j d, vget (dom_init n) j = Ok d -> d = @dom_of RN 0).
  { intros j d H. unfold vget in H. destruct (j <? 0)%Z; [discriminate|]. destruct (nth_error (dom_init n) (Z.to_nat j)) eqn:E; [|discriminate]. injection H as <-.
    apply nth_error_In in E. unfold dom_init in E. now apply repeat_spec in E. }
  split; [intros j d H; rewrite (G j d H); apply (fs dom_of_ok)|]. split; [unfold dom_init; now rewrite !repeat_length|].
  intros j d H. rewrite (G j d H). constructor. unfold lookup. rewrite nth_repeat. apply (fs single_in).
Qed.
Lemma script_sound fuzzy consts past future scen n vd evs :
  Forall (Forall marked) (past ++ future) -> Forall (@wf_all RN (Z.of_nat n) consts) (past ++ future) ->
  inside_past f_log f_sqrt f_exp f_pow past (repeat 0 n) -> inside_future f_log f_sqrt f_exp f_pow future scen (exec_past past (repeat 0 n)) ->
  dom_events fuzzy (past ++ future) (dom_init n) = Ok (vd, evs) ->
  exec_events (skipn (length past) evs) scen (exec_past past (repeat 0 n)) = exec_events future scen (exec_past past (repeat 0 n)) /\
  exec_events (cc_events (skipn (length past) evs)) scen (exec_past past (repeat 0 n)) = exec_events future scen (exec_past past (repeat 0 n)).
Proof.
  intros Hm Hw Ip If H. destruct (dom_events_app _ _ _ _ _ _ H) as (v1 & p' & q' & E1 & E2 & -> & L). rewrite <- L, skipn_app, skipn_all, Nat.sub_diag. cbn [app skipn].
  apply Forall_app in Hm as [M1 M2]. apply Forall_app in Hw as [W1 W2]. destruct (init_ok n) as [D0 E0].
  assert (Ln : Z.of_nat (length (repeat 0 n)) = Z.of_nat n) by now rewrite repeat_length.
  destruct (past_sound fuzzy (Z.of_nat n) consts past (dom_init n) v1 p' (repeat 0 n) M1 W1 Ln D0 E0 Ip E1) as (D1 & N1 & L1).
  apply (future_sound fuzzy (Z.of_nat n) consts future scen v1 vd q'); auto.
Qed.
End Real.
