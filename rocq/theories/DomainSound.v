(** From intervals to scripts: the verdicts of the exact analysis hold on every path inside the assumed domains. *)
From Coq Require Import ZArith List Bool Reals Lra Lia ZifyBool Sorted.
From Verif Require Import Base StringModel ScriptModel ScriptSpec ScriptEval FuzzySpec FuzzyProofs DomainModel DomainSpec DomainProofs.
Import ListNotations.
Local Open Scope R_scope.

Lemma vput_vget {A} (l : list A) i v l' : vput l i v = Ok l' ->
  length l' = length l /\ (0 <= i < Z.of_nat (length l))%Z /\ forall j, vget l' j = if (j =? i)%Z then Ok v else vget l j.
Proof.
  unfold vput. destruct ((0 <=? i)%Z && (i <? Z.of_nat (length l))%Z) eqn:E; [|discriminate]. intros H. injection H as <-.
  assert (Hi : (0 <= i < Z.of_nat (length l))%Z) by lia. clear E.
  assert (Hlen : forall (l : list A) n v, length (upd_nat l n v) = length l) by (clear; induction l as [|x l IH]; intros [|n] v; cbn [upd_nat length]; auto).
  assert (Hnth : forall (l : list A) n v m, (n < length l)%nat -> nth_error (upd_nat l n v) m = if Nat.eqb m n then Some v else nth_error l m).
  { clear. induction l as [|x l IH]; intros [|n] v [|m] H; cbn [upd_nat nth_error length Nat.eqb] in *; try lia; auto. apply IH. lia. }
  split; [apply Hlen|]. split; [exact Hi|]. intros j. unfold vget. destruct (j <? 0)%Z eqn:Ej.
  - replace (j =? i)%Z with false by lia. reflexivity.
  - rewrite Hnth by lia. destruct (j =? i)%Z eqn:Eji.
    + replace (Z.to_nat j =? Z.to_nat i)%nat with true by (symmetry; apply Nat.eqb_eq; lia). reflexivity.
    + replace (Z.to_nat j =? Z.to_nat i)%nat with false by (symmetry; apply Nat.eqb_neq; lia). reflexivity.
Qed.
Lemma vget_range {A} (l : list A) i v : vget l i = Ok v -> (0 <= i < Z.of_nat (length l))%Z.
Proof.
  unfold vget. destruct (i <? 0)%Z eqn:E; [discriminate|]. destruct (nth_error l (Z.to_nat i)) eqn:En; [|discriminate]. intros _.
  assert (Z.to_nat i < length l)%nat by (apply nth_error_Some; congruence). lia.
Qed.

Section Real.
Variables (f_log f_sqrt f_exp : R -> R) (f_pow : R -> R -> R).
Local Notation RN := (RNum f_log f_sqrt f_exp f_pow).
#[local] Hint Extern 0 Num => exact (RNum f_log f_sqrt f_exp f_pow) : typeclass_instances.
#[local] Hint Extern 0 (DomNum _) => exact (exact_tests f_log f_sqrt f_exp f_pow) : typeclass_instances.
Local Notation mem := (mem f_log f_sqrt f_exp f_pow).
Local Notation dom_ok := (dom_ok f_log f_sqrt f_exp f_pow).
Local Notation valid := (valid f_log f_sqrt f_exp f_pow).
Local Notation inI := (inI f_log f_sqrt f_exp f_pow).
Local Notation good := (good f_log f_sqrt f_exp f_pow).
Local Notation doms_ok := (doms_ok f_log f_sqrt f_exp f_pow).
Local Notation env_in := (env_in f_log f_sqrt f_exp f_pow).
Local Notation fs l := (l f_log f_sqrt f_exp f_pow) (only parsing).

Lemma dom_of_ok v : dom_ok (dom_of v).
Proof. split; [|discriminate]. apply (fs good_cons). split; [apply (fs single_valid)|]. split; [split; constructor|constructor]. Qed.
Lemma line_ok : dom_ok [line].
Proof. split; [|discriminate]. apply (fs good_cons). split; [apply (fs line_valid)|]. split; [split; constructor|constructor]. Qed.
Lemma half_line_valid : valid (Interval (@Fin RN n_zero) PInf).
Proof. repeat split; cbn; try discriminate. Qed.
Lemma half_line_ok : dom_ok [Interval (@Fin RN n_zero) PInf].
Proof. split; [|discriminate]. apply (fs good_cons). split; [apply half_line_valid|]. split; [split; constructor|constructor]. Qed.
Lemma mk_valid l r k : mk l r = Ok k -> valid k.
Proof. intros H. now apply (fs mk_ok) in H as [_ H]. Qed.
Lemma lift2_dom f d e r : (forall i j k, f i j = Ok k -> valid k) -> dom_ok d -> dom_ok e -> lift2 f d e = Ok r -> dom_ok r.
Proof. intros Hv Hd He H. apply (fs lift2_ok f (fun x _ => x) (fun _ => False) Hv (fun _ _ _ _ _ _ _ _ _ _ (F : False) => match F with end) d e r Hd He H). Qed.
Lemma fold_dom f : (forall i j k, f i j = Ok k -> valid k) -> forall ds d r, Forall dom_ok ds -> dom_ok d ->
  fold_left (fun acc d => do a <- acc; lift2 f a d) ds (Ok d) = Ok r -> dom_ok r.
Proof.
  intros Hv. assert (Hbad : forall ds (o : outcome (@domain RN)), (forall d, o <> Ok d) -> forall r, fold_left (fun acc d => do a <- acc; lift2 f a d) ds o <> Ok r).
  { induction ds as [|e ds IH]; intros o Ho r; cbn [fold_left]; [apply Ho|]. apply IH. destruct o; cbn [obind]; [exfalso; eapply Ho; reflexivity|discriminate|discriminate|discriminate]. }
  induction ds as [|e ds IH]; intros d r Hds Hd H; cbn [fold_left] in H; [injection H as <-; exact Hd|]. inversion Hds; subst. cbn [obind] in H.
  destruct (lift2 f d e) as [a| | |] eqn:E; try (exfalso; revert H; apply Hbad; discriminate). apply (IH a r); auto. now apply (lift2_dom f d e).
Qed.
Lemma dom_expr_ok vd e : forall d, doms_ok vd -> dom_expr vd e = Ok d -> dom_ok d.
Proof.
  induction e as [a op l r x Hl Hr Hx|a op x IH|a|v|a n i|n i v] using expr_ind'; intros d Hvd H; cbn [dom_expr] in H.
  - destruct (dom_expr vd l) as [dl| | |]; cbn [obind] in H; try discriminate. destruct (dom_expr vd r) as [dr| | |]; cbn [obind] in H; try discriminate.
    match type of H with obind ?g _ = _ => destruct g as [dx| | |] eqn:Ex end; cbn [obind] in H; try discriminate.
    specialize (Hl dl Hvd eq_refl). specialize (Hr dr Hvd eq_refl).
    assert (Hdx : Forall dom_ok dx).
    { clear - Hx Ex Hvd. revert dx Ex. induction Hx as [|y x Hy Hx IH]; intros dx Ex; [injection Ex as <-; constructor|].
      destruct (dom_expr vd y) as [dy| | |]; cbn [obind] in Ex; try discriminate. match type of Ex with obind ?g _ = _ => destruct g as [dys| | |] eqn:Ey end; cbn [obind] in Ex; try discriminate.
      injection Ex as <-. constructor; [now apply Hy|now apply IH]. }
    assert (Hall : Forall dom_ok (rev (dl :: dr :: dx))) by (apply Forall_rev; auto).
    destruct op.
    + exact (lift2_dom i_add dl dr d (fun i j k => mk_valid _ _ k) Hl Hr H).
    + exact (lift2_dom i_sub dl dr d (fs i_sub_valid) Hl Hr H).
    + exact (lift2_dom i_mul dl dr d (fs i_mul_valid) Hl Hr H).
    + exact (lift2_dom i_div dl dr d (fs i_div_valid) Hl Hr H).
    + exact (proj1 (fs apply2_ok _ _ _ _ _ (fs line_valid) H)).
    + destruct (rev (dl :: dr :: dx)) as [|d0 ds]; [discriminate|]. inversion Hall; subst. exact (fold_dom i_max (fun i j k => mk_valid _ _ k) ds d0 d ltac:(assumption) ltac:(assumption) H).
    + destruct (rev (dl :: dr :: dx)) as [|d0 ds]; [discriminate|]. inversion Hall; subst. exact (fold_dom i_min (fun i j k => mk_valid _ _ k) ds d0 d ltac:(assumption) ltac:(assumption) H).
  - destruct (dom_expr vd x) as [dx| | |]; cbn [obind] in H; try discriminate. specialize (IH dx Hvd eq_refl). destruct op.
    + injection H as <-. exact IH.
    + destruct (fs over_all_ok i_neg Ropp (fun i k => mk_valid _ _ k) (fs i_neg_ok) dx [] d (proj1 IH) (fs good_nil) H) as (G & Nn & _). split; [exact G|]. apply Nn. right. apply IH.
    + exact (proj1 (fs apply1_ok _ _ _ _ half_line_valid H)).
    + exact (proj1 (fs apply1_ok _ _ _ _ half_line_valid H)).
    + exact (proj1 (fs apply1_ok _ _ _ _ (fs line_valid) H)).
  - injection H as <-. apply line_ok.
  - injection H as <-. apply dom_of_ok.
  - now apply (Hvd i).
  - injection H as <-. apply dom_of_ok.
Qed.

Section Path.
Variables (past : bool) (smp : @sample RN).
Lemma dom_expr_mem vd env e : forall d, doms_ok vd -> env_in env vd -> inside_expr f_log f_sqrt f_exp f_pow past smp env e -> dom_expr vd e = Ok d ->
  mem (meaning past smp env e) d.
Proof.
  induction e as [a op l r x Hl Hr Hx|a op x IH|a|v|a n i|n i v] using expr_ind'; intros d Hvd Henv Hin H; cbn [dom_expr meaning inside_expr] in *.
  - destruct Hin as (-> & I1 & I2 & I3).
    destruct (dom_expr vd l) as [dl| | |] eqn:El; cbn [obind] in H; try discriminate. destruct (dom_expr vd r) as [dr| | |] eqn:Er; cbn [obind] in H; try discriminate.
    specialize (Hl dl Hvd Henv I1 eq_refl). specialize (Hr dr Hvd Henv I2 eq_refl). pose proof (dom_expr_ok _ _ _ Hvd El) as Ol. pose proof (dom_expr_ok _ _ _ Hvd Er) as Or.
    set (u := meaning past smp env l) in *. set (w := meaning past smp env r) in *. destruct op; cbn [rev app fold_left obind] in H.
    + exact (proj2 (fs lift2_ok i_add Rplus (fun _ => True) (fun i j k => mk_valid _ _ k) (fun i j k x y _ _ E Hx Hy _ => fs i_add_ok i j k x y E Hx Hy) dl dr d Ol Or H) u w Hl Hr Logic.I).
    + exact (proj2 (fs lift2_ok i_sub Rminus (fun _ => True) (fs i_sub_valid) (fun i j k x y _ _ E Hx Hy _ => fs i_sub_ok i j k x y E Hx Hy) dl dr d Ol Or H) u w Hl Hr Logic.I).
    + exact (proj2 (fs lift2_ok i_mul Rmult (fun _ => True) (fs i_mul_valid) (fun i j k x y _ _ E Hx Hy _ => proj1 (fs i_mul_ok i j k x y E Hx Hy)) dl dr d Ol Or H) u w Hl Hr Logic.I).
    + exact (proj2 (fs lift2_ok i_div Rdiv (fun y => y <> 0) (fs i_div_valid) (fun i j k x y _ V E Hx Hy P => fs i_div_ok i j k x y V E Hx Hy P) dl dr d Ol Or H) u w Hl Hr (I3 eq_refl)).
    + exact (proj2 (fs apply2_ok _ _ _ _ _ (fs line_valid) H) u w Hl Hr (fs line_in _)).
    + replace (@bin RN Max u w) with (Rmax w u).
      * exact (proj2 (fs lift2_ok i_max Rmax (fun _ => True) (fun i j k => mk_valid _ _ k) (fun i j k x y _ _ E Hx Hy _ => fs i_max_ok i j k x y E Hx Hy) dr dl d Or Ol H) w u Hr Hl Logic.I).
      * cbn [bin n_ltb RNum]. unfold Rmax, rltb. destruct (Rle_dec w u), (Rlt_dec u w); try reflexivity; lra.
    + replace (@bin RN Min u w) with (Rmin w u).
      * exact (proj2 (fs lift2_ok i_min Rmin (fun _ => True) (fun i j k => mk_valid _ _ k) (fun i j k x y _ _ E Hx Hy _ => fs i_min_ok i j k x y E Hx Hy) dr dl d Or Ol H) w u Hr Hl Logic.I).
      * cbn [bin n_ltb RNum]. unfold Rmin, rltb. destruct (Rle_dec w u), (Rlt_dec w u); try reflexivity; lra.
  - destruct (dom_expr vd x) as [dx| | |] eqn:Ex; cbn [obind] in H; try discriminate. destruct Hin as (I1 & I2 & I3). specialize (IH dx Hvd Henv I1 eq_refl).
    assert (Hh : forall v : R, 0 <= v -> inI v (Interval (@Fin RN n_zero) PInf)).
    { intros v Hv. split; cbn [ileft iright DomainSpec.blt]; [|reflexivity]. now apply rltb_niff. }
    pose proof (dom_expr_ok _ _ _ Hvd Ex) as Ox. destruct op.
    + injection H as <-. exact IH.
    + destruct (fs over_all_ok i_neg Ropp (fun i k => mk_valid _ _ k) (fs i_neg_ok) dx [] d (proj1 Ox) (fs good_nil) H) as (_ & _ & _ & M). exact (M _ IH).
    + exact (proj2 (fs apply1_ok _ _ _ _ half_line_valid H) _ IH (Hh _ (I2 eq_refl))).
    + exact (proj2 (fs apply1_ok _ _ _ _ half_line_valid H) _ IH (Hh _ (I3 eq_refl))).
    + exact (proj2 (fs apply1_ok _ _ _ _ (fs line_valid) H) _ IH (fs line_in _)).
  - injection H as <-. constructor. apply (fs line_in).
  - injection H as <-. constructor. apply (fs single_in).
  - now apply Henv.
  - injection H as <-. constructor. apply (fs single_in).
Qed.

(** * Verdicts *)
Lemma mem_left d i0 x : good (i0 :: d) -> mem x (i0 :: d) -> blt f_log f_sqrt f_exp f_pow (@Fin RN x) (ileft i0) = false.
Proof.
  intros G H. apply (fs good_cons) in G as (V & G & B). inversion H as [? ? H1|? ? H1]; subst; [apply H1|]. apply Exists_exists in H1 as (j & Hj & [H1 _]).
  rewrite Forall_forall in B. specialize (B j Hj). apply (fs ble_tr _ (ileft j)); [|exact H1]. apply (fs blt_asym). apply (fs ble_lt_tr _ (iright i0)); [apply V|exact B].
Qed.
Lemma mem_right d i0 x : good d -> mem x d -> blt f_log f_sqrt f_exp f_pow (iright (last d i0)) (@Fin RN x) = false.
Proof.
  intros G H. apply Exists_exists in H as (j & Hj & [H1 H2]). destruct (fs good_last d i0 j G Hj) as [<-|B]; [exact H2|].
  apply (fs ble_tr _ (iright j)); [exact H2|]. apply (fs blt_asym). apply (fs blt_le_tr _ (ileft (last d i0))); [exact B|].
  assert (V : valid (last d i0)) by (destruct G as [G _]; rewrite Forall_forall in G; apply G; apply last_in; destruct d; [destruct Hj|discriminate]). apply V.
Qed.
Definition agrees (v : verdict) (b : bool) : Prop := match v with AlwaysTrue => b = true | AlwaysFalse => b = false | TrueOrFalse => True end.
Lemma judge_ok fuzzy op d z x : dom_ok d -> mem x d -> agrees (fst (judge fuzzy op d z)) (@test RN op x).
Proof.
  intros [G Nn] M. destruct op; cbn [judge test].
  - unfold judge_equal. destruct (can_be_zero d) eqn:E0; cbn [negb].
    + destruct (can_be_nonzero d) eqn:E1; cbn [negb fst agrees]; [exact Logic.I|]. destruct d as [|i [|j d]]; [congruence| |discriminate]. cbn [can_be_nonzero] in E1. apply negb_false_iff in E1.
      inversion M as [? ? H1|? ? H1]; subst; [|inversion H1]. pose proof (fs zero_case _ _ E1 H1). cbn [eq0 RNum]. now apply reqb_iff.
    + cbn [fst agrees eq0 RNum]. destruct (reqb x 0) eqn:E; [|reflexivity]. apply reqb_iff in E. subst x. exfalso. apply Exists_exists in M as (j & Hj & [H1 H2]).
      assert (can_be_zero d = true); [|congruence]. unfold can_be_zero. apply existsb_exists. exists j. split; [exact Hj|]. unfold i_includes. cbn [t_gt t_lt exact_tests n_zero RNum]. now rewrite H1, H2.
  - unfold judge_sup. destruct (can_be_positive true d) eqn:E0; cbn [negb].
    + destruct (can_be_negative false d) eqn:E1; cbn [negb fst agrees]; [exact Logic.I|]. destruct d as [|i d]; [congruence|]. cbn [can_be_negative t_neg exact_tests] in E1. apply negb_false_iff in E1.
      pose proof (mem_left _ _ _ G M) as H. cbn [gt0 RNum]. apply rltb_iff. pose proof (fs blt_le_tr _ _ _ E1 H) as H2. cbn [DomainSpec.blt] in H2. now apply rltb_iff in H2.
    + cbn [fst agrees gt0 RNum]. destruct d as [|i d]; [congruence|]. cbn [can_be_positive t_pos exact_tests] in E0. pose proof (mem_right _ i _ G M) as H.
      pose proof (fs ble_tr _ _ _ H E0) as H2. exact H2.
  - unfold judge_sup. destruct (can_be_positive false d) eqn:E0; cbn [negb].
    + destruct (can_be_negative true d) eqn:E1; cbn [negb fst agrees]; [exact Logic.I|]. destruct d as [|i d]; [congruence|]. cbn [can_be_negative t_neg exact_tests] in E1.
      pose proof (mem_left _ _ _ G M) as H. cbn [ge0 RNum]. pose proof (fs ble_tr _ _ _ E1 H) as H2. cbn [DomainSpec.blt] in H2. now rewrite H2.
    + cbn [fst agrees ge0 RNum]. destruct d as [|i d]; [congruence|]. cbn [can_be_positive t_pos exact_tests] in E0. apply negb_false_iff in E0. pose proof (mem_right _ i _ G M) as H.
      pose proof (fs ble_lt_tr _ _ _ H E0) as H2. cbn [DomainSpec.blt] in H2. now rewrite H2.
Qed.
Lemma cc_flags v c : cond_flags c = flags_of v -> match v with AlwaysTrue => cc_cond c = CTrue | AlwaysFalse => cc_cond c = CFalse | TrueOrFalse => True end.
Proof. intros H. destruct v; [| |exact Logic.I]; destruct c; cbn [cond_flags flags_of cc_cond] in *; try discriminate H; rewrite ?H; reflexivity. Qed.
Lemma dom_cond_ok fuzzy vd env c : forall v c', doms_ok vd -> env_in env vd -> inside_cond f_log f_sqrt f_exp f_pow past smp env c -> dom_cond fuzzy vd c = Ok (v, c') ->
  agrees v (truth past smp env c) /\ truth past smp env c' = truth past smp env c /\ truth past smp env (cc_cond c') = truth past smp env c.
Proof.
  induction c as [f op z e|f a IHa b IHb|f a IHa b IHb|f a IHa| |]; intros v c' Hvd Henv Hin H; cbn [dom_cond inside_cond] in *; try discriminate.
  - destruct (dom_expr vd e) as [d| | |] eqn:E; cbn [obind] in H; try discriminate. pose proof (dom_expr_mem vd env e d Hvd Henv Hin E) as M. pose proof (dom_expr_ok _ _ _ Hvd E) as O.
    pose proof (judge_ok fuzzy op d z _ O M) as A. destruct (judge fuzzy op d z) as [v0 z0]. injection H as <- <-. cbn [fst] in A. cbn [truth]. split; [exact A|]. split; [reflexivity|].
    destruct v0; cbn [cc_cond cond_flags flags_of alwaysTrue alwaysFalse truth agrees] in *; congruence.
  - destruct (dom_cond fuzzy vd a) as [[va ca]| | |]; cbn [obind] in H; try discriminate. destruct (dom_cond fuzzy vd b) as [[vb cb]| | |]; cbn [obind fst snd] in H; try discriminate.
    injection H as <- <-. destruct Hin as [I1 I2]. destruct (IHa _ _ Hvd Henv I1 eq_refl) as (A1 & A2 & A3).
    assert (Hb : truth past smp env a = true -> agrees vb (truth past smp env b) /\ truth past smp env cb = truth past smp env b /\ truth past smp env (cc_cond cb) = truth past smp env b) by (intros T; apply IHb; auto).
    clear IHa IHb. assert (HA : agrees (v_and va vb) (truth past smp env a && truth past smp env b)).
    { destruct (truth past smp env a) eqn:T; cbn [andb]; [destruct (Hb eq_refl) as (B1 & _)|]; destruct va, vb; cbn [v_and agrees] in *; try congruence; auto. }
    assert (HT : truth past smp env ca && truth past smp env cb = truth past smp env a && truth past smp env b).
    { rewrite A2. destruct (truth past smp env a) eqn:T; [|reflexivity]. destruct (Hb eq_refl) as (_ & B2 & _). now rewrite B2. }
    cbn [truth]. split; [exact HA|]. split; [exact HT|]. destruct (v_and va vb) eqn:Ev; cbn [cc_cond cond_flags flags_of alwaysTrue alwaysFalse truth agrees] in *; [congruence|congruence|].
    rewrite A3. destruct (truth past smp env a) eqn:T; [|reflexivity]. destruct (Hb eq_refl) as (_ & _ & B3). now rewrite B3.
  - destruct (dom_cond fuzzy vd a) as [[va ca]| | |]; cbn [obind] in H; try discriminate. destruct (dom_cond fuzzy vd b) as [[vb cb]| | |]; cbn [obind fst snd] in H; try discriminate.
    injection H as <- <-. destruct Hin as [I1 I2]. destruct (IHa _ _ Hvd Henv I1 eq_refl) as (A1 & A2 & A3).
    assert (Hb : truth past smp env a = false -> agrees vb (truth past smp env b) /\ truth past smp env cb = truth past smp env b /\ truth past smp env (cc_cond cb) = truth past smp env b) by (intros T; apply IHb; auto).
    clear IHa IHb. assert (HA : agrees (v_or va vb) (truth past smp env a || truth past smp env b)).
    { destruct (truth past smp env a) eqn:T; cbn [orb]; [|destruct (Hb eq_refl) as (B1 & _)]; destruct va, vb; cbn [v_or agrees] in *; try congruence; auto. }
    assert (HT : truth past smp env ca || truth past smp env cb = truth past smp env a || truth past smp env b).
    { rewrite A2. destruct (truth past smp env a) eqn:T; [reflexivity|]. destruct (Hb eq_refl) as (_ & B2 & _). now rewrite B2. }
    cbn [truth]. split; [exact HA|]. split; [exact HT|]. destruct (v_or va vb) eqn:Ev; cbn [cc_cond cond_flags flags_of alwaysTrue alwaysFalse truth agrees] in *; [congruence|congruence|].
    rewrite A3. destruct (truth past smp env a) eqn:T; [reflexivity|]. destruct (Hb eq_refl) as (_ & _ & B3). now rewrite B3.
  - destruct (dom_cond fuzzy vd a) as [[va ca]| | |]; cbn [obind fst snd] in H; try discriminate. injection H as <- <-. destruct (IHa _ _ Hvd Henv Hin eq_refl) as (A1 & A2 & A3).
    cbn [truth]. split; [destruct va; cbn [v_not agrees] in *; try rewrite A1; auto|]. split; [now rewrite A2|].
    destruct va; cbn [v_not cc_cond cond_flags flags_of alwaysTrue alwaysFalse truth agrees] in *; [rewrite A1; reflexivity|rewrite A1; reflexivity|now rewrite A3].
Qed.
End Path.
End Real.
