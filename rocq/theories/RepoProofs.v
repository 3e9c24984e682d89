From Coq Require Import String Ascii ZArith List Bool Lia Sorted.
From Verif Require Import Base StringModel StringSpec StringProofs OMap RepoModel RepoSpec.
Import ListNotations.
Open Scope Z_scope.

(** * Prefixes *)
Lemma tilde_same c : same_letter c "~"%char <-> c = "~"%char.
Proof.
  pose proof (code_range c). unfold same_letter. change (code "~") with 126. split.
  - intros [E|[E|E]].
    + apply code_inj. exact E.
    + exfalso. assert (code c = 94) by lia. rewrite H0 in E. vm_compute in E. destruct E as [[E1 E2] _]. apply E2. reflexivity.
    + exfalso. destruct E as [[_ E] _]. vm_compute in E. apply E. reflexivity.
  - intros ->. left. reflexivity.
Qed.
Lemma same_length a b : same_up_to_case a b -> length a = length b.
Proof. induction 1; cbn; congruence. Qed.
Lemma starts_nil k : starts k [] = true.
Proof. reflexivity. Qed.
Lemma starts_iff k p : starts k p = true <-> exists a b, k = a ++ b /\ same_up_to_case a p.
Proof.
  unfold starts. rewrite ci_eqb_iff. split.
  - intros H. exists (firstn (length p) k), (skipn (length p) k). rewrite firstn_skipn. auto.
  - intros (a & b & -> & H). rewrite <- (same_length _ _ H). rewrite firstn_app, Nat.sub_diag, firstn_O, app_nil_r, firstn_all. exact H.
Qed.
Lemma starts_cons c k d p : starts (c :: k) (d :: p) = true <-> same_letter c d /\ starts k p = true.
Proof.
  unfold starts. rewrite !ci_eqb_iff. cbn [length firstn]. split.
  - intros H. inversion H; subst. auto.
  - intros [H1 H2]. constructor; auto.
Qed.
Lemma starts_word a b r s : ~ In "~"%char a -> ~ In "~"%char b ->
  (starts (a ++ "~"%char :: r) (b ++ "~"%char :: s) = true <-> same_up_to_case a b /\ starts r s = true).
Proof.
  revert b. induction a as [|x a IH]; intros [|y b] Ha Hb; cbn [app].
  - rewrite starts_cons. split; intros [H1 H2]; split; auto; [constructor|left; reflexivity].
  - rewrite starts_cons. split; intros [H1 H2].
    + exfalso. apply Hb. left. apply tilde_same.
      destruct H1 as [H1|[H1|H1]]; [left|right;right|right;left]; auto.
    + inversion H1.
  - rewrite starts_cons. split; intros [H1 H2].
    + exfalso. apply Ha. left. apply tilde_same. exact H1.
    + inversion H1.
  - rewrite starts_cons, IH; [|intros Hi; apply Ha; right; exact Hi|intros Hi; apply Hb; right; exact Hi].
    split; [intros (H1 & H2 & H3); split; [constructor; auto|exact H3]|]. intros [H1 H2]. inversion H1; subst. auto.
Qed.
Lemma same_word a b r s : ~ In "~"%char a -> ~ In "~"%char b ->
  (same_up_to_case (a ++ "~"%char :: r) (b ++ "~"%char :: s) <-> same_up_to_case a b /\ same_up_to_case r s).
Proof.
  revert b. induction a as [|x a IH]; intros [|y b] Ha Hb; cbn [app].
  - split; [intros H; inversion H; subst; split; [constructor|assumption]|]. intros [_ H]. constructor; [left; reflexivity|exact H].
  - split; intros H.
    + inversion H as [|? ? ? ? H1 H2]; subst. exfalso. apply Hb. left. apply tilde_same.
      destruct H1 as [H1|[H1|H1]]; [left|right;right|right;left]; auto.
    + destruct H as [H _]. inversion H.
  - split; intros H.
    + inversion H as [|? ? ? ? H1 H2]; subst. exfalso. apply Ha. left. apply tilde_same. exact H1.
    + destruct H as [H _]. inversion H.
  - assert (Ha' : ~ In "~"%char a) by (intros Hi; apply Ha; right; exact Hi).
    assert (Hb' : ~ In "~"%char b) by (intros Hi; apply Hb; right; exact Hi).
    specialize (IH b Ha' Hb'). split.
    + intros H. inversion H; subst. apply IH in H5 as [H1 H2]. split; [constructor; auto|exact H2].
    + intros [H1 H2]. inversion H1; subst. constructor; [assumption|]. apply IH. auto.
Qed.
(** keys with a given prefix are neighbours in the order *)
Lemma starts_not_below p : forall k, starts k p = true -> ci_compare k p <> Lt.
Proof.
  induction p as [|c p IH]; intros [|d k] H; cbn [ci_compare]; try discriminate.
  apply starts_cons in H as [H1 H2]. apply ceq_same in H1. unfold ceq in H1. unfold clt.
  replace (sort_val d <? sort_val c) with false by lia. replace (sort_val c <? sort_val d) with false by lia. apply IH. exact H2.
Qed.
Lemma starts_between p : forall k1 k2, ci_compare k1 p <> Lt -> ci_compare k1 k2 = Lt -> starts k2 p = true -> starts k1 p = true.
Proof.
  induction p as [|c p IH]; intros [|d k1] [|e k2] H1 H2 H3; try reflexivity; cbn [ci_compare] in *; try congruence; try discriminate.
  apply starts_cons in H3 as [H3 H4]. apply ceq_same in H3. unfold ceq in H3. unfold clt in *.
  destruct (sort_val d <? sort_val c) eqn:E1; [congruence|].
  destruct (sort_val d <? sort_val e) eqn:E2; [lia|]. destruct (sort_val e <? sort_val d) eqn:E3; [discriminate|].
  destruct (sort_val c <? sort_val d) eqn:E4; [lia|].
  apply starts_cons. split; [apply ceq_same; unfold ceq; lia|]. eapply IH; eauto.
Qed.

Section Repo.
  Context {P : Type}.
  Variable uniq : Z -> str.
  Notation obj := (object P).
  Notation repo := (omap str obj).
  Notation tag := (@RepoModel.tag P uniq).
  Notation sorted := (msorted ci_compare).

  Lemma erase_by_start_filter (m : repo) p : sorted m -> erase_by_start m p = filter (fun e => negb (starts (fst e) p)) m.
  Proof.
    assert (G : forall m : repo, sorted m -> Forall (fun e => ci_compare (fst e) p <> Lt) m ->
                drop_starting m p = filter (fun e => negb (starts (fst e) p)) m).
    { intros m0. induction m0 as [|[k o] r IH]; intros Hs Hf; cbn [drop_starting filter fst]; [reflexivity|].
      apply sorted_inv in Hs as [Hs Hb]. inversion Hf; subst. destruct (starts k p) eqn:E; cbn [negb]; [apply IH; auto|].
      f_equal. clear IH Hf. revert Hs Hb H2. induction r as [|[k' o'] r IH]; intros Hs Hb Hf'; cbn [filter fst]; [reflexivity|].
      inversion Hb; subst. inversion Hf'; subst. unfold below in H2. cbn [fst] in H2. cbn [fst] in H1.
      destruct (starts k' p) eqn:E'.
      - rewrite (starts_between p k k' H1 H2 E') in E. discriminate.
      - cbn [negb]. f_equal. apply sorted_inv in Hs as [Hs _]. apply IH; assumption. }
    induction m as [|[k o] r IH]; intros Hs; cbn [erase_by_start filter fst]; [reflexivity|].
    pose proof Hs as Hs0. apply sorted_inv in Hs as [Hs Hb]. destruct (ci_compare k p) eqn:E.
    - rewrite G; [reflexivity|exact Hs0|]. constructor; [cbn; congruence|].
      eapply Forall_impl; [|exact Hb]. unfold below. cbn. intros [k' o'] H. cbn in *. rewrite (ci_compare_eq_l k p k' E) in H.
      rewrite ci_compare_antisym, H. discriminate.
    - destruct (starts k p) eqn:E'; [exfalso; exact (starts_not_below p k E' E)|]. cbn [negb]. f_equal. auto.
    - rewrite G; [reflexivity|exact Hs0|]. constructor; [cbn; congruence|].
      eapply Forall_impl; [|exact Hb]. unfold below. cbn. intros [k' o'] H H'. cbn in *.
      rewrite (ci_compare_lt_trans _ _ _ H H') in E. discriminate.
  Qed.
  Lemma erase_where_filter f (m : repo) : erase_where f m = (filter (fun e => negb (f (fst e))) m, Z.of_nat (length (filter (fun e => f (fst e)) m))).
  Proof.
    induction m as [|[k o] r IH]; cbn [erase_where filter fst]; [reflexivity|]. rewrite IH. destruct (f k); cbn [negb length]; [|reflexivity].
    f_equal. lia.
  Qed.
  Lemma find_where_filter f (m : repo) : find_where f m = map snd (filter (fun e => f (fst e)) m).
  Proof. induction m as [|[k o] r IH]; cbn [find_where filter fst]; [reflexivity|]. rewrite IH. destruct (f k); reflexivity. Qed.

  Lemma tag_is_text s : tag s = tag_text uniq s.
  Proof. unfold RepoModel.tag, tag_text, base_tag, type_tag. rewrite <- !app_assoc. cbn [app lit list_ascii_of_string]. rewrite <- !app_assoc. reflexivity. Qed.

  (** * Representation *)
  Definition wf (s : obj) : Prop := ~ In "~"%char (otype s) /\ ~ In "~"%char (oname s).
  Definition holds (m : repo) (x : obj) : Prop := In (tag x, x) m.
  Definition good (m : repo) : Prop := sorted m /\ forall k o, In (k, o) m -> k = tag o /\ wf o.

  Hypothesis Huniq : address_text uniq.
  Lemma tag_same x y : wf x -> wf y -> (same_up_to_case (tag x) (tag y) <->
    same_up_to_case (otype x) (otype y) /\ same_up_to_case (oname x) (oname y) /\ oaddr x = oaddr y).
  Proof.
    intros [Hx1 Hx2] [Hy1 Hy2]. rewrite !tag_is_text. unfold tag_text. cbn [lit list_ascii_of_string app]. split.
    - intros H. inversion H; subst. apply same_word in H5 as [H1 H2]; auto. apply same_word in H2 as [H2 H4]; auto.
      split; [exact H1|]. split; [exact H2|]. apply Huniq. exact H4.
    - intros (H1 & H2 & H3). constructor; [left; reflexivity|]. apply same_word; auto. split; [exact H1|]. apply same_word; auto.
      split; [exact H2|]. rewrite H3. apply same_refl.
  Qed.
  Lemma starts_base x s : wf x -> wf s -> (starts (tag x) (base_tag s) = true <->
    same_up_to_case (otype x) (otype s) /\ same_up_to_case (oname x) (oname s)).
  Proof.
    intros [Hx1 Hx2] [Hy1 Hy2]. rewrite tag_is_text. unfold tag_text, base_tag, type_tag. cbn [lit list_ascii_of_string app].
    rewrite <- !app_assoc. cbn [app]. rewrite starts_cons, !starts_word by auto. rewrite starts_nil. split; [tauto|].
    intros [H1 H2]. split; [left; reflexivity|tauto].
  Qed.
  Lemma starts_type x s : wf x -> wf s -> (starts (tag x) (type_tag s) = true <-> same_up_to_case (otype x) (otype s)).
  Proof.
    intros [Hx1 Hx2] [Hy1 Hy2]. rewrite tag_is_text. unfold tag_text, type_tag. cbn [lit list_ascii_of_string app].
    rewrite starts_cons, starts_word by auto. rewrite starts_nil. split; [tauto|]. intros H. split; [left; reflexivity|tauto].
  Qed.

  Lemma sorted_nodup (m : repo) : good m -> NoDup (map snd m).
  Proof.
    intros [Hs Hg]. induction m as [|[k o] r IH]; cbn [map snd]; [constructor|].
    apply sorted_inv in Hs as [Hs Hb]. constructor.
    - intros Hin. apply in_map_iff in Hin as ([k' o'] & E & Hin). cbn in E. subst o'.
      destruct (Hg k o (or_introl eq_refl)) as [-> _]. destruct (Hg k' o (or_intror Hin)) as [-> _].
      rewrite Forall_forall in Hb. specialize (Hb _ Hin). unfold below in Hb. cbn in Hb. rewrite ci_compare_refl in Hb. discriminate.
    - apply IH; [exact Hs|]. intros k' o' H. apply Hg. right. exact H.
  Qed.
  Lemma good_filter f (m : repo) : good m -> good (filter f m).
  Proof. intros [Hs Hg]. split; [apply filter_sorted, Hs|]. intros k o H. apply filter_In in H. apply Hg. tauto. Qed.
  Lemma holds_filter f (m : repo) : good m -> forall x, holds (filter (fun e => f (fst e)) m) x <-> holds m x /\ f (tag x) = true.
  Proof. intros Hg x. unfold holds. rewrite filter_In. cbn [fst]. tauto. Qed.
  Lemma lists_filter f (m : repo) : good m -> lists (map snd (filter (fun e => f (fst e)) m)) (fun x => holds m x /\ f (tag x) = true).
  Proof.
    intros Hg. split; [apply sorted_nodup, good_filter, Hg|]. intros x. rewrite in_map_iff. split.
    - intros ([k o] & E & H). cbn in E. subst o. apply filter_In in H as [H1 H2]. cbn in H2. destruct (proj2 Hg _ _ H1) as [-> _]. auto.
    - intros [H1 H2]. exists (tag x, x). split; [reflexivity|]. apply filter_In. auto.
  Qed.
  Lemma in_holds (m : repo) k o : good m -> In (k, o) m -> holds m o.
  Proof. intros [_ Hg] H. destruct (Hg _ _ H) as [-> _]. exact H. Qed.
  Lemma mfind_holds (m : repo) t : good m -> match mfind ci_compare m t with
    | Some o => holds m o /\ same_up_to_case (tag o) t | None => forall x, holds m x -> ~ same_up_to_case (tag x) t end.
  Proof.
    intros [Hs Hg]. destruct (mfind ci_compare m t) as [o|] eqn:E.
    - destruct (mfind_in ci_compare m t o E) as (k & Hin & He). destruct (Hg _ _ Hin) as [-> _]. split; [exact Hin|]. apply ci_compare_eq. exact He.
    - intros x Hx Hsame. apply ci_compare_eq in Hsame.
      rewrite (in_mfind ci_compare ci_compare_antisym ci_compare_eq_l m (tag x) x t Hs Hx Hsame) in E. discriminate.
  Qed.
  Lemma same_object (C : contents_t) s x : presentable C s -> wf x -> C x -> same_up_to_case (tag x) (tag s) -> x = s.
  Proof.
    intros (H1 & H2 & H3) Hw Hx Hs. apply tag_same in Hs; [|exact Hw|split; assumption]. apply H3; [exact Hx|tauto].
  Qed.
  Lemma holds_wf (m : repo) x : good m -> holds m x -> wf x.
  Proof. intros [_ Hg] H. exact (proj2 (Hg _ _ H)). Qed.
  Lemma mfind_object (m : repo) s : good m -> presentable (holds m) s ->
    match mfind ci_compare m (tag s) with Some o => o = s /\ holds m s | None => ~ holds m s end.
  Proof.
    intros Hg Hp. pose proof (mfind_holds m (tag s) Hg) as H. destruct (mfind ci_compare m (tag s)) as [o|].
    - destruct H as [H1 H2]. assert (o = s) by (eapply same_object; eauto using holds_wf). subst. auto.
    - intros Hh. apply (H s Hh). apply same_refl.
  Qed.

  Lemma erase_object_spec (m : repo) s : good m -> presentable (holds m) s ->
    good (merase ci_compare m (tag s)) /\ forall x, holds (merase ci_compare m (tag s)) x <-> holds m x /\ x <> s.
  Proof.
    intros Hg Hp. assert (E : merase ci_compare m (tag s) = filter (fun e => match ci_compare (fst e) (tag s) with Eq => false | _ => true end) m).
    { apply (merase_filter ci_compare ci_compare_antisym ci_compare_eq_l). exact (proj1 Hg). }
    rewrite E. split; [apply good_filter, Hg|]. intros x.
    rewrite (holds_filter (fun k => match ci_compare k (tag s) with Eq => false | _ => true end) m Hg x).
    split; intros [H1 H2]; (split; [exact H1|]).
    - intros ->. rewrite ci_compare_refl in H2. discriminate.
    - destruct (ci_compare (tag x) (tag s)) eqn:E2; auto. apply ci_compare_eq in E2. exfalso. apply H2. eapply same_object; eauto using holds_wf.
  Qed.
  Lemma minsert_in (m : repo) k v e : In e (minsert ci_compare m k v) -> e = (k, v) \/ In e m.
  Proof.
    induction m as [|[x w] r IH]; cbn [minsert]; [intros [H|[]]; auto|].
    destruct (ci_compare k x); intros H; auto.
    - destruct H as [H|H]; auto.
    - destruct H as [H|H]; [right; left; auto|]. destruct (IH H); [auto|right; right; auto].
  Qed.
  Lemma minsert_keeps (m : repo) k v e : In e m -> In e (minsert ci_compare m k v).
  Proof.
    induction m as [|[x w] r IH]; cbn [minsert]; [intros []|]. destruct (ci_compare k x); intros H; auto.
    - right. exact H.
    - destruct H as [H|H]; [left; exact H|right; auto].
  Qed.
  Lemma add_insert_spec (m : repo) s : good m -> presentable (holds m) s ->
    good (minsert ci_compare m (tag s) s) /\ forall x, holds (minsert ci_compare m (tag s) s) x <-> x = s \/ holds m x.
  Proof.
    intros Hg Hp. split.
    - split; [apply (minsert_sorted ci_compare ci_compare_antisym ci_compare_lt_trans); exact (proj1 Hg)|].
      intros k o H. apply minsert_in in H as [H|H]; [|exact (proj2 Hg _ _ H)]. injection H as -> ->. split; [reflexivity|]. destruct Hp as (H1 & H2 & _). split; auto.
    - intros x. unfold holds at 1. split.
      + intros H. apply minsert_in in H as [H|H]; [injection H as _ ->; auto|auto].
      + intros [->|H]; [|apply minsert_keeps; exact H].
        pose proof (mfind_object m s Hg Hp) as F. destruct (mfind ci_compare m (tag s)) as [o|] eqn:E.
        * apply minsert_keeps. apply F.
        * destruct (minsert_new ci_compare ci_compare_antisym m (tag s) s E (proj1 Hg)) as (a & b & -> & -> & _).
          apply in_or_app. right. left. reflexivity.
  Qed.
  Lemma add_erase_spec (m : repo) s mode : good m -> presentable (holds m) s ->
    good (add_erase m s mode) /\ forall x, holds (add_erase m s mode) x <-> holds m x /\ ~ replaced mode s x.
  Proof.
    intros Hg Hp. assert (Hw : wf s) by (destruct Hp as (? & ? & _); split; assumption).
    assert (B : good (erase_by_start m (base_tag s)) /\ forall x, holds (erase_by_start m (base_tag s)) x <->
      holds m x /\ ~ (same_up_to_case (otype x) (otype s) /\ same_up_to_case (oname x) (oname s))).
    { rewrite (erase_by_start_filter m _ (proj1 Hg)). split; [apply good_filter, Hg|]. intros x.
      rewrite (holds_filter (fun k => negb (starts k (base_tag s))) m Hg x). split; intros [H1 H2]; (split; [exact H1|]).
      - intros H. apply starts_base in H; eauto using holds_wf. rewrite H in H2. discriminate.
      - destruct (starts (tag x) (base_tag s)) eqn:E; [|reflexivity]. apply starts_base in E; eauto using holds_wf; contradiction. }
    destruct mode; cbn [add_erase replaced].
    - split; [exact Hg|]. tauto.
    - destruct (oname s) eqn:En.
      + split; [exact Hg|]. intros x. split; [|tauto]. intros H. split; [exact H|]. intros [H0 _]. congruence.
      + split; [exact (proj1 B)|]. intros x. rewrite (proj2 B). split; intros [H1 H2]; (split; [exact H1|]); intros H; apply H2; [tauto|].
        split; [discriminate|exact H].
    - exact B.
    - rewrite (erase_by_start_filter m _ (proj1 Hg)). split; [apply good_filter, Hg|]. intros x.
      rewrite (holds_filter (fun k => negb (starts k (type_tag s))) m Hg x). split; intros [H1 H2]; (split; [exact H1|]).
      + intros H. apply starts_type in H; eauto using holds_wf. rewrite H in H2. discriminate.
      + destruct (starts (tag x) (type_tag s)) eqn:E; [|reflexivity]. apply starts_type in E; eauto using holds_wf; contradiction.
  Qed.
  Lemma presentable_sub (C C' : @contents_t P) (s : obj) : (forall x, C' x -> C x) -> presentable C s -> presentable C' s.
  Proof. intros H (H1 & H2 & H3). split; [exact H1|]. split; [exact H2|]. intros x Hx. apply H3. auto. Qed.
  Lemma erase_list_spec l : forall m : repo, good m -> (forall s, In s l -> presentable (holds m) s) ->
    let '(m', n) := erase_list uniq m l in good m' /\ (forall x, holds m' x <-> holds m x /\ ~ In x l) /\ counts n (fun x => holds m x /\ In x l).
  Proof.
    induction l as [|s r IH]; intros m Hg Hp; cbn [erase_list].
    - split; [exact Hg|]. split; [tauto|]. exists []. split; [|reflexivity]. split; [constructor|]. intros x. split; [intros []|intros [_ []]].
    - destruct (erase_object_spec m s Hg (Hp s (or_introl eq_refl))) as [G1 H1].
      specialize (IH (merase ci_compare m (tag s)) G1). destruct (erase_list uniq (merase ci_compare m (tag s)) r) as [m'' n] eqn:E.
      destruct IH as (G2 & H2 & (l0 & [L1 L2] & ->)).
      { intros s' Hs'. eapply presentable_sub; [|apply Hp; right; exact Hs']. intros x Hx. apply H1 in Hx. tauto. }
      split; [exact G2|]. split; [intros x; rewrite H2, H1; cbn [In]; intuition congruence|].
      pose proof (mfind_object m s Hg (Hp s (or_introl eq_refl))) as F. destruct (mfind ci_compare m (tag s)) as [o|].
      + exists (s :: l0). split; [|cbn [length]; lia]. split.
        * constructor; [|exact L1]. intros Hi. apply L2 in Hi as [Hi _]. apply H1 in Hi. tauto.
        * intros x. cbn [In]. rewrite L2, H1. destruct F as [_ F]. split; [intros [<-|H]; tauto|].
          intros [Hx [->|Hr]]; [auto|].
          assert (D : s = x \/ s <> x).
          { destruct (Z.eq_dec (oaddr s) (oaddr x)) as [Ea|Ea]; [|right; congruence]. left. symmetry.
            apply (Hp s (or_introl eq_refl)); auto. }
          destruct D; [left; assumption|right; split; [split; [assumption|congruence]|assumption]].
      + exists l0. split; [|lia]. split; [exact L1|]. intros x. rewrite L2, H1. cbn [In]. split; [tauto|]. intros [Hx [->|Hr]]; [contradiction|].
        split; [split; [exact Hx|congruence]|exact Hr].
  Qed.

  Variable regex : str -> option (str -> bool).
  Lemma exec_spec (m : repo) o : good m -> admissible (holds m) o ->
    good (fst (exec uniq regex m o)) /\ spec_step uniq regex (holds m) o (snd (exec uniq regex m o)) (holds (fst (exec uniq regex m o))).
  Proof.
    intros Hg Ha. destruct o as [s mode|p|s|l| |p|t quiet]; cbn [exec admissible spec_step] in *.
    - destruct (add_erase_spec m s mode Hg Ha) as [G1 H1].
      destruct (add_insert_spec (add_erase m s mode) s G1) as [G2 H2]; [eapply presentable_sub; [|exact Ha]; intros x Hx; apply H1 in Hx; tauto|].
      unfold add, add_insert. cbn [fst snd]. split; [exact G2|]. split; [now rewrite tag_is_text|]. intros x. rewrite H2, H1. tauto.
    - destruct (regex p) as [f|]; [|cbn [fst snd]; split; [exact Hg|]; split; [reflexivity|tauto]].
      rewrite erase_where_filter. cbn [fst snd]. split; [apply good_filter, Hg|]. split.
      + eexists. split; [reflexivity|]. exists (map snd (filter (fun e => f (fst e)) m)). split; [|now rewrite map_length].
        destruct (lists_filter f m Hg) as [N L]. split; [exact N|]. intros x. rewrite <- tag_is_text. apply L.
      + intros x. rewrite (holds_filter (fun k => negb (f k)) m Hg x), <- tag_is_text. destruct (f (tag x)); cbn; intuition discriminate.
    - unfold erase_object. pose proof (mfind_object m s Hg Ha) as F. destruct (mfind ci_compare m (tag s)); cbn [fst snd].
      + destruct (erase_object_spec m s Hg Ha) as [G1 H1]. split; [exact G1|]. split; [|exact H1]. exists true. split; [reflexivity|]. tauto.
      + split; [exact Hg|]. split; [exists false; split; [reflexivity|]; split; [discriminate|contradiction]|].
        intros x. split; [|tauto]. intros H. split; [exact H|]. intros ->. contradiction.
    - pose proof (erase_list_spec l m Hg Ha) as H. destruct (erase_list uniq m l) as [m' n]. cbn [fst snd]. destruct H as (G & H1 & H2).
      split; [exact G|]. split; [|exact H1]. exists n. split; [reflexivity|exact H2].
    - cbn [fst snd]. split; [exact Hg|]. split; [|tauto]. eexists. split; [reflexivity|]. exists (map snd m). unfold size.
      split; [|now rewrite map_length]. split; [apply sorted_nodup, Hg|]. intros x. rewrite in_map_iff. split.
      + intros ([k y] & E & H). cbn in E. subst y. eapply in_holds; eauto.
      + intros H. exists (tag x, x). auto.
    - destruct (regex p) as [f|]; cbn [fst snd]; (split; [exact Hg|]; split; [|tauto]); [|reflexivity].
      exists (find_where f m). split; [reflexivity|]. rewrite find_where_filter. destruct (lists_filter f m Hg) as [N L].
      split; [exact N|]. intros x. rewrite <- tag_is_text. apply L.
    - cbn [fst snd]. split; [exact Hg|]. split; [|tauto]. unfold fetch. pose proof (mfind_holds m t Hg) as F.
      destruct (mfind ci_compare m t) as [o|].
      + left. exists o. rewrite <- tag_is_text. tauto.
      + right. split; [intros x; rewrite <- tag_is_text; apply F|]. destruct quiet; reflexivity.
  Qed.
  Lemma exec_all_spec l : forall m : repo, good m -> legal uniq regex (holds m) l ->
    good (fst (exec_all uniq regex m l)) /\
    history uniq regex (holds m) l (snd (exec_all uniq regex m l)) (holds (fst (exec_all uniq regex m l))).
  Proof.
    induction l as [|o r IH]; intros m Hg Hl; cbn [exec_all].
    - cbn [fst snd]. split; [exact Hg|constructor].
    - destruct Hl as [Ha Hl]. destruct (exec_spec m o Hg Ha) as [G S]. destruct (exec uniq regex m o) as [m1 x]. cbn [fst snd] in *.
      specialize (IH m1 G (Hl _ _ S)). destruct (exec_all uniq regex m1 r) as [m2 xs]. cbn [fst snd] in *. destruct IH as [G2 S2].
      split; [exact G2|]. econstructor; eauto.
  Qed.
End Repo.
