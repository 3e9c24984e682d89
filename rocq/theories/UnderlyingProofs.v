From Coq Require Import ZArith List Bool Reals Lra Lia Sorted.
From Verif Require Import Base OMap StringModel StringSpec StringProofs DateModel DateTimeModel PathProofs UnderlyingModel UnderlyingSpec.
Import ListNotations.

Section Merge.
Context {K V : Type}.
Variable cmp : K -> K -> comparison.
Variable ltb : V -> V -> bool.
Variable le : V -> V -> Prop.
Hypothesis cmp_anti : forall a b, cmp b a = CompOpp (cmp a b).
Hypothesis cmp_trans : forall a b c, cmp a b = Lt -> cmp b c = Lt -> cmp a c = Lt.
Hypothesis cmp_eq_l : forall a b c, cmp a b = Eq -> cmp a c = cmp b c.
Hypothesis ltb_true : forall a b, ltb a b = true -> le a b.
Hypothesis ltb_false : forall a b, ltb a b = false -> le b a.
Hypothesis le_refl : forall a, le a a.
Hypothesis le_trans : forall a b c, le a b -> le b c -> le a c.
Notation omap := (omap K V).
Implicit Types m : omap.

Lemma include_sorted m k v : msorted cmp m -> msorted cmp (include cmp ltb m k v).
Proof. intros H. unfold include. destruct (mfind cmp m k); now apply massign_sorted. Qed.
Lemma merge_sorted o : forall m, msorted cmp m -> msorted cmp (merge_max cmp ltb m o).
Proof. induction o as [|p o IH]; intros m H; [exact H|]. apply IH. now apply include_sorted. Qed.

(** [holds P m]: [m] gives the latest of the values [P k] for every key. *)
Definition holds (P : K -> V -> Prop) m : Prop := forall k, latest le (P k) (mfind cmp m k).
Lemma include_holds (P : K -> V -> Prop) m k v : msorted cmp m -> holds P m -> (forall a b w, cmp a b = Eq -> P a w -> P b w) ->
  holds (fun k' w => P k' w \/ (cmp k k' = Eq /\ w = v)) (include cmp ltb m k v).
Proof.
  intros Hs H Hext k'. specialize (H k') as Hk'. unfold include.
  assert (mfind cmp m k = mfind cmp m k' \/ cmp k k' <> Eq) as D. { destruct (cmp k k') eqn:E; [left; apply (mfind_eq cmp cmp_anti cmp_eq_l _ _ _ E)|right; discriminate|right; discriminate]. }
  assert (cmp k k' <> Eq -> latest le (fun w => P k' w \/ (cmp k k' = Eq /\ w = v)) (mfind cmp m k')) as Other.
  { intros N. destruct (mfind cmp m k'); cbn [latest] in *.
    - destruct Hk' as [H1 H2]. split; [now left|]. intros w [Hw|[Hw _]]; [now apply H2|contradiction].
    - intros w [Hw|[Hw _]]; [now apply (Hk' w)|contradiction]. }
  destruct (mfind cmp m k) as [u|] eqn:E; rewrite (mfind_massign cmp cmp_anti cmp_eq_l) by exact Hs; destruct (cmp k k') eqn:C; try (apply Other; discriminate).
  - destruct D as [D|D]; [|now contradiction D]. rewrite <- D in Hk'. destruct Hk' as [H1 H2]. cbn [latest]. unfold vmax. destruct (ltb u v) eqn:L.
    + split; [right; now split|]. intros w [Hw|[_ ->]]; [|apply le_refl]. apply le_trans with u; [now apply H2|now apply ltb_true].
    + split; [now left|]. intros w [Hw|[_ ->]]; [now apply H2|now apply ltb_false].
  - destruct D as [D|D]; [|now contradiction D]. rewrite <- D in Hk'. cbn [latest] in *. split; [right; now split|]. intros w [Hw|[_ ->]]; [now apply Hk' in Hw|apply le_refl].
Qed.
Lemma merge_holds o : forall (P : K -> V -> Prop) m, msorted cmp m -> holds P m -> (forall a b w, cmp a b = Eq -> P a w -> P b w) ->
  holds (fun k w => P k w \/ exists k', In (k', w) o /\ cmp k' k = Eq) (merge_max cmp ltb m o).
Proof.
  induction o as [|[k v] o IH]; intros P m Hs H Hext.
  - cbn. intros k. specialize (H k). destruct (mfind cmp m k); cbn [latest] in *.
    + destruct H as [H1 H2]. split; [now left|]. intros w [Hw|(k' & [] & _)]. now apply H2.
    + intros w [Hw|(k' & [] & _)]. now apply (H w).
  - change (merge_max cmp ltb m ((k, v) :: o)) with (merge_max cmp ltb (include cmp ltb m k v) o).
    specialize (IH (fun k' w => P k' w \/ (cmp k k' = Eq /\ w = v)) (include cmp ltb m k v) (include_sorted m k v Hs) (include_holds P m k v Hs H Hext)).
    assert (forall a b w, cmp a b = Eq -> P a w \/ cmp k a = Eq /\ w = v -> P b w \/ cmp k b = Eq /\ w = v) as Hext'.
    { intros a b w E [Hw|[Hw ->]]; [left; now apply (Hext a)|right]. split; [|reflexivity]. now rewrite <- (cmp_eq_r cmp cmp_anti cmp_eq_l a b k E). }
    specialize (IH Hext'). intros j. specialize (IH j). destruct (mfind cmp _ j); cbn [latest] in *.
    + destruct IH as [H1 H2]. split.
      * destruct H1 as [[H1|[H1 ->]]|(k' & H1 & H3)]; [now left|right; exists k; split; [now left|exact H1]|right; exists k'; split; [now right|exact H3]].
      * intros w [Hw|(k' & [Hw|Hw] & E)]; apply H2; [now left; left|left; right; injection Hw as -> ->; now split|right; exists k'; now split].
    + intros w [Hw|(k' & [Hw|Hw] & E)]; apply (IH w); [now left; left|left; right; injection Hw as -> ->; now split|right; exists k'; now split].
Qed.
(** Adding the map of [Q] to the map of [P]. *)
Lemma merge_both (P Q : K -> V -> Prop) m o : msorted cmp m -> msorted cmp o -> holds P m -> holds Q o ->
  (forall a b w, cmp a b = Eq -> P a w -> P b w) -> holds (fun k w => P k w \/ Q k w) (merge_max cmp ltb m o).
Proof.
  intros Hm Ho HP HQ Hext k. pose proof (merge_holds o P m Hm HP Hext k) as H. specialize (HQ k) as Hk.
  assert (forall w, (exists k', In (k', w) o /\ cmp k' k = Eq) -> mfind cmp o k = Some w) as F.
  { intros w (k' & Hin & E). now apply (in_mfind cmp cmp_anti cmp_eq_l o k' w k). }
  destruct (mfind cmp (merge_max cmp ltb m o) k) as [v|]; cbn [latest] in *.
  - destruct H as [H1 H2]. split.
    + destruct H1 as [H1|H1]; [now left|right]. apply F in H1. rewrite H1 in Hk. now destruct Hk.
    + intros w [Hw|Hw]; [apply H2; now left|]. destruct (mfind cmp o k) as [u|] eqn:E; cbn [latest] in Hk; [|now apply Hk in Hw].
      destruct Hk as [_ Hk]. apply le_trans with u; [now apply Hk|]. apply H2. right. now apply (mfind_in cmp) in E.
  - intros w [Hw|Hw]; [apply (H w); now left|]. destruct (mfind cmp o k) as [u|] eqn:E; cbn [latest] in Hk; [|now apply Hk in Hw].
    apply (H u). right. now apply (mfind_in cmp) in E.
Qed.
Lemma holds_iff (P Q : K -> V -> Prop) m : (forall k v, P k v <-> Q k v) -> holds P m -> holds Q m.
Proof.
  intros E H k. specialize (H k). destruct (mfind cmp m k); cbn [latest] in *.
  - destruct H as [H1 H2]. split; [now apply E|]. intros w Hw. apply H2. now apply E.
  - intros v Hv. apply (H v). now apply E.
Qed.
End Merge.

Lemma Zcmp_anti (a b : Z) : Z.compare b a = CompOpp (Z.compare a b).
Proof. apply Z.compare_antisym. Qed.
Lemma Zcmp_trans (a b c : Z) : Z.compare a b = Lt -> Z.compare b c = Lt -> Z.compare a c = Lt.
Proof. rewrite !Z.compare_lt_iff. lia. Qed.
Lemma Zcmp_eq_l (a b c : Z) : Z.compare a b = Eq -> Z.compare a c = Z.compare b c.
Proof. intros H. apply Z.compare_eq in H. now subst. Qed.
Lemma when_ltb_true a b : when_ltb a b = true -> when_le a b.
Proof.
  destruct a as [a x], b as [b y]. unfold when_ltb, dt_ltb, when_le, date_ltb, date_eqb. cbn [fst snd]. intros H. apply orb_prop in H. destruct H as [H|H]; [left; lia|]. apply andb_prop in H. destruct H as [H1 H2].
  right. split; [lia|]. apply nltb_true in H2. lra.
Qed.
Lemma when_ltb_false a b : when_ltb a b = false -> when_le b a.
Proof.
  destruct a as [a x], b as [b y]. unfold when_ltb, dt_ltb, when_le, date_ltb, date_eqb. cbn [fst snd]. intros H. apply orb_false_elim in H. destruct H as [H1 H2]. apply andb_false_elim in H2.
  destruct (Z.eq_dec a b) as [E|E]; [|left; lia]. right. split; [lia|]. destruct H2 as [H2|H2]; [lia|]. now apply nltb_false in H2.
Qed.
Lemma when_le_refl a : when_le a a.
Proof. right. split; [reflexivity|lra]. Qed.
Lemma when_le_trans a b c : when_le a b -> when_le b c -> when_le a c.
Proof. unfold when_le. intros [H|[H H']] [G|[G G']]; [left; lia|left; lia|left; lia|right; split; [lia|lra]]. Qed.
Lemma when_le_anti a b : when_le a b -> when_le b a -> a = b.
Proof. unfold when_le. intros [H|[H H']] [G|[G G']]; try lia. destruct a, b; cbn [fst snd] in *. f_equal; [exact H|lra]. Qed.
Lemma Zltb_le a b : Z.ltb a b = true -> Z.le a b. Proof. lia. Qed.
Lemma Zltb_ge a b : Z.ltb a b = false -> Z.le b a. Proof. lia. Qed.

Definition good (ns : list need) (u : underlying) : Prop :=
  (msorted Z.compare (pay_ccys u) /\ holds Z.compare Z.le (fun c d => In (Pays c d) ns) (pay_ccys u)) /\
  (msorted ci_compare (indices u) /\ holds ci_compare when_le (fun i t => exists i', ci_compare i' i = Eq /\ In (Fixes i' t) ns) (indices u)) /\
  (msorted ci_compare (credits u) /\ holds ci_compare Z.le (fun n d => exists n', ci_compare n' n = Eq /\ In (Credit n' d) ns) (credits u)).
Lemma good_nothing : good [] nothing.
Proof. unfold good, holds. cbn. repeat split; try constructor; intros; intro; firstorder. Qed.
Lemma ci_ext (Q : str -> Prop) (a b : str) : ci_compare a b = Eq -> (exists i', ci_compare i' a = Eq /\ Q i') -> exists i', ci_compare i' b = Eq /\ Q i'.
Proof. intros E (i & H & HQ). exists i. split; [|exact HQ]. now rewrite <- (cmp_eq_r ci_compare ci_compare_antisym ci_compare_eq_l a b i E). Qed.
Lemma good_ccy ns u c d : good ns u -> good (ns ++ [Pays c d]) (include_ccy u c d).
Proof.
  intros ((S1 & H1) & (S2 & H2) & (S3 & H3)). unfold good. cbn [include_ccy pay_ccys indices credits]. split; [split|split; split]; try assumption.
  - now apply include_sorted; [apply Zcmp_anti|apply Zcmp_trans|].
  - eapply holds_iff; [|apply (include_holds Z.compare Z.ltb Z.le Zcmp_anti Zcmp_eq_l Zltb_le Zltb_ge Z.le_refl Z.le_trans _ _ c d S1 H1)].
    + intros k v. cbv beta. rewrite in_app_iff. cbn [In]. rewrite Z.compare_eq_iff. split; [intros [H|[-> ->]]; [now left|right; now left]|]. intros [H|[H|[]]]; [now left|right]. injection H as -> ->. now split.
    + intros a b w E. apply Z.compare_eq in E. now subst.
  - eapply holds_iff; [|exact H2]. intros k v. cbv beta. split; intros (i & E & Hi); exists i; (split; [exact E|]); [apply in_or_app; now left|]. apply in_app_or in Hi. destruct Hi as [Hi|[Hi|[]]]; [exact Hi|discriminate].
  - eapply holds_iff; [|exact H3]. intros k v. cbv beta. split; intros (i & E & Hi); exists i; (split; [exact E|]); [apply in_or_app; now left|]. apply in_app_or in Hi. destruct Hi as [Hi|[Hi|[]]]; [exact Hi|discriminate].
Qed.
Lemma good_index ns u c d : good ns u -> good (ns ++ [Fixes c d]) (include_index u c d).
Proof.
  intros ((S1 & H1) & (S2 & H2) & (S3 & H3)). unfold good. cbn [include_index pay_ccys indices credits]. split; [split|split; split]; try assumption.
  - eapply holds_iff; [|exact H1]. intros k v. cbv beta. rewrite in_app_iff. cbn [In]. split; [now left|]. intros [Hi|[Hi|[]]]; [exact Hi|discriminate].
  - now apply include_sorted; [apply ci_compare_antisym|intros a b e; apply ci_compare_lt_trans|].
  - eapply holds_iff; [|apply (include_holds ci_compare when_ltb when_le ci_compare_antisym ci_compare_eq_l when_ltb_true when_ltb_false when_le_refl when_le_trans _ _ c d S2 H2)].
    + intros k v. cbv beta. split.
      * intros [(i & E & Hi)|[E ->]]; [exists i|exists c]; (split; [exact E|]); apply in_or_app; [now left|right; now left].
      * intros (i & E & Hi). apply in_app_or in Hi. destruct Hi as [Hi|[Hi|[]]]; [left; exists i; now split|right]. injection Hi as -> ->. now split.
    + intros a b w. apply (ci_ext (fun i => In (Fixes i w) ns)).
  - eapply holds_iff; [|exact H3]. intros k v. cbv beta. split; intros (i & E & Hi); exists i; (split; [exact E|]); [apply in_or_app; now left|]. apply in_app_or in Hi. destruct Hi as [Hi|[Hi|[]]]; [exact Hi|discriminate].
Qed.
Lemma good_credit ns u c d : good ns u -> good (ns ++ [Credit c d]) (include_credit u c d).
Proof.
  intros ((S1 & H1) & (S2 & H2) & (S3 & H3)). unfold good. cbn [include_credit pay_ccys indices credits]. split; [split|split; split]; try assumption.
  - eapply holds_iff; [|exact H1]. intros k v. cbv beta. rewrite in_app_iff. cbn [In]. split; [now left|]. intros [Hi|[Hi|[]]]; [exact Hi|discriminate].
  - eapply holds_iff; [|exact H2]. intros k v. cbv beta. split; intros (i & E & Hi); exists i; (split; [exact E|]); [apply in_or_app; now left|]. apply in_app_or in Hi. destruct Hi as [Hi|[Hi|[]]]; [exact Hi|discriminate].
  - now apply include_sorted; [apply ci_compare_antisym|intros a b e; apply ci_compare_lt_trans|].
  - eapply holds_iff; [|apply (include_holds ci_compare Z.ltb Z.le ci_compare_antisym ci_compare_eq_l Zltb_le Zltb_ge Z.le_refl Z.le_trans _ _ c d S3 H3)].
    + intros k v. cbv beta. split.
      * intros [(i & E & Hi)|[E ->]]; [exists i|exists c]; (split; [exact E|]); apply in_or_app; [now left|right; now left].
      * intros (i & E & Hi). apply in_app_or in Hi. destruct Hi as [Hi|[Hi|[]]]; [left; exists i; now split|right]. injection Hi as -> ->. now split.
    + intros a b w. apply (ci_ext (fun i => In (Credit i w) ns)).
Qed.
Lemma good_add ns ms u v : good ns u -> good ms v -> good (ns ++ ms) (add_to u v).
Proof.
  intros ((S1 & H1) & (S2 & H2) & (S3 & H3)) ((T1 & G1) & (T2 & G2) & (T3 & G3)). unfold good. cbn [add_to pay_ccys indices credits]. split; [split|split; split].
  - now apply merge_sorted; [apply Zcmp_anti|apply Zcmp_trans|].
  - eapply holds_iff; [|apply (merge_both Z.compare Z.ltb Z.le Zcmp_anti Zcmp_trans Zcmp_eq_l Zltb_le Zltb_ge Z.le_refl Z.le_trans _ _ _ _ S1 T1 H1 G1)].
    + intros k w. cbv beta. rewrite in_app_iff. tauto.
    + intros a b w E. apply Z.compare_eq in E. now subst.
  - now apply merge_sorted; [apply ci_compare_antisym|intros a b e; apply ci_compare_lt_trans|].
  - eapply holds_iff; [|apply (merge_both ci_compare when_ltb when_le ci_compare_antisym (fun a b e => ci_compare_lt_trans a b e) ci_compare_eq_l when_ltb_true when_ltb_false when_le_refl when_le_trans _ _ _ _ S2 T2 H2 G2)].
    + intros k w. cbv beta. split.
      * intros [(i & E & Hi)|(i & E & Hi)]; exists i; (split; [exact E|]); apply in_or_app; tauto.
      * intros (i & E & Hi). apply in_app_or in Hi. destruct Hi as [Hi|Hi]; [left|right]; exists i; now split.
    + intros a b w. apply (ci_ext (fun i => In (Fixes i w) ns)).
  - now apply merge_sorted; [apply ci_compare_antisym|intros a b e; apply ci_compare_lt_trans|].
  - eapply holds_iff; [|apply (merge_both ci_compare Z.ltb Z.le ci_compare_antisym (fun a b e => ci_compare_lt_trans a b e) ci_compare_eq_l Zltb_le Zltb_ge Z.le_refl Z.le_trans _ _ _ _ S3 T3 H3 G3)].
    + intros k w. cbv beta. split.
      * intros [(i & E & Hi)|(i & E & Hi)]; exists i; (split; [exact E|]); apply in_or_app; tauto.
      * intros (i & E & Hi). apply in_app_or in Hi. destruct Hi as [Hi|Hi]; [left|right]; exists i; now split.
    + intros a b w. apply (ci_ext (fun i => In (Credit i w) ns)).
Qed.
Lemma build_good b : good (needs b) (build b).
Proof.
  induction b as [|b IH n|b IH c IH']; cbn [needs build]; [apply good_nothing| |now apply good_add].
  destruct n; [now apply good_ccy|now apply good_index|now apply good_credit].
Qed.
