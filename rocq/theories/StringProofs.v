From Coq Require Import String Ascii ZArith List Bool Lia ZifyBool.
From Verif Require Import Base StringModel StringSpec.
Import ListNotations.
Open Scope Z_scope.
Ltac Zify.zify_post_hook ::= Z.div_mod_to_equations.

Lemma code_range c : 0 <= code c < 256.
Proof.
  unfold code. pose proof (N_ascii_bounded c). lia.
Qed.
Lemma code_inj c d : code c = code d -> c = d.
Proof.
  unfold code. intros H. rewrite <- (ascii_N_embedding c), <- (ascii_N_embedding d). f_equal. lia.
Qed.
Lemma code_chr z : 0 <= z < 256 -> code (chr z) = z.
Proof. intros H. unfold code, chr. rewrite N_ascii_embedding; lia. Qed.

Definition fold_code (x : Z) : Z :=
  (let l := x mod 128 in if l <? 97 then l else if l <? 123 then l - 32 else l - 26) + (if 128 <=? x then -128 else 0).
Lemma sort_val_fold c : sort_val c = fold_code (code c).
Proof.
  destruct c as [b0 b1 b2 b3 b4 b5 b6 b7].
  destruct b0, b1, b2, b3, b4, b5, b6, b7; reflexivity.
Qed.
Lemma fold_same x y : 0 <= x < 256 -> 0 <= y < 256 -> (fold_code x = fold_code y <->
  (x = y \/ (65 <= x mod 128 <= 90 /\ y = x + 32) \/ (65 <= y mod 128 <= 90 /\ x = y + 32))).
Proof.
  intros Hx Hy. unfold fold_code. cbv zeta.
  destruct (x mod 128 <? 97) eqn:E1; destruct (y mod 128 <? 97) eqn:E2;
  destruct (x mod 128 <? 123) eqn:E3; destruct (y mod 128 <? 123) eqn:E4;
  destruct (128 <=? x) eqn:E5; destruct (128 <=? y) eqn:E6; lia.
Qed.
Lemma ceq_same c d : ceq c d = true <-> same_letter c d.
Proof.
  unfold ceq, same_letter. rewrite !sort_val_fold, Z.eqb_eq. apply fold_same; apply code_range.
Qed.

Lemma ci_compare_eq a : forall b, ci_compare a b = Eq <-> same_up_to_case a b.
Proof.
  induction a as [|x a IH]; intros [|y b]; cbn [ci_compare]; split; intros H; try (inversion H; fail); try constructor.
  - unfold clt in H. destruct (sort_val x <? sort_val y) eqn:E; [discriminate|].
    destruct (sort_val y <? sort_val x) eqn:E2; [discriminate|]. apply ceq_same. unfold ceq. lia.
  - unfold clt in H. destruct (sort_val x <? sort_val y) eqn:E; [discriminate|].
    destruct (sort_val y <? sort_val x) eqn:E2; [discriminate|]. now apply IH.
  - inversion H as [|? ? ? ? H1 H2]; subst. apply ceq_same in H1. unfold ceq in H1. unfold clt.
    replace (sort_val x <? sort_val y) with false by lia. replace (sort_val y <? sort_val x) with false by lia. now apply IH.
Qed.
Lemma ci_eqb_iff a b : ci_eqb a b = true <-> same_up_to_case a b.
Proof. rewrite <- ci_compare_eq. unfold ci_eqb. destruct (ci_compare a b); split; congruence. Qed.
Lemma ci_compare_refl a : ci_compare a a = Eq.
Proof. induction a; cbn; [reflexivity|]. unfold clt. now rewrite Z.ltb_irrefl. Qed.
Lemma ci_compare_antisym a : forall b, ci_compare b a = CompOpp (ci_compare a b).
Proof.
  induction a as [|x a IH]; intros [|y b]; cbn [ci_compare]; try reflexivity.
  unfold clt. destruct (sort_val x <? sort_val y) eqn:E; destruct (sort_val y <? sort_val x) eqn:E2; try reflexivity; try lia.
  apply IH.
Qed.
Lemma ci_compare_lt_trans a : forall b c, ci_compare a b = Lt -> ci_compare b c = Lt -> ci_compare a c = Lt.
Proof.
  induction a as [|x a IH]; intros [|y b] [|z c]; cbn [ci_compare]; try congruence.
  unfold clt. intros H1 H2.
  destruct (sort_val x <? sort_val y) eqn:E1; destruct (sort_val y <? sort_val x) eqn:E2;
  destruct (sort_val y <? sort_val z) eqn:E3; destruct (sort_val z <? sort_val y) eqn:E4; try congruence; try lia;
  destruct (sort_val x <? sort_val z) eqn:E5; try reflexivity; try lia.
  destruct (sort_val z <? sort_val x) eqn:E6; [lia|]. eauto.
Qed.
Lemma ci_compare_eq_l a : forall b c, ci_compare a b = Eq -> ci_compare a c = ci_compare b c.
Proof.
  induction a as [|x a IH]; intros [|y b] [|z c]; cbn [ci_compare]; try congruence.
  - unfold clt. destruct (sort_val x <? sort_val y) eqn:E1; [discriminate|];
    destruct (sort_val y <? sort_val x) eqn:E2; [discriminate|]. intros H.
    replace (sort_val x) with (sort_val y) by lia.
    destruct (sort_val y <? sort_val z); destruct (sort_val z <? sort_val y); try reflexivity; auto.
Qed.

Lemma ci_eq_sym a b : ci_eqb a b = ci_eqb b a.
Proof. unfold ci_eqb. rewrite (ci_compare_antisym a b). now destruct (ci_compare a b). Qed.
Lemma ci_eqb_refl a : ci_eqb a a = true.
Proof. unfold ci_eqb. now rewrite ci_compare_refl. Qed.
Lemma ci_eqb_trans a b c : ci_eqb a b = true -> ci_eqb b c = true -> ci_eqb a c = true.
Proof.
  unfold ci_eqb. destruct (ci_compare a b) eqn:E; try discriminate. rewrite (ci_compare_eq_l a b c E). auto.
Qed.
Lemma ci_total a b : (ci_ltb a b = true /\ ci_eqb a b = false /\ ci_ltb b a = false) \/
  (ci_ltb a b = false /\ ci_eqb a b = true /\ ci_ltb b a = false) \/
  (ci_ltb a b = false /\ ci_eqb a b = false /\ ci_ltb b a = true).
Proof. unfold ci_ltb, ci_eqb. rewrite (ci_compare_antisym a b). destruct (ci_compare a b); cbn; auto 6. Qed.
Lemma ci_ltb_trans a b c : ci_ltb a b = true -> ci_ltb b c = true -> ci_ltb a c = true.
Proof.
  unfold ci_ltb. destruct (ci_compare a b) eqn:E; try discriminate. destruct (ci_compare b c) eqn:E2; try discriminate.
  now rewrite (ci_compare_lt_trans _ _ _ E E2).
Qed.
Lemma ci_ltb_eq a a' b b' : ci_eqb a a' = true -> ci_eqb b b' = true -> ci_ltb a b = ci_ltb a' b'.
Proof.
  unfold ci_eqb, ci_ltb. destruct (ci_compare a a') eqn:E; try discriminate. destruct (ci_compare b b') eqn:E2; try discriminate.
  intros _ _. rewrite (ci_compare_eq_l _ _ b E). rewrite (ci_compare_antisym b a'), (ci_compare_antisym b' a').
  now rewrite (ci_compare_eq_l _ _ a' E2).
Qed.

(** * Split *)
Lemma cut_sound sep s a r : cut sep s = (a, r) -> ~ In sep a /\ s = a ++ match r with None => [] | Some t => sep :: t end.
Proof.
  revert a r. induction s as [|c s IH]; intros a r; cbn [cut].
  - intros H; injection H as <- <-. cbn. tauto.
  - destruct (Ascii.eqb c sep) eqn:E.
    + intros H; injection H as <- <-. apply Ascii.eqb_eq in E as ->. cbn; tauto.
    + destruct (cut sep s) as [a' r'] eqn:Ec. intros H; injection H as <- <-. destruct (IH _ _ eq_refl) as [H1 H2].
      apply Ascii.eqb_neq in E. split; [cbn; intros [H|H]; tauto |]. cbn. now f_equal.
Qed.
Lemma cut_app sep a t : ~ In sep a -> cut sep (a ++ sep :: t) = (a, Some t).
Proof.
  induction a as [|c a IH]; cbn [app cut]; intros H.
  - now rewrite Ascii.eqb_refl.
  - assert (Hn : Ascii.eqb c sep = false) by (apply Ascii.eqb_neq; intros ->; apply H; now left).
    rewrite Hn, IH; [reflexivity | intros Hi; apply H; now right].
Qed.
Lemma cut_none sep a : ~ In sep a -> cut sep a = (a, None).
Proof.
  induction a as [|c a IH]; cbn [cut]; intros H; [reflexivity|].
  assert (Hn : Ascii.eqb c sep = false) by (apply Ascii.eqb_neq; intros ->; apply H; now left).
  rewrite Hn, IH; [reflexivity | intros Hi; apply H; now right].
Qed.

Lemma split_fuel_enough sep k : forall f g s, (length s < f)%nat -> (length s < g)%nat ->
  split_fuel f s sep k = split_fuel g s sep k.
Proof.
  induction f as [|f IH]; intros g s Hf Hg; [lia|]. destruct g as [|g]; [lia|].
  cbn [split_fuel]. destruct s as [|c s]; [reflexivity|].
  destruct (cut sep (c :: s)) as [a r] eqn:E. destruct r as [r|]; [|reflexivity].
  apply cut_sound in E as [_ E]. apply (f_equal (@length ascii)) in E. rewrite app_length in E. cbn [length] in *.
  rewrite (IH g r) by lia. reflexivity.
Qed.
Lemma split_step sep k s : s <> [] -> split s sep k =
  let '(a, r) := cut sep s in
  let t := match r with None => [] | Some r => split r sep k end in
  match a with [] => if k then [] :: t else t | _ => a :: t end.
Proof.
  intros H. unfold split at 1. cbn [split_fuel]. destruct s as [|c s]; [congruence|].
  destruct (cut sep (c :: s)) as [a r] eqn:E. destruct r as [r|]; [|reflexivity].
  apply cut_sound in E as [_ E]. apply (f_equal (@length ascii)) in E. rewrite app_length in E. cbn [length] in *.
  unfold split. rewrite (split_fuel_enough sep k (S (length s)) (S (length r)) r) by lia. reflexivity.
Qed.

Lemma split_ind sep (P : str -> Prop) : P [] ->
  (forall s a r, s <> [] -> cut sep s = (a, r) -> match r with None => True | Some t => P t end -> P s) -> forall s, P s.
Proof.
  intros H0 HS s. remember (length s) as n eqn:E. revert s E. induction n as [n IH] using lt_wf_ind. intros s ->.
  destruct s as [|c s]; [assumption|]. destruct (cut sep (c :: s)) as [a r] eqn:Ec.
  apply (HS _ a r); [discriminate | assumption |]. destruct r as [r|]; [|exact I].
  apply (IH (length r)); [|reflexivity]. apply cut_sound in Ec as [_ Ec]. apply (f_equal (@length ascii)) in Ec.
  rewrite app_length in Ec. cbn [length] in *. lia.
Qed.

Lemma split_join sep k l : l <> [] -> Forall (fun p => p <> [] /\ ~ In sep p) l -> split (join sep l) sep k = l.
Proof.
  induction l as [|a l IH]; [congruence|]. intros _ H. inversion H as [|? ? [Ha Hs] Hl]; subst.
  destruct l as [|b l].
  - cbn [join]. rewrite split_step by assumption. rewrite cut_none by assumption. destruct a; [congruence|reflexivity].
  - change (join sep (a :: b :: l)) with (a ++ sep :: join sep (b :: l)).
    rewrite split_step by (destruct a; discriminate). rewrite cut_app by assumption. cbv zeta.
    rewrite IH by (congruence || assumption). destruct a; [congruence|reflexivity].
Qed.

Lemma split_pieces sep s : let l := split s sep true in
  Forall (fun p => ~ In sep p) l /\
  (s = join sep l \/ (l <> [] /\ s = join sep l ++ [sep])).
Proof.
  induction s as [|s a r Hs Hc IH] using (split_ind sep).
  - cbn. auto.
  - cbv zeta in *. assert (E : split s sep true = a :: match r with None => [] | Some r => split r sep true end).
    { rewrite split_step by assumption. rewrite Hc. now destruct a. }
    apply cut_sound in Hc as [Hc Hd]. rewrite E. destruct r as [r|].
    + destruct IH as [IH1 IH2]. split; [now constructor|].
      destruct (split r sep true) as [|b l] eqn:El.
      * right. split; [discriminate|]. destruct IH2 as [->|[IH2 _]]; [|congruence]. cbn. exact Hd.
      * change (join sep (a :: b :: l)) with (a ++ sep :: join sep (b :: l)). destruct IH2 as [IH2|[_ IH2]].
        -- left. now rewrite <- IH2.
        -- right. split; [discriminate|]. rewrite Hd, IH2. rewrite <- app_assoc. reflexivity.
    + rewrite app_nil_r in Hd. subst a. destruct s; [congruence|]. split; [repeat constructor; assumption|]. left; reflexivity.
Qed.
Lemma split_no_empties sep s : split s sep false = filter (fun p => match p with [] => false | _ => true end) (split s sep true).
Proof.
  induction s as [|s a r Hs Hc IH] using (split_ind sep); [reflexivity|].
  rewrite !split_step by assumption. rewrite Hc. cbv zeta.
  destruct r as [r|]; destruct a; cbn [filter]; rewrite ?IH; reflexivity.
Qed.

Lemma accumulate_join sep k l : Forall (fun p => p <> []) l -> accumulate l [sep] k = join sep l.
Proof.
  destruct l as [|a l]; [reflexivity|]. cbn [accumulate]. intros H. inversion H as [|? ? Ha Hl]; subst. clear H.
  revert a Ha. induction l as [|b l IH]; intros a Ha; [reflexivity|]. inversion Hl as [|? ? Hb Hl']; subst.
  cbn [fold_left]. assert (E : joiner [sep] k a b = a ++ sep :: b).
  { unfold joiner. destruct a; [congruence|]. destruct b; [congruence|]. now destruct k. }
  rewrite E, IH; [| assumption | destruct a; discriminate].
  destruct l; cbn [join]; rewrite <- ?app_assoc; reflexivity.
Qed.
Lemma join_then_split sep k k' l : l <> [] -> Forall (fun p => p <> [] /\ ~ In sep p) l ->
  split (accumulate l [sep] k') sep k = l.
Proof.
  intros Hn H. rewrite accumulate_join; [now apply split_join|]. eapply Forall_impl; [|exact H]. cbn; tauto.
Qed.

(** * Condensed / Equivalent *)
Lemma is_fluff_iff c : is_fluff c = true <-> ignorable c.
Proof.
  unfold is_fluff, ignorable. rewrite !orb_true_iff, !Z.eqb_eq. split.
  - intros [[H|H]|H]; [left|right;left|right;right]; apply code_inj; rewrite H; reflexivity.
  - intros [->|[->| ->]]; auto.
Qed.
Lemma toupper_facts c : code c < 128 -> code (toupper c) < 128 /\ is_fluff (toupper c) = is_fluff c /\
  same_letter c (toupper c) /\ toupper (toupper c) = toupper c.
Proof.
  intros H. pose proof (code_range c) as Hr. unfold toupper at 1 2 3 4.
  destruct ((97 <=? code c) && (code c <=? 122)) eqn:E.
  - assert (Hc : code (chr (code c - 32)) = code c - 32) by (apply code_chr; lia).
    unfold is_fluff, same_letter. rewrite Hc. repeat split; try lia.
    unfold toupper. rewrite E, Hc. destruct ((97 <=? code c - 32) && (code c - 32 <=? 122)) eqn:E2; [lia|reflexivity].
  - unfold same_letter. repeat split; auto. unfold toupper. now rewrite !E.
Qed.
Lemma condensed_spec s : ascii_only s -> exists t, condensed s = Ok (map toupper t) /\ strip s t.
Proof.
  induction s as [|c s IH]; intros H.
  - exists []. split; constructor.
  - inversion H as [|? ? Hc Hs]; subst. destruct (IH Hs) as [t [Ht Hst]]. cbn [condensed].
    destruct (is_fluff c) eqn:E.
    + exists t. split; [assumption|]. constructor; [now apply is_fluff_iff | assumption].
    + replace (128 <=? code c) with false by lia. rewrite Ht. exists (c :: t). split; [reflexivity|].
      constructor; [|assumption]. intros Hi. apply is_fluff_iff in Hi. congruence.
Qed.
Lemma strip_fun s : forall t t', strip s t -> strip s t' -> t = t'.
Proof.
  induction s as [|c s IH]; intros t t' H H'; inversion H; inversion H'; subst; try congruence; try tauto; auto.
  f_equal. auto.
Qed.
Lemma strip_clean s t : strip s t -> Forall (fun c => is_fluff c = false) t.
Proof.
  induction 1; auto. constructor; [|assumption]. destruct (is_fluff c) eqn:E; [|reflexivity].
  apply is_fluff_iff in E. tauto.
Qed.
Lemma strip_ascii s t : strip s t -> ascii_only s -> ascii_only t.
Proof. induction 1; intros Ha; inversion Ha; subst; auto. constructor; [assumption | now apply IHstrip]. Qed.
Lemma condensed_clean t : ascii_only t -> Forall (fun c => is_fluff c = false) t -> condensed t = Ok (map toupper t).
Proof.
  induction t as [|c t IH]; intros Ha Hf; [reflexivity|]. inversion Ha; inversion Hf; subst. cbn [condensed map].
  replace (is_fluff c) with false by congruence. replace (128 <=? code c) with false by lia. now rewrite IH.
Qed.
Lemma condensed_idempotent s t : condensed s = Ok t -> condensed t = Ok t.
Proof.
  revert t. induction s as [|c s IH]; intros t; cbn [condensed].
  - intros H; injection H as <-; reflexivity.
  - destruct (is_fluff c) eqn:E; [apply IH|]. destruct (128 <=? code c) eqn:E2; [discriminate|].
    destruct (condensed s) as [u| | |]; cbn [obind]; try discriminate. intros H; injection H as <-.
    cbn [condensed]. destruct (toupper_facts c ltac:(lia)) as (H1 & H2 & H3 & H4). rewrite H2, E.
    replace (128 <=? code (toupper c)) with false by lia. rewrite (IH u eq_refl). cbn [obind]. now rewrite H4.
Qed.
Lemma equivalent_spec p : forall q, ascii_only p -> exists b t, equivalent p q = Ok b /\ strip p t /\
  (b = true <-> same_up_to_case t q).
Proof.
  induction p as [|c p IH]; intros q H.
  - exists (match q with [] => true | _ => false end), []. repeat split; [constructor| |].
    + destruct q; [constructor | discriminate].
    + intros Hs. now inversion Hs.
  - inversion H as [|? ? Hc Hp]; subst. cbn [equivalent]. replace (128 <=? code c) with false by lia.
    destruct (is_fluff c) eqn:E.
    + destruct (IH q Hp) as (b & t & H1 & H2 & H3). exists b, t. repeat split; auto; try apply H3.
      constructor; [now apply is_fluff_iff | assumption].
    + assert (Hn : ~ ignorable c) by (intros Hi; apply is_fluff_iff in Hi; congruence).
      destruct q as [|d q].
      * destruct (IH [] Hp) as (b & t & H1 & H2 & H3). exists false, (c :: t). repeat split; [now constructor| discriminate |].
        intros Hs; inversion Hs.
      * destruct (IH q Hp) as (b & t & H1 & H2 & H3). destruct (ceq c d) eqn:Ec.
        -- exists b, (c :: t). split; [assumption|]. split; [now constructor|]. rewrite H3. split.
           ++ intros Hs. constructor; [now apply ceq_same | assumption].
           ++ intros Hs; now inversion Hs.
        -- exists false, (c :: t). repeat split; [now constructor | discriminate |]. intros Hs; inversion Hs as [|? ? ? ? Hx]; subst.
           apply ceq_same in Hx. congruence.
Qed.
Lemma same_refl a : same_up_to_case a a.
Proof. induction a; constructor; [now left | assumption]. Qed.
Lemma same_sym a b : same_up_to_case a b -> same_up_to_case b a.
Proof. intros H. apply ci_eqb_iff. rewrite ci_eq_sym. now apply ci_eqb_iff. Qed.
Lemma same_trans a b c : same_up_to_case a b -> same_up_to_case b c -> same_up_to_case a c.
Proof. rewrite <- !ci_eqb_iff. apply ci_eqb_trans. Qed.
Lemma same_map_toupper t : ascii_only t -> same_up_to_case t (map toupper t).
Proof. induction 1; constructor; [apply toupper_facts; assumption | assumption]. Qed.
Lemma toupper_same c d : code c < 128 -> code d < 128 -> (same_letter c d <-> toupper c = toupper d).
Proof.
  intros Hc Hd. pose proof (code_range c); pose proof (code_range d). unfold same_letter, toupper.
  destruct ((97 <=? code c) && (code c <=? 122)) eqn:E1; destruct ((97 <=? code d) && (code d <=? 122)) eqn:E2; split; intros Hx.
  - f_equal; lia.
  - apply (f_equal code) in Hx. rewrite !code_chr in Hx by lia. lia.
  - apply code_inj. rewrite code_chr by lia. lia.
  - apply (f_equal code) in Hx. rewrite !code_chr in Hx by lia. lia.
  - apply code_inj. rewrite code_chr by lia. lia.
  - apply (f_equal code) in Hx. rewrite !code_chr in Hx by lia. lia.
  - apply code_inj. lia.
  - subst. lia.
Qed.
Lemma map_toupper_same t : forall t', ascii_only t -> ascii_only t' -> (map toupper t = map toupper t' <-> same_up_to_case t t').
Proof.
  induction t as [|c t IH]; intros [|d t'] H H'; cbn [map]; split; intros Hx; try discriminate; try constructor; try (inversion Hx; fail);
  inversion H; inversion H'; subst.
  - injection Hx as H0 H1. now apply toupper_same.
  - injection Hx as H0 H1. now apply IH.
  - inversion Hx; subst. f_equal; [now apply toupper_same | now apply IH].
Qed.
Lemma condensed_equal_iff a b ta tb : ascii_only a -> ascii_only b -> strip a ta -> strip b tb ->
  (condensed a = condensed b <-> same_up_to_case ta tb).
Proof.
  intros Ha Hb Hta Htb. destruct (condensed_spec a Ha) as (u & Hu & Hsu). destruct (condensed_spec b Hb) as (v & Hv & Hsv).
  rewrite (strip_fun _ _ _ Hta Hsu), (strip_fun _ _ _ Htb Hsv), Hu, Hv.
  rewrite <- map_toupper_same by eauto using strip_ascii. split; congruence.
Qed.
Lemma equivalent_condensed a b t : ascii_only a -> ascii_only b -> condensed b = Ok t ->
  (equivalent a t = Ok true <-> condensed a = condensed b).
Proof.
  intros Ha Hb Ht. destruct (condensed_spec b Hb) as (v & Hv & Hsv). rewrite Hv in Ht. injection Ht as <-.
  destruct (equivalent_spec a (map toupper v) Ha) as (r & u & Hr & Hsu & Hiff). rewrite Hr.
  rewrite (condensed_equal_iff a b u v) by assumption. transitivity (r = true); [split; congruence|]. rewrite Hiff.
  pose proof (same_map_toupper v (strip_ascii _ _ Hsv Hb)) as Hs. split; intros H.
  - eapply same_trans; [exact H|]. now apply same_sym.
  - eapply same_trans; eassumption.
Qed.

(** * NextName *)
(** shortlex order on reversed names, comparing sort values *)
Fixpoint rlt (a b : str) : Prop :=
  match a, b with
  | [], [] => False
  | [], _ :: _ => True
  | _ :: _, [] => False
  | x :: a', y :: b' => rlt a' b' \/ (Forall2 (fun c d => sort_val c = sort_val d) a' b' /\ sort_val x < sort_val y)
  end.
Notation same_val := (Forall2 (fun c d : ascii => sort_val c = sort_val d)).
Lemma sv_sym a b : same_val a b -> same_val b a. Proof. induction 1; constructor; congruence. Qed.
Lemma sv_trans a b c : same_val a b -> same_val b c -> same_val a c.
Proof. intros H; revert c. induction H; intros c Hc; inversion Hc; subst; constructor; [congruence|auto]. Qed.
Lemma sv_refl a : same_val a a. Proof. induction a; constructor; auto. Qed.
Lemma rlt_sv_l a : forall a' b, same_val a a' -> rlt a b -> rlt a' b.
Proof.
  induction a as [|x a IH]; intros a' b Hs H; inversion Hs; subst; destruct b as [|w b]; cbn in *; auto.
  destruct H as [H|[Ha Hb]]; [left; eauto | right; split; [eauto using sv_trans, sv_sym | congruence]].
Qed.
Lemma rlt_sv_r a : forall b c, same_val b c -> rlt a b -> rlt a c.
Proof.
  induction a as [|x a IH]; intros b c Hs H; inversion Hs; subst; cbn in *; auto.
  destruct H as [H|[Ha Hb]]; [left; eauto | right; split; [eauto using sv_trans | congruence]].
Qed.
Lemma rlt_trans a : forall b c, rlt a b -> rlt b c -> rlt a c.
Proof.
  induction a as [|x a IH]; intros [|y b] [|z c]; cbn; try tauto.
  intros [H1|[H1 H2]] [H3|[H3 H4]].
  - left; eauto.
  - left. eapply rlt_sv_r; eassumption.
  - left. eapply rlt_sv_l; [apply sv_sym; eassumption | assumption].
  - right. split; [eauto using sv_trans | lia].
Qed.
Lemma rlt_not_same a : forall b, rlt a b -> ~ same_val a b.
Proof.
  induction a as [|x a IH]; intros [|y b] H Hs; cbn in *; try tauto; inversion Hs; subst.
  destruct H as [H|[Ha Hb]]; [eapply IH; eassumption | lia].
Qed.
Lemma sort_val_digit c : 48 <= code c <= 57 -> sort_val c = code c.
Proof. intros H. rewrite sort_val_fold. unfold fold_code. cbv zeta. replace (code c mod 128 <? 97) with true by lia. replace (128 <=? code c) with false by lia. lia. Qed.
Lemma rlt_cons1 (x : ascii) a : rlt a (x :: a).
Proof. revert x. induction a as [|c a IH]; intros x; cbn; [exact I|]. left. apply IH. Qed.
Lemma next_name_rev_lt r : rlt r (next_name_rev r).
Proof.
  induction r as [|c p IH]; [exact I|]. cbn [next_name_rev].
  destruct ((48 <=? code c) && (code c <=? 56)) eqn:E1.
  - cbn. right. split; [apply sv_refl|]. rewrite !sort_val_digit; rewrite ?code_chr; lia.
  - destruct (code c =? 57) eqn:E2.
    + cbn. left. exact IH.
    + apply rlt_cons1.
Qed.
Lemma next_name_iter_lt s n k : (n < k)%nat -> rlt (rev (iter n next_name s)) (rev (iter k next_name s)).
Proof.
  induction 1 as [|k Hk IH]; cbn [iter].
  - unfold next_name at 2. rewrite rev_involutive. apply next_name_rev_lt.
  - eapply rlt_trans; [exact IH|]. unfold next_name at 2. rewrite rev_involutive. apply next_name_rev_lt.
Qed.
Lemma sv_rev a b : same_val a b -> same_val (rev a) (rev b).
Proof.
  induction 1; cbn; [constructor|]. apply Forall2_app; [assumption | repeat constructor; assumption].
Qed.
Lemma next_name_fresh s n k : n <> k -> ~ same_up_to_case (iter n next_name s) (iter k next_name s).
Proof.
  assert (H : forall n k, (n < k)%nat -> ~ same_up_to_case (iter n next_name s) (iter k next_name s)).
  { intros i j Hij Hs. apply (rlt_not_same _ _ (next_name_iter_lt s i j Hij)). apply sv_rev.
    induction Hs as [|c d u v Hcd Huv IH]; constructor; [apply ceq_same in Hcd; unfold ceq in Hcd; lia | assumption]. }
  intros Hnk. destruct (Nat.lt_ge_cases n k) as [Hl|Hl]; [now apply H|]. intros Hs. apply same_sym in Hs. revert Hs. apply H. lia.
Qed.
Lemma next_name_prefix s : exists p q d, s = p ++ q /\ next_name s = p ++ d /\ d <> [] /\
  Forall (fun c => 48 <= code c <= 57) q /\ Forall (fun c => 48 <= code c <= 57) d.
Proof.
  unfold next_name. assert (H : forall r, exists p q d, r = rev q ++ p /\ next_name_rev r = rev d ++ p /\ d <> [] /\
    Forall (fun c => 48 <= code c <= 57) q /\ Forall (fun c => 48 <= code c <= 57) d).
  { induction r as [|c r IH].
    - exists [], [], ["0"%char]. repeat split; try discriminate; repeat constructor; cbn; discriminate.
    - cbn [next_name_rev]. destruct ((48 <=? code c) && (code c <=? 56)) eqn:E1.
      + exists r, [c], [chr (code c + 1)]. repeat split; try discriminate; repeat constructor; rewrite ?code_chr; lia.
      + destruct (code c =? 57) eqn:E2.
        * destruct IH as (p & q & d & H1 & H2 & H3 & H4 & H5). exists p, (q ++ [c]), (d ++ ["0"%char]).
          rewrite !rev_app_distr. cbn. rewrite <- H1, <- H2. repeat split; try (destruct d; discriminate); apply Forall_app; split; auto; repeat constructor; cbn; lia.
        * exists (c :: r), [], ["1"%char]. repeat split; try discriminate; repeat constructor; cbn; discriminate. }
  destruct (H (rev s)) as (p & q & d & H1 & H2 & H3 & H4 & H5). exists (rev p), q, d.
  rewrite H2, rev_app_distr, rev_involutive. repeat split; auto.
  rewrite <- (rev_involutive s), H1, rev_app_distr, rev_involutive. reflexivity.
Qed.
