(** C84: discount curves on bases. *)
From Coq Require Import Reals List ZArith Bool Arith Lia Lra.
From Verif Require Import Base StringModel CurveModel YieldModel YieldSpec YieldProofs.
Import ListNotations.
Open Scope nat_scope.

(** polling a curve gives the curve and its line of bases, each once, after what was there; polling for handles gives a handle to
    each base, and leaves other entries *)
Theorem C84_poll : forall h a, made h -> rates h a <> None -> exists l, line h a l /\ NoDup l /\
  (forall all, polled h a all = Some (all ++ l)) /\
  (forall m, exists m', polled_handles h a m = Some m' /\
     (forall b, In b (tl l) -> entry m' (Some b) = Some (Some b)) /\ forall k, (forall b, k = Some b -> ~ In b (tl l)) -> entry m' k = entry m k).
Proof.
  intros h a Hm Hr. pose proof (made_sound h Hm) as Hs. unfold rates in Hr. destruct (nth_error h a) as [[n f b|]|] eqn:E; try congruence. destruct (line_exists h Hs a n f b E) as [l Hl]. exists l.
  split; [exact Hl|]. split; [eapply line_nodup; eauto|]. split; [intros all; unfold polled; apply poll_line; auto|]. intros m. exists (put_in (tl l) m). split; [unfold polled_handles; apply handles_line; auto|].
  assert (X : forall b0, existsb (Nat.eqb b0) (tl l) = true <-> In b0 (tl l)).
  { intros b0. rewrite existsb_exists. split; [intros (x & HI & Hx); apply Nat.eqb_eq in Hx; now subst|intros HI; exists b0; split; [exact HI|apply Nat.eqb_refl]]. }
  split.
  - intros b0 HI. rewrite entry_put. now rewrite (proj2 (X b0) HI).
  - intros k Hk. rewrite entry_put. destruct k as [b0|]; [|reflexivity]. destruct (existsb (Nat.eqb b0) (tl l)) eqn:Q; [|reflexivity]. apply X in Q. now destruct (Hk b0 eq_refl).
Qed.
Print Assumptions C84_poll.

(** a discount factor is the product of those of the curves of the line *)
Theorem C84_product : forall h a l x y vs, made h -> line h a l -> Forall2 (fun b v => alone h b x y = Ok v) l vs -> worth h a x y = Ok (product vs).
Proof. intros h a l x y vs Hm Hl F. unfold worth. eapply worth_line; eauto using made_sound. Qed.
Print Assumptions C84_product.

(** A table of changes: the change for a base is the one put last for its address, or for none when there is no base. *)
Theorem C84_table : forall changes k v, entry changes k = Some v <-> exists before after, changes = before ++ (k, v) :: after /\ ~ In k (map fst before).
Proof.
  intros changes k v. induction changes as [|[k0 v0] m IH]; cbn [entry].
  - split; [discriminate|]. intros ([|x b] & c & E & _); discriminate.
  - destruct (same_ptr k0 k) eqn:S0.
    + apply same_ptr_iff in S0 as ->. split; [intros [= ->]; exists [], m; split; [reflexivity|intros []]|]. intros ([|x b] & c & E & Hn); [cbn in E; congruence|]. exfalso. apply Hn. cbn in E. injection E as <- _. now left.
    + assert (Hk : k0 <> k) by (intros ->; rewrite (proj2 (same_ptr_iff k k) eq_refl) in S0; discriminate). rewrite IH. split.
      * intros (b & c & -> & Hn). exists ((k0, v0) :: b), c. split; [reflexivity|]. cbn. tauto.
      * intros ([|x b] & c & E & Hn); cbn in E; [congruence|]. injection E as <- ->. exists b, c. split; [reflexivity|]. cbn in Hn. tauto.
Qed.
(** a copy has the forward rates of the curve.  Its base is what the changes give for the curve's base, if they name it and give a
    discount curve; the curve's own base if they do not name it.  All other curves and lines stay as they were *)
Theorem C84_copy : forall h a l p name changes, made h -> line h a l -> rates h a = Some p ->
  exists h' a', clone h a name changes = Some (h', a') /\ made h' /\ nth_error h a' = None /\ rates h' a' = Some p /\
  (exists b, nth_error h' a' = Some (Curve name p b)) /\
  (entry changes (hd_error (tl l)) = None -> line h' a' (a' :: tl l)) /\
  (forall c m, entry changes (hd_error (tl l)) = Some (Some c) -> line h c m -> line h' a' (a' :: m)) /\
  (forall b m, line h b m -> line h' b m) /\ (forall b q, rates h b = Some q -> rates h' b = Some q).
Proof.
  intros h a l p name changes Hm Hl Hr. destruct (clone h a name changes) as [[h' a']|] eqn:E.
  2:{ unfold clone in E. unfold rates in Hr. destruct (nth_error h a) as [[]|]; discriminate. }
  exists h', a'. destruct (clone_line h a name changes h' a' l p Hm Hl Hr E) as (Ea & Hp & (x & Ex) & Hb). destruct (Hb _ eq_refl) as [B1 B2].
  split; [reflexivity|]. split; [eapply made_clone; eauto|]. split; [subst a'; apply nth_error_None; lia|]. split; [exact Hp|]. split.
  { unfold clone in E. unfold rates in Hr. destruct (nth_error h a) as [[n f b|]|]; try discriminate. injection Hr as ->. unfold new_curve in E. injection E as <- <-. eexists. rewrite nth_error_app2 by lia. now rewrite Nat.sub_diag. }
  split; [|split; [|split; [intros b m H; subst h'; now apply line_grown|intros b q H; subst h'; now apply rates_grown]]].
  - intros H. unfold new_base in B1, B2. rewrite H in B1, B2. inversion Hl as [? n1 f1 H1|? n1 f1 b1 l1 H1 H2]; subst l; cbn [tl hd_error] in *; [now apply B1|]. destruct (line_head _ _ _ H2) as [l2 ->]. cbn [hd_error] in *. now apply (B2 b1 _ eq_refl).
  - intros c m H Hc. apply (B2 c m); [|exact Hc]. unfold new_base. rewrite H. cbn. destruct (line_curve h c m c Hc) as (n & f & b & ->); [|reflexivity]. destruct (line_head _ _ _ Hc) as [m' ->]. now left.
Qed.
Print Assumptions C84_table.
Print Assumptions C84_copy.

(** copying with no changes gives the same discount factors *)
Theorem C84_same : forall h a l x y vs name h' a', made h -> line h a l -> Forall2 (fun b v => alone h b x y = Ok v) l vs ->
  clone h a name [] = Some (h', a') -> worth h' a' x y = worth h a x y /\ worth h a x y = Ok (product vs).
Proof.
  intros h a l x y vs name h' a' Hm Hl F Hc. rewrite (C84_product h a l x y vs Hm Hl F). split; [|reflexivity].
  destruct (line_head _ _ _ Hl) as [t ->]. inversion F as [|? v ? vs' Hv F']; subst. destruct (rates h a) as [p|] eqn:Hr; [|unfold alone in Hv; rewrite Hr in Hv; discriminate].
  destruct (C84_copy h a (a :: t) p name [] Hm Hl Hr) as (h2 & a2 & E & Hm' & _ & Hp & _ & L & _ & _ & K). rewrite Hc in E. injection E as <- <-.
  apply (C84_product h' a' (a' :: t)); [exact Hm'|now apply L|]. constructor; [unfold alone in *; now rewrite Hp; rewrite Hr in Hv|].
  clear -F' K. induction F' as [|b w t vs' H _ IH]; constructor; auto. unfold alone in *. destruct (rates h b) as [q|] eqn:Q; [|discriminate]. now rewrite (K b q Q).
Qed.
Print Assumptions C84_same.

(** with copies of the curves above it, from the nearest on, a base at any depth is exchanged: the line is that of the new curve
    under copies with the same rates, and the discount factor changes accordingly *)
Theorem C84_exchange : forall above h a old below n new name, made h -> line h a (above ++ old :: below) -> line h n new ->
  exists h' a' above', rebuild h above old n name = Some (h', a') /\ made h' /\ line h' a' (above' ++ new) /\
  Forall2 (fun b b' => rates h' b' = rates h b) above above' /\
  (forall b m, line h b m -> line h' b m) /\ (forall b q, rates h b = Some q -> rates h' b = Some q).
Proof.
  induction above as [|b rest IH]; intros h a old below n new name Hm Hl Hn.
  - exists h, n, []. cbn. repeat split; auto.
  - cbn [app] in Hl. assert (a = b) by (destruct (line_head _ _ _ Hl) as [t E]; now injection E). subst b.
    assert (Hb : exists c, hd_error (rest ++ old :: below) = Some c /\ line h c (rest ++ old :: below) /\ c = hd old rest).
    { inversion Hl as [? n1 f1 H1 E|? n1 f1 b1 l1 H1 H2]; subst; [destruct rest; discriminate|]. exists b1. destruct (line_head _ _ _ H2) as [t E]. rewrite E. cbn. split; [reflexivity|]. split; [now rewrite <- E|]. destruct rest; cbn in E |- *; now injection E. }
    destruct Hb as (c & Hd & Hc & Ec). destruct (IH h c old below n new name Hm Hc Hn) as (h1 & n1 & above1 & R & Hm1 & L1 & F1 & K1 & Q1).
    assert (Hla := K1 _ _ Hl). destruct (line_curve h a _ a Hl ltac:(now left)) as (na & pa & ba & Ea). assert (Hra : rates h a = Some pa) by (unfold rates; now rewrite Ea).
    destruct (C84_copy h1 a (a :: rest ++ old :: below) pa name [(Some (hd old rest), Some n1)] Hm1 Hla (Q1 _ _ Hra)) as (h2 & a2 & Cl & Hm2 & _ & Hp & _ & _ & L2 & K2 & Q2).
    exists h2, a2, (a2 :: above1). cbn [rebuild]. rewrite R. split; [exact Cl|]. split; [exact Hm2|]. split.
    + cbn [app]. apply (L2 n1); [|exact L1]. cbn [tl]. rewrite Hd. cbn [entry same_ptr]. rewrite <- Ec, Nat.eqb_refl. reflexivity.
    + split; [|split; auto]. constructor; [now rewrite Hp, Hra|].
      assert (G : Forall (fun b => rates h b <> None) rest).
      { apply Forall_forall. intros b HI. destruct (line_curve h c _ b Hc) as (n2 & f2 & c2 & E2); [apply in_or_app; now left|]. unfold rates. rewrite E2. discriminate. }
      clear -F1 Q2 G. induction F1 as [|b b' r r' H _ IH]; constructor; [|apply IH; now inversion G]. inversion G as [|? ? G1 _]; subst. destruct (rates h b) as [q|] eqn:E; [|congruence]. now apply Q2.
Qed.
Print Assumptions C84_exchange.

(** one copy alone reaches only the direct base: changes named for curves further down are not seen *)
Theorem C84_deep_refuted : forall h a b rest name changes h' a', made h -> line h a (a :: b :: rest) -> entry changes (Some b) = None ->
  clone h a name changes = Some (h', a') -> line h' a' (a' :: b :: rest).
Proof.
  intros h a b rest name changes h' a' Hm Hl He Hc. destruct (line_curve h a _ a Hl ltac:(now left)) as (na & pa & ba & Ea). assert (Hra : rates h a = Some pa) by (unfold rates; now rewrite Ea).
  destruct (C84_copy h a _ pa name changes Hm Hl Hra) as (h2 & a2 & Cl & _ & _ & _ & _ & L & _). rewrite Hc in Cl. injection Cl as <- <-. now apply L.
Qed.
Print Assumptions C84_deep_refuted.
(** a change to an empty handle, or to a component that is no discount curve, is not refused: the copy has no base *)
Theorem C84_dropped_refuted : forall h a l name changes v h' a', made h -> line h a l -> entry changes (hd_error (tl l)) = Some v ->
  (forall c, v = Some c -> rates h c = None) -> clone h a name changes = Some (h', a') -> line h' a' [a'].
Proof.
  intros h a l name changes v h' a' Hm Hl He Hv Hc. destruct (line_head _ _ _ Hl) as [t E]. destruct (line_curve h a l a Hl ltac:(subst l; now left)) as (na & pa & ba & Ea). assert (Hra : rates h a = Some pa) by (unfold rates; now rewrite Ea).
  destruct (clone_line h a name changes h' a' l pa Hm Hl Hra Hc) as (_ & _ & _ & Hb). apply (Hb _ eq_refl). unfold new_base. rewrite He. destruct v as [c|]; [|reflexivity]. specialize (Hv c eq_refl). unfold rates in Hv. cbn. destruct (nth_error h c) as [[]|]; congruence.
Qed.
Print Assumptions C84_dropped_refuted.

(** three curves on one another, another curve, and a component of another kind *)
Definition flat (x : R) : pwl := Pwl [10%Z] [x] [x] [0%R].
Definition three : heap := [Curve [] (flat 1) None; Curve [] (flat 2) (Some 0); Curve [] (flat 3) (Some 1); Curve [] (flat 4) None; Other].
Lemma flat_alone h a x : rates h a = Some (flat x) -> alone h a 10 11 = Ok (exp (- x / 365)).
Proof. intros H. unfold alone. rewrite H. cbn. unfold dt. cbn. f_equal. rewrite Rmult_1_r. f_equal. lra. Qed.
Example C84_case : made three /\ line three 2 [2; 1; 0] /\ line three 3 [3] /\
  worth three 2 10 11 = Ok (exp (- 3 / 365) * (exp (- 2 / 365) * (exp (- 1 / 365) * 1)))%R /\
  (exists h' a' c, rebuild three [2; 1] 0 3 [] = Some (h', a') /\ line h' a' [a'; c; 3] /\ worth h' a' 10 11 = Ok (exp (- 3 / 365) * (exp (- 2 / 365) * (exp (- 4 / 365) * 1)))%R) /\
  (exists h' a', clone three 2 [] [(Some 0, Some 3)] = Some (h', a') /\ line h' a' [a'; 1; 0]) /\
  (exists h' a', clone three 2 [] [(Some 1, Some 4)] = Some (h', a') /\ line h' a' [a']).
Proof.
  assert (Hm : made three).
  { exact (made_other _ (made_curve _ [] (flat 4) None (made_curve _ [] (flat 3) (Some 1) (made_curve _ [] (flat 2) (Some 0) (made_curve [] [] (flat 1) None made_none eq_refl) eq_refl) eq_refl) eq_refl)). }
  assert (L2 : line three 2 [2; 1; 0]) by (eapply line_on; [reflexivity|]; eapply line_on; [reflexivity|]; eapply line_end; reflexivity).
  assert (L3 : line three 3 [3]) by (eapply line_end; reflexivity).
  split; [exact Hm|]. split; [exact L2|]. split; [exact L3|]. split.
  { apply (C84_product three 2 [2; 1; 0] 10 11 [exp (- 3 / 365); exp (- 2 / 365); exp (- 1 / 365)]%R Hm L2). repeat constructor; apply flat_alone; reflexivity. }
  split; [|split].
  - destruct (C84_exchange [2; 1] three 2 0 [] 3 [3] [] Hm L2 L3) as (h' & a' & ab & R & Hm' & L & F & _ & Q). inversion F as [|? u ? ab1 U F1]; subst. inversion F1 as [|? v ? ab2 V F2]; subst. inversion F2; subst. cbn [app] in L.
    assert (u = a') by (destruct (line_head _ _ _ L) as [t E]; now injection E). subst u. exists h', a', v. split; [exact R|]. split; [exact L|].
    apply (C84_product h' a' [a'; v; 3] 10 11 [exp (- 3 / 365); exp (- 2 / 365); exp (- 4 / 365)]%R Hm' L). repeat constructor; apply flat_alone; [now rewrite U|now rewrite V|now apply Q].
  - eexists _, _. split; [reflexivity|]. now apply (C84_deep_refuted three 2 1 [0] [] [(Some 0, Some 3)] _ _ Hm L2).
  - eexists _, _. split; [reflexivity|]. apply (C84_dropped_refuted three 2 _ [] [(Some 1, Some 4)] (Some 4) _ _ Hm L2); [reflexivity| |reflexivity]. intros c E. injection E as <-. reflexivity.
Qed.
Print Assumptions C84_case.
