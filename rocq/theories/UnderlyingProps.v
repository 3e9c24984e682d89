(** Property C46: merging what trades depend on. *)
From Coq Require Import Ascii String ZArith List Bool Reals Lra Lia.
From Verif Require Import Base OMap StringModel StringSpec StringProofs DateTimeModel UnderlyingModel UnderlyingSpec UnderlyingProofs.
Import ListNotations.

(** However the dependencies were collected, the result gives, for each currency, index and credit name, the latest date needed, and
    nothing for a name that is not needed. Index and credit names that differ only in case are the same name. *)
Theorem C46_latest b :
  (forall c, latest Z.le (fun d => In (Pays c d) (needs b)) (pay_date (build b) c)) /\
  (forall i, latest when_le (fun t => exists i', same_up_to_case i' i /\ In (Fixes i' t) (needs b)) (fix_time (build b) i)) /\
  (forall n, latest Z.le (fun d => exists n', same_up_to_case n' n /\ In (Credit n' d) (needs b)) (credit_date (build b) n)).
Proof.
  destruct (build_good b) as ((_ & H1) & (_ & H2) & (_ & H3)). split; [exact H1|]. split.
  - refine (holds_iff ci_compare when_le _ _ _ _ H2). intros k v. cbv beta. split; intros (i & E & Hi); exists i; (split; [now apply ci_compare_eq|exact Hi]).
  - refine (holds_iff ci_compare Z.le _ _ _ _ H3). intros k v. cbv beta. split; intros (i & E & Hi); exists i; (split; [now apply ci_compare_eq|exact Hi]).
Qed.
Lemma latest_unique {V} (le : V -> V -> Prop) (P Q : V -> Prop) o o' : (forall a b, le a b -> le b a -> a = b) -> (forall v, P v <-> Q v) ->
  latest le P o -> latest le Q o' -> o = o'.
Proof.
  intros A E H H'. destruct o as [v|], o' as [w|]; cbn [latest] in *.
  - destruct H as [H1 H2], H' as [H3 H4]. f_equal. apply A; [apply H4; now apply E|apply H2; now apply E].
  - destruct H as [H1 _]. apply E in H1. now apply H' in H1.
  - destruct H' as [H1 _]. apply E in H1. now apply H in H1.
  - reflexivity.
Qed.
(** Two ways of collecting the same needs - in any order, any grouping, any number of times - say the same about everything. *)
Theorem C46_order a b : (forall n, In n (needs a) <-> In n (needs b)) ->
  (forall c, pay_date (build a) c = pay_date (build b) c) /\ (forall i, fix_time (build a) i = fix_time (build b) i) /\
  (forall n, credit_date (build a) n = credit_date (build b) n).
Proof.
  intros E. destruct (C46_latest a) as (A1 & A2 & A3), (C46_latest b) as (B1 & B2 & B3). split; [|split].
  - intros c. eapply latest_unique; [|intros v; apply E|apply A1|apply B1]. intros x y. lia.
  - intros c. eapply latest_unique; [|intros v|apply A2|apply B2]; [apply when_le_anti|]. split; intros (i & H & Hi); exists i; (split; [exact H|now apply E]).
  - intros c. eapply latest_unique; [|intros v|apply A3|apply B3]; [intros x y; lia|]. split; intros (i & H & Hi); exists i; (split; [exact H|now apply E]).
Qed.
Definition same (u v : underlying) : Prop :=
  (forall c, pay_date u c = pay_date v c) /\ (forall i, fix_time u i = fix_time v i) /\ (forall n, credit_date u n = credit_date v n).
(** Adding commutes, associates, and adding twice changes nothing. *)
Theorem C46_algebra a b c :
  same (add_to (build a) (build b)) (add_to (build b) (build a)) /\
  same (add_to (add_to (build a) (build b)) (build c)) (add_to (build a) (add_to (build b) (build c))) /\
  same (add_to (add_to (build a) (build b)) (build b)) (add_to (build a) (build b)) /\
  same (add_to nothing (build a)) (build a).
Proof.
  split; [|split; [|split]].
  - apply (C46_order (Add a b) (Add b a)). intros n. cbn [needs]. rewrite !in_app_iff. tauto.
  - apply (C46_order (Add (Add a b) c) (Add a (Add b c))). intros n. cbn [needs]. rewrite !in_app_iff. tauto.
  - apply (C46_order (Add (Add a b) b) (Add a b)). intros n. cbn [needs]. rewrite !in_app_iff. tauto.
  - apply (C46_order (Add Empty a) a). intros n. cbn [needs]. rewrite !in_app_iff. cbn [In]. tauto.
Qed.
(** The maps list each name once: they are in strictly increasing order of the names. *)
Theorem C46_once b : msorted Z.compare (pay_ccys (build b)) /\ msorted ci_compare (indices (build b)) /\ msorted ci_compare (credits (build b)).
Proof. destruct (build_good b) as ((H1 & _) & (H2 & _) & (H3 & _)). auto. Qed.
Definition trade1 : book := Include (Include (Include Empty (Pays 0 100)) (Fixes (lit "EQ[IBM]") (50%Z, (1 / 2)%R))) (Credit (lit "ACME") 70).
Definition trade2 : book := Include (Include (Include Empty (Pays 1 90)) (Pays 0 120)) (Credit (lit "acme") 80).
Example C46_ex : pay_date (build (Add trade1 trade2)) 0 = Some 120%Z /\ pay_date (build (Add trade1 trade2)) 1 = Some 90%Z /\
  credit_date (build (Add trade1 trade2)) (lit "Acme") = Some 80%Z /\ pay_date (build (Add trade1 trade2)) 2 = None.
Proof. repeat split. Qed.
(** The handle of the parent and the spelling of a name are those met first: these do depend on the order. *)
Theorem C46_spelling_refuted : exists a b, map fst (credits (add_to (build a) (build b))) <> map fst (credits (add_to (build b) (build a))).
Proof. exists trade1, trade2. vm_compute. discriminate. Qed.
Print Assumptions C46_spelling_refuted.
Theorem C46_parent_refuted : exists u v, parent (add_to u v) <> parent (add_to v u) /\ same u v.
Proof. exists (Underlying (Some 1%nat) [] [] []), nothing. split; [discriminate|]. repeat split. Qed.
Print Assumptions C46_parent_refuted.
Print Assumptions C46_latest.
Print Assumptions C46_order.
Print Assumptions C46_algebra.
Print Assumptions C46_once.
