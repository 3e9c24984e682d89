(** What the analysis and the removal of constant conditions leave is as well formed, and needs no larger stacks. *)
From Coq Require Import ZArith List Bool Lia.
From Verif Require Import Base StringModel ScriptModel ScriptSpec ScriptEval DomainModel.
Import ListNotations.
Local Open Scope Z_scope.

Section Fits.
Context {N : Num} {D : DomNum N}.
Variables (fuzzy : bool) (nv : Z) (consts : list num) (dmax : Z).
Lemma cneed_nonneg (c : cond) : 0 <= cneed c.
Proof. induction c as [f op z e|f a IHa b IHb|f a IHa b IHb|f a IHa| |]; cbn [cneed]; try lia. pose proof (need_pos e). lia. Qed.
Lemma bneed_pos' (c : cond) : 1 <= bneed c.
Proof. induction c; cbn [bneed]; lia. Qed.
Definition smaller (c c' : cond) : Prop := (wf_cond nv consts c -> wf_cond nv consts c') /\ cneed c' <= cneed c /\ bneed c' <= bneed c.
Lemma cut_smaller c c' : smaller c c' -> forall v, smaller c (if alwaysTrue (flags_of v) then CTrue else if alwaysFalse (flags_of v) then CFalse else c').
Proof.
  intros (A & B & C) v. pose proof (cneed_nonneg c). pose proof (bneed_pos' c). destruct v; cbn [flags_of alwaysTrue alwaysFalse]; repeat split; cbn [wf_cond cneed bneed]; auto; lia.
Qed.
Lemma cond_smaller vd c : forall v c', dom_cond fuzzy vd c = Ok (v, c') -> smaller c (cc_cond c').
Proof.
  induction c as [f op z e|f a IHa b IHb|f a IHa b IHb|f a IHa| |]; intros v c' H; cbn [dom_cond] in H; try discriminate.
  - destruct (dom_expr vd e) as [d| | |]; cbn [obind] in H; try discriminate. destruct (judge fuzzy op d z) as [v0 z0]. injection H as <- <-. cbn [cc_cond cond_flags]. apply cut_smaller. repeat split; cbn [wf_cond cneed bneed]; auto; lia.
  - destruct (dom_cond fuzzy vd a) as [[va ca]| | |]; cbn [obind] in H; try discriminate. destruct (dom_cond fuzzy vd b) as [[vb cb]| | |]; cbn [obind fst snd] in H; try discriminate. injection H as <- <-.
    destruct (IHa _ _ eq_refl) as (A1 & A2 & A3), (IHb _ _ eq_refl) as (B1 & B2 & B3). cbn [cc_cond cond_flags]. apply (cut_smaller (CAnd f a b)). unfold smaller; cbn [wf_cond cneed bneed]; split; [tauto|lia].
  - destruct (dom_cond fuzzy vd a) as [[va ca]| | |]; cbn [obind] in H; try discriminate. destruct (dom_cond fuzzy vd b) as [[vb cb]| | |]; cbn [obind fst snd] in H; try discriminate. injection H as <- <-.
    destruct (IHa _ _ eq_refl) as (A1 & A2 & A3), (IHb _ _ eq_refl) as (B1 & B2 & B3). cbn [cc_cond cond_flags]. apply (cut_smaller (COr f a b)). unfold smaller; cbn [wf_cond cneed bneed]; split; [tauto|lia].
  - destruct (dom_cond fuzzy vd a) as [[va ca]| | |]; cbn [obind fst snd] in H; try discriminate. injection H as <- <-.
    destruct (IHa _ _ eq_refl) as (A1 & A2 & A3). cbn [cc_cond cond_flags]. apply (cut_smaller (CNot f a)). unfold smaller; cbn [wf_cond cneed bneed]; split; [tauto|lia].
Qed.
Definition runs (s : stmt) : Prop := wf_stmt nv consts s /\ fits dmax s.
Lemma fold_and {A} (P Q : A -> Prop) l : fold_right (fun s R => P s /\ R) True l /\ fold_right (fun s R => Q s /\ R) True l <-> Forall (fun s => P s /\ Q s) l.
Proof.
  induction l as [|x l IH]; cbn [fold_right]; [split; auto|]. rewrite Forall_cons_iff, <- IH. tauto.
Qed.
Lemma runs_if f af c t e : runs (SIf f af c t e) <-> wf_cond nv consts c /\ cneed c <= dmax /\ bneed c <= 128 /\ Forall runs t /\ match e with None => True | Some l => Forall runs l end.
Proof. unfold runs. cbn [wf_stmt fits]. destruct e as [l|]; rewrite <- ?fold_and; tauto. Qed.
Lemma runs_collect l : runs (SCollect l) <-> Forall runs l.
Proof. unfold runs. cbn [wf_stmt fits]. now rewrite <- fold_and. Qed.
Definition good_stmt (s : stmt) : Prop := forall vd vd' s', runs s -> dom_stmt fuzzy s vd = Ok (vd', s') -> runs (cc_stmt s').
Lemma good_all l : Forall good_stmt l -> forall vd vd' l', Forall runs l -> dom_all fuzzy l vd = Ok (vd', l') -> Forall runs (map cc_stmt l').
Proof.
  induction 1 as [|s l Hs Hl IH]; intros vd vd' l' Hr H; cbn [dom_all] in H; [injection H as <- <-; constructor|]. apply Forall_cons_iff in Hr as [R1 R2].
  destruct (dom_stmt fuzzy s vd) as [[v1 s1]| | |] eqn:E1; cbn [obind fst snd] in H; try discriminate. destruct (dom_all fuzzy l v1) as [[v2 l2]| | |] eqn:E2; cbn [obind fst snd] in H; try discriminate.
  injection H as <- <-. cbn [map]. constructor; [now apply (Hs vd v1)|now apply (IH v1 v2)].
Qed.
Lemma dom_if' f af c t e vd : dom_stmt fuzzy (SIf f af c t e) vd =
  do p <- dom_cond fuzzy vd c;
  let '(v, c') := p in
  match v with
  | AlwaysTrue => do q <- dom_all fuzzy t vd; Ok (fst q, SIf (flags_of v) af c' (snd q) e)
  | AlwaysFalse => match e with
                   | None => Ok (vd, SIf (flags_of v) af c' t None)
                   | Some l => do q <- dom_all fuzzy l vd; Ok (fst q, SIf (flags_of v) af c' t (Some (snd q)))
                   end
  | TrueOrFalse =>
      do q <- dom_all fuzzy t vd; do vd0 <- restore af vd (fst q);
      match e with
      | None => do vd2 <- merge_in af (fst q) vd0; Ok (vd2, SIf (flags_of v) af c' (snd q) None)
      | Some l => do q2 <- dom_all fuzzy l vd0; do vd2 <- merge_in af (fst q) (fst q2); Ok (vd2, SIf (flags_of v) af c' (snd q) (Some (snd q2)))
      end
  end.
Proof. reflexivity. Qed.
Lemma stmt_good s : good_stmt s.
Proof.
  induction s as [v e|v e|f af c t Ht|f af c t l Ht Hl|l Hl] using stmt_ind'; intros vd vd' s' Hr H.
  - destruct v as [a n i|]; cbn [dom_stmt] in H; [|discriminate]. destruct (dom_expr vd e) as [d| | |]; cbn [obind] in H; try discriminate.
    destruct (vput vd i d) as [v1| | |]; cbn [obind] in H; try discriminate. injection H as <- <-. exact Hr.
  - destruct v as [a n i|]; cbn [dom_stmt] in H; [|discriminate]. destruct (dom_expr vd e) as [d| | |]; cbn [obind] in H; try discriminate.
    destruct (lift2 i_div d _) as [p| | |]; cbn [obind] in H; try discriminate. destruct (vget vd i) as [o| | |]; cbn [obind] in H; try discriminate.
    destruct (lift2 i_add o p) as [sm| | |]; cbn [obind] in H; try discriminate. destruct (vput vd i sm) as [v1| | |]; cbn [obind] in H; try discriminate. injection H as <- <-. exact Hr.
  - apply runs_if in Hr as (R1 & R2 & R3 & R4 & _). rewrite dom_if' in H. destruct (dom_cond fuzzy vd c) as [[v c']| | |] eqn:Ec; cbn [obind] in H; try discriminate. destruct (cond_smaller _ _ _ _ Ec) as (C1 & C2 & C3). destruct v.
    + destruct (dom_all fuzzy t vd) as [[v1 t1]| | |] eqn:E; cbn [obind fst snd] in H; try discriminate. injection H as <- <-. cbn [cc_stmt flags_of alwaysTrue]. apply runs_collect. now apply (good_all t Ht vd v1).
    + injection H as <- <-. cbn [cc_stmt flags_of alwaysTrue alwaysFalse]. apply runs_collect. constructor.
    + destruct (dom_all fuzzy t vd) as [[v1 t1]| | |] eqn:E; cbn [obind fst snd] in H; try discriminate. destruct (restore af vd v1) as [v0| | |]; cbn [obind] in H; try discriminate.
      destruct (merge_in af v1 v0) as [v2| | |]; cbn [obind] in H; try discriminate. injection H as <- <-. cbn [cc_stmt flags_of alwaysTrue alwaysFalse option_map]. apply runs_if.
      split; [auto|]. split; [lia|]. split; [lia|]. split; [|exact Logic.I]. now apply (good_all t Ht vd v1).
  - apply runs_if in Hr as (R1 & R2 & R3 & R4 & R5). rewrite dom_if' in H. destruct (dom_cond fuzzy vd c) as [[v c']| | |] eqn:Ec; cbn [obind] in H; try discriminate. destruct (cond_smaller _ _ _ _ Ec) as (C1 & C2 & C3). destruct v.
    + destruct (dom_all fuzzy t vd) as [[v1 t1]| | |] eqn:E; cbn [obind fst snd] in H; try discriminate. injection H as <- <-. cbn [cc_stmt flags_of alwaysTrue]. apply runs_collect. now apply (good_all t Ht vd v1).
    + destruct (dom_all fuzzy l vd) as [[v1 t1]| | |] eqn:E; cbn [obind fst snd] in H; try discriminate. injection H as <- <-. cbn [cc_stmt flags_of alwaysTrue alwaysFalse]. apply runs_collect. now apply (good_all l Hl vd v1).
    + destruct (dom_all fuzzy t vd) as [[v1 t1]| | |] eqn:E; cbn [obind fst snd] in H; try discriminate. destruct (restore af vd v1) as [v0| | |]; cbn [obind] in H; try discriminate.
      destruct (dom_all fuzzy l v0) as [[v3 l3]| | |] eqn:E3; cbn [obind fst snd] in H; try discriminate.
      destruct (merge_in af v1 v3) as [v2| | |]; cbn [obind] in H; try discriminate. injection H as <- <-. cbn [cc_stmt flags_of alwaysTrue alwaysFalse option_map]. apply runs_if.
      split; [auto|]. split; [lia|]. split; [lia|]. split; [now apply (good_all t Ht vd v1)|now apply (good_all l Hl v0 v3)].
  - apply runs_collect in Hr. change (dom_stmt fuzzy (SCollect l) vd) with (do q <- dom_all fuzzy l vd; Ok (fst q, SCollect (snd q))) in H.
    destruct (dom_all fuzzy l vd) as [[v1 t1]| | |] eqn:E; cbn [obind fst snd] in H; try discriminate. injection H as <- <-. cbn [cc_stmt]. apply runs_collect. now apply (good_all l Hl vd v1).
Qed.
Lemma events_good l : forall vd vd' l', Forall (wf_all nv consts) l -> Forall (fits_all dmax) l -> dom_events fuzzy l vd = Ok (vd', l') ->
  Forall (wf_all nv consts) (cc_events l') /\ Forall (fits_all dmax) (cc_events l') /\ length l' = length l.
Proof.
  induction l as [|x l IH]; intros vd vd' l' Hw Hf H; cbn [dom_events] in H; [injection H as <- <-; cbn; auto|]. apply Forall_cons_iff in Hw as [W1 W2]. apply Forall_cons_iff in Hf as [F1 F2].
  destruct (dom_all fuzzy x vd) as [[v1 s1]| | |] eqn:E1; cbn [obind fst snd] in H; try discriminate. destruct (dom_events fuzzy l v1) as [[v2 l2]| | |] eqn:E2; cbn [obind fst snd] in H; try discriminate.
  injection H as <- <-. destruct (IH _ _ _ W2 F2 E2) as (A & B & C).
  assert (R : Forall runs (map cc_stmt s1)).
  { apply (good_all x) with (vd := vd) (vd' := v1); [apply Forall_forall; intros; apply stmt_good| |exact E1]. unfold wf_all, fits_all in *. rewrite Forall_forall in *. intros s Hs. split; auto. }
  unfold cc_events in *. cbn [map length]. split; [constructor; [|exact A]|split; [constructor; [|exact B]|congruence]]; eapply Forall_impl; [|exact R| |exact R]; intros s [Q1 Q2]; assumption.
Qed.
End Fits.
