From Coq Require Import String List Arith Bool Lia.
From Verif Require Import NoteModel NoteSpec.
Import ListNotations.
Local Open Scope list_scope.
Definition live (m : memory) (loc : nat) : Prop := cells m loc <> None.
Definition sound (m : memory) : Prop := forall loc, live m loc -> loc < fresh m.
Definition alive (m : memory) (around : list info) : Prop := forall name loc, In (Pointer name loc) around -> live m loc.
Definition grows (m m' : memory) : Prop := fresh m <= fresh m' /\ forall loc, loc < fresh m -> live m loc -> live m' loc.
Definition scoped (m : memory) (env : nat -> option nat) (vars : list nat) : Prop := forall x, In x vars -> exists loc, env x = Some loc /\ live m loc.
Lemma grows_refl m : grows m m. Proof. split; auto. Qed.
Lemma grows_trans a b c : grows a b -> grows b c -> grows a c.
Proof. intros [A1 A2] [B1 B2]. split; [lia|]. intros loc H L. apply B2; [lia|]. apply A2; assumption. Qed.
Lemma grows_live a b loc : sound a -> grows a b -> live a loc -> live b loc.
Proof. intros S0 [_ G] L. apply G; [apply S0, L|exact L]. Qed.
Lemma string_app_assoc (a b c : string) : ((a ++ b) ++ c)%string = (a ++ (b ++ c))%string.
Proof. induction a as [|x a IH]; cbn; [reflexivity|rewrite IH; reflexivity]. Qed.
Lemma string_app_nil (a : string) : (a ++ "")%string = a.
Proof. induction a as [|x a IH]; cbn; [reflexivity|rewrite IH; reflexivity]. Qed.
Lemma concat_cons x l : String.concat "" (x :: l) = (x ++ String.concat "" l)%string.
Proof. destruct l; cbn [String.concat]; [symmetry; apply string_app_nil|]. reflexivity. Qed.
Lemma add_notes_ok m l : alive m l -> forall acc, add_notes m acc l = Some (full_message m l acc).
Proof.
  unfold full_message. induction l as [|i l IH]; intros A acc; cbn [add_notes map]; [cbn; rewrite string_app_nil; reflexivity|].
  assert (E : message m i = Some (line_of m i)).
  { destruct i as [t|name loc]; [reflexivity|]. cbn. specialize (A name loc (or_introl eq_refl)). unfold live in A. destruct (cells m loc); [reflexivity|congruence]. }
  rewrite E, IH by (intros n loc H; apply (A n loc); right; exact H). rewrite concat_cons, !string_app_assoc. reflexivity.
Qed.
Lemma push_stack_of n i : stack_of (Some (stack_of (the_stack false i) ++ [n])) = stack_of i ++ [n].
Proof. destruct i; reflexivity. Qed.
Lemma pop_stack_of i l n : stack_of i = l ++ [n] -> stack_of (the_stack true (Some (removelast (stack_of (the_stack false i))))) = l.
Proof.
  intros H. destruct i as [k|]; [|cbn in H; destruct l; discriminate]. cbn in H. subst k. cbn. rewrite removelast_last. destruct l; reflexivity.
Qed.
Lemma run_ok p : forall vars env s, closed p vars -> sound (mem s) -> scoped (mem s) env vars -> alive (mem s) (stack_of (instance s)) ->
  let '(r, s') := run p env s in
  meaning p (stack_of (instance s)) env (mem s) (log s) = (r, mem s', log s') /\ stack_of (instance s') = stack_of (instance s) /\ r <> Undefined /\ sound (mem s') /\ grows (mem s) (mem s').
Proof.
  induction p as [|p IHp q IHq|x v p IH|x v|t p IH|name x p IH|name v p IH|file line func msg|p IHp q IHq]; intros vars env s C So Sc A; cbn [closed] in C; cbn [run meaning].
  - split; [reflexivity|]. split; [reflexivity|]. split; [discriminate|]. split; [exact So|apply grows_refl].
  - destruct C as [C1 C2]. specialize (IHp vars env s C1 So Sc A). destruct (run p env s) as [r s1]. destruct IHp as (E & K & N & S1 & G). rewrite E.
    destruct r as [|w|]; [|repeat split; try assumption; apply G|congruence].
    specialize (IHq vars env s1 C2 S1). destruct (run q env s1) as [r2 s2].
    assert (Sc1 : scoped (mem s1) env vars) by (intros x Hx; destruct (Sc x Hx) as (loc & El & Ll); exists loc; split; [exact El|exact (grows_live _ _ _ So G Ll)]).
    assert (A1 : alive (mem s1) (stack_of (instance s1))) by (rewrite K; intros n loc H; exact (grows_live _ _ _ So G (A n loc H))).
    destruct (IHq Sc1 A1) as (E2 & K2 & N2 & S2 & G2). rewrite K in E2. split; [exact E2|]. split; [congruence|]. split; [exact N2|]. split; [exact S2|]. exact (grows_trans _ _ _ G G2).
  - unfold allocate. set (m1 := Memory _ _). assert (S1 : sound m1).
    { intros loc. unfold live, m1. cbn. destruct (Nat.eqb_spec loc (fresh (mem s))); [intros; lia|]. intros L. specialize (So loc L). lia. }
    assert (G1 : grows (mem s) m1) by (split; [cbn; lia|]; intros loc H L; unfold live, m1; cbn; destruct (Nat.eqb_spec loc (fresh (mem s))); [discriminate|exact L]).
    specialize (IH (x :: vars) (bind_var env x (fresh (mem s))) (with_mem s m1) C S1). cbn [mem instance log with_mem] in IH.
    assert (Sc1 : scoped m1 (bind_var env x (fresh (mem s))) (x :: vars)).
    { intros y [<-|Hy]; unfold bind_var.
      - rewrite Nat.eqb_refl. exists (fresh (mem s)). split; [reflexivity|]. unfold live, m1. cbn. rewrite Nat.eqb_refl. discriminate.
      - destruct (Nat.eqb_spec y x); [exists (fresh (mem s)); split; [reflexivity|]; unfold live, m1; cbn; rewrite Nat.eqb_refl; discriminate|].
        destruct (Sc y Hy) as (loc & El & Ll). exists loc. split; [exact El|exact (grows_live _ _ _ So G1 Ll)]. }
    assert (A1 : alive m1 (stack_of (instance s))) by (intros n loc H; exact (grows_live _ _ _ So G1 (A n loc H))).
    specialize (IH Sc1 A1). destruct (run p _ _) as [r s1]. destruct IH as (E & K & N & S2 & G). rewrite E. cbn [mem instance log with_mem].
    split; [reflexivity|]. split; [exact K|]. split; [exact N|]. split.
    + intros loc. unfold live, write. cbn. destruct (Nat.eqb_spec loc (fresh (mem s))); [congruence|]. apply S2.
    + destruct (grows_trans _ _ _ G1 G) as [F1 F2]. split; [cbn; exact F1|]. intros loc H L. unfold live, write. cbn. destruct (Nat.eqb_spec loc (fresh (mem s))); [lia|]. exact (F2 loc H L).
  - destruct (Sc x C) as (loc & -> & L). cbn [mem instance log with_mem]. split; [reflexivity|]. split; [reflexivity|]. split; [discriminate|]. split.
    + intros k. unfold live, write. cbn. destruct (Nat.eqb_spec k loc) as [->|]; [intros _; exact (So loc L)|apply So].
    + split; [cbn; lia|]. intros k H Lk. unfold live, write. cbn. destruct (k =? loc); [discriminate|exact Lk].
  - specialize (IH vars env (push_stack (Plain t) s) C So Sc). unfold push_stack in *. cbn [mem instance log with_instance] in *. rewrite push_stack_of in IH.
    assert (A1 : alive (mem s) (stack_of (instance s) ++ [Plain t])) by (intros n loc H; apply in_app_iff in H as [H|[H|[]]]; [exact (A n loc H)|discriminate]).
    specialize (IH A1). destruct (run p env _) as [r s1]. destruct IH as (E & K & N & S1 & G). rewrite E. unfold pop_stack. cbn [mem instance log with_instance].
    split; [reflexivity|]. split; [exact (pop_stack_of _ _ _ K)|]. split; [exact N|]. split; [exact S1|exact G].
  - destruct C as [Cx C]. destruct (Sc x Cx) as (loc & -> & L). specialize (IH vars env (push_stack (Pointer name loc) s) C So Sc). unfold push_stack in *. cbn [mem instance log with_instance] in *. rewrite push_stack_of in IH.
    assert (A1 : alive (mem s) (stack_of (instance s) ++ [Pointer name loc])) by (intros n k H; apply in_app_iff in H as [H|[H|[]]]; [exact (A n k H)|injection H as <- <-; exact L]).
    specialize (IH A1). destruct (run p env _) as [r s1]. destruct IH as (E & K & N & S1 & G). rewrite E. unfold pop_stack. cbn [mem instance log with_instance].
    split; [reflexivity|]. split; [exact (pop_stack_of _ _ _ K)|]. split; [exact N|]. split; [exact S1|exact G].
  - destruct C.
  - unfold msg_with_stack. assert (E : stack_of (the_stack false (instance s)) = stack_of (instance s)) by (destruct (instance s); reflexivity).
    rewrite E, add_notes_ok by exact A. cbn [mem instance log with_instance]. split; [reflexivity|]. split; [exact E|]. split; [discriminate|]. split; [exact So|apply grows_refl].
  - destruct C as [C1 C2]. specialize (IHp vars env s C1 So Sc A). destruct (run p env s) as [r s1]. destruct IHp as (E & K & N & S1 & G). rewrite E.
    destruct r as [|w|]; [repeat split; try assumption; apply G| |congruence].
    specialize (IHq vars env (State (instance s1) (mem s1) (log s1 ++ [w])) C2 S1). cbn [mem instance log] in IHq.
    assert (Sc1 : scoped (mem s1) env vars) by (intros x Hx; destruct (Sc x Hx) as (loc & El & Ll); exists loc; split; [exact El|exact (grows_live _ _ _ So G Ll)]).
    assert (A1 : alive (mem s1) (stack_of (instance s1))) by (rewrite K; intros n loc H; exact (grows_live _ _ _ So G (A n loc H))).
    specialize (IHq Sc1 A1). destruct (run q env _) as [r2 s2].
    destruct IHq as (E2 & K2 & N2 & S2 & G2). rewrite K in E2. split; [exact E2|]. split; [congruence|]. split; [exact N2|]. split; [exact S2|]. exact (grows_trans _ _ _ G G2).
Qed.
