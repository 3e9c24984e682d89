(** C36: environments are scoped. *)
From Coq Require Import List Arith Bool Lia.
From Verif Require Import Base Vec EnvModel EnvSpec.
Import ListNotations.

(** [chain m env l]: starting from [env] the entries are [l]. *)
Inductive chain (m : memory) : option nat -> list entry -> Prop :=
| chain_null : chain m None []
| chain_base a l : nth_error m a = Some (Base_ l) -> chain m (Some a) l
| chain_deco a p v l : nth_error m a = Some (Decorated p v) -> chain m p l -> chain m (Some a) (v :: l).
Lemma chain_app m x env l : chain m env l -> chain (m ++ x) env l.
Proof.
  induction 1; [constructor|apply chain_base|eapply chain_deco; [|eassumption]];
  rewrite nth_error_app1 by (apply nth_error_Some; congruence); assumption.
Qed.
Lemma entries_list f m l : length l <= f -> entries f m (Some (MyIter l)) = Ok l.
Proof. revert f; induction l as [|e l IH]; intros [|f] H; cbn in *; try reflexivity; try lia. rewrite IH by lia. reflexivity. Qed.
Lemma find_list f m k l : length l <= f -> find_ f m k (Some (MyIter l)) = Ok (find (fun e => kind e =? k) l).
Proof. revert f; induction l as [|e l IH]; intros [|f] H; cbn in *; try reflexivity; try lia. destruct (kind e =? k); [reflexivity|]. apply IH. lia. Qed.
Lemma get_nth {A} (l : list A) n v : nth_error l n = Some v -> get l n = Ok v.
Proof. unfold get. now intros ->. Qed.
Lemma chain_iter m env l f : chain m env l -> length l <= f -> exists i, begin_ m env = Ok i /\ entries f m i = Ok l /\ forall k, find_ f m k i = Ok (find (fun e => kind e =? k) l).
Proof.
  intros C. revert f. induction C as [|a l H|a p v l H C IH]; intros f Hf.
  - exists None. destruct f; cbn; auto.
  - exists (Some (MyIter l)). cbn [begin_]. unfold xbegin. rewrite (get_nth _ _ _ H). cbn [obind]. split; [reflexivity|]. split; [now apply entries_list|intros k; now apply find_list].
  - destruct f as [|f]; cbn in Hf; [lia|]. destruct (IH f) as (i & B & E & F); [lia|]. exists (Some (I1 p v)). cbn [begin_]. unfold xbegin. rewrite (get_nth _ _ _ H). cbn [obind]. split; [reflexivity|].
    assert (N : next m (I1 p v) = Ok i). { cbn [next]. destruct p as [b|]; cbn [begin_] in B; [exact B|]. injection B as <-. reflexivity. }
    split.
    + cbn [entries valid deref obind]. rewrite N. cbn [obind]. rewrite E. reflexivity.
    + intros k. cbn [find_ valid deref obind find]. destruct (kind v =? k); [reflexivity|]. rewrite N. cbn [obind]. apply F.
Qed.

(** For every program and every environment in scope, running it sees exactly the entries in scope, innermost first, and
    leaves memory and environment as they were.  (The fuel is any number at least the number of entries ever in scope.) *)
Theorem C36_scoped : forall p m env l fuel, chain m env l -> length l + depth p <= fuel -> run fuel p m env = Ok (m, env, sees p l).
Proof.
  induction p as [k|k|p IHp q IHq|e p IH|p IH|e p IH]; intros m env l fuel C Hf; cbn [run sees depth] in *.
  - destruct (chain_iter m env l fuel C) as (i & B & E & F); [lia|]. rewrite B. cbn [obind]. rewrite F. reflexivity.
  - destruct (chain_iter m env l fuel C) as (i & B & E & F); [lia|]. rewrite B. cbn [obind]. rewrite E. reflexivity.
  - rewrite (IHp m env l) by (assumption || lia). cbn [obind]. rewrite (IHq m env l) by (assumption || lia). reflexivity.
  - rewrite (IH (m ++ [Decorated env e]) (Some (length m)) (e :: l)); [|eapply chain_deco; [rewrite nth_error_app2, Nat.sub_diag by lia; reflexivity|now apply chain_app]|cbn; lia].
    cbn [obind]. rewrite get_app. cbn [obind]. rewrite removelast_last. reflexivity.
  - rewrite (IH m env l) by (assumption || lia). reflexivity.
  - rewrite (IH (m ++ [Decorated None e]) (Some (length m)) [e]); [|eapply chain_deco; [rewrite nth_error_app2, Nat.sub_diag by lia; reflexivity|constructor]|cbn; lia].
    cbn [obind]. rewrite removelast_last. reflexivity.
Qed.
(** The most recent entry of a kind is found first; entries of other kinds do not hide it. *)
Theorem C36_innermost_first : forall m env l fuel e k, chain m env l -> length l + 1 <= fuel ->
  run fuel (Add e (Find k)) m env = Ok (m, env, [Found (if kind e =? k then Some e else find (fun x => kind x =? k) l)]).
Proof. intros. rewrite (C36_scoped _ _ _ l); [cbn; destruct (kind e =? k); reflexivity|assumption|cbn; lia]. Qed.
Print Assumptions C36_scoped.
Print Assumptions C36_innermost_first.
Example C36_example :
  let a := Entry 1 10 in let b := Entry 2 20 in let c := Entry 1 30 in
  chain [Base_ [a; b]] (Some 0) [a; b] /\
  run 10 (Seq (Add c (Seq (Find 1) (Add b (Seq (Collect 1) (Call (Collect 2)))))) (Seq (Find 1) (Seed b (Find 1)))) [Base_ [a; b]] (Some 0) =
  Ok ([Base_ [a; b]], Some 0, [Found (Some c); All [c; a]; All [b; b]; Found (Some a); Found None]).
Proof. cbn zeta. split; [now constructor|reflexivity]. Qed.
