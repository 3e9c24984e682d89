(** Shared vocabulary of the models. *)
From Coq Require Import ZArith List Bool.

(** Outcome of a C++ call: a value, a thrown exception, undefined behaviour, or no result within the fuel given
    to the model (never a result of the real program: theorems exclude it or show it is reached by a
    non-terminating loop). *)
Inductive outcome (A : Type) : Type :=
| Ok (a : A)
| Throw
| UB
| OutOfFuel.
Arguments Ok {A} a.
Arguments Throw {A}.
Arguments UB {A}.
Arguments OutOfFuel {A}.

Definition obind {A B} (x : outcome A) (f : A -> outcome B) : outcome B :=
  match x with Ok a => f a | Throw => Throw | UB => UB | OutOfFuel => OutOfFuel end.
Notation "'do' x <- e ; f" := (obind e (fun x => f)) (at level 200, x pattern, e at level 100, f at level 200).

(** [zrange a n] is [a; a+1; ...; a+n-1]. *)
Fixpoint zrange (a : Z) (n : nat) : list Z :=
  match n with O => nil | S k => cons a (zrange (a + 1)%Z k) end.

Lemma zrange_In a n x : In x (zrange a n) <-> (a <= x < a + Z.of_nat n)%Z.
Proof.
  revert a; induction n as [|n IH]; intros a; cbn [zrange In].
  - split; [tauto | intros H; exfalso; apply (Z.lt_irrefl a)]. rewrite Z.add_0_r in H.
    destruct H as [H1 H2]. eapply Z.le_lt_trans; eassumption.
  - rewrite IH, Nat2Z.inj_succ. split.
    + intros [->|[H1 H2]]; split; auto with zarith.
    + intros [H1 H2]. destruct (Z.eq_dec a x); [left; assumption | right; split; auto with zarith].
Qed.

(** A boolean test of every integer in a finite range, as a proof. *)
Definition all_range (a : Z) (len : Z) (f : Z -> bool) : bool := forallb f (zrange a (Z.to_nat len)).
Lemma all_range_spec a len f : (0 <= len)%Z -> all_range a len f = true ->
  forall x, (a <= x < a + len)%Z -> f x = true.
Proof.
  unfold all_range. intros Hl H x Hx. rewrite forallb_forall in H. apply H.
  rewrite zrange_In, Z2Nat.id; assumption.
Qed.
