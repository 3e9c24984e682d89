(** What a Brownian bridge must do, independently of how the code finds its indices. *)
From Coq Require Import List Arith Reals.
From Verif Require Import BridgeModel.
Import ListNotations.

(** [ordered n used steps]: every step builds a new time between the nearest times already built on both sides (time 0
    on the left if there is none), and at the end all [n] times are built. *)
Fixpoint ordered (n : nat) (used : nat -> bool) (steps : list step) : Prop :=
  match steps with
  | [] => forall x, x < n -> used x = true
  | s :: r =>
      (left_ s <= bridge s < right_ s /\ right_ s < n) /\ used (right_ s) = true /\ (left_ s = 0 \/ used (left_ s - 1) = true) /\
      (forall x, left_ s <= x < right_ s -> used x = false) /\ ordered n (fun x => (x =? bridge s) || used x)%bool r
  end.
Lemma ordered_ext n steps : forall u u', (forall x, u x = u' x) -> ordered n u' steps -> ordered n u steps.
Proof.
  induction steps as [|s r IH]; cbn; intros u u' E H; [intros x Hx; rewrite E; auto|]. destruct H as (A & B & C & D & F). rewrite !E. split; [exact A|]. split; [exact B|]. split; [exact C|]. split; [intros x Hx; rewrite E; auto|]. eapply IH; [|exact F]. intros x. cbn. now rewrite E.
Qed.

Local Open Scope R_scope.
(** sum of f 0 .. f (n-1) *)
Fixpoint sum (n : nat) (f : nat -> R) : R := match n with O => 0 | S k => sum k f + f k end.
(** independent standard normals transformed by [M] are independent standard normals *)
Definition orthogonal (n : nat) (M : nat -> nat -> R) : Prop :=
  forall a b, (a < n)%nat -> (b < n)%nat -> sum n (fun i => M a i * M b i) = if (a =? b)%nat then 1 else 0.
