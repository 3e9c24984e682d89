(** Words for C89. *)
From Coq Require Import Reals List.
From Verif Require Import ExpectSpec.
Import ListNotations.
Local Open Scope R_scope.

(** [k] independent draws, when [E f x] says that the expectation of [f] of one draw is [x]: the expectation over the first of the
    expectation over the others *)
Fixpoint repeated {A : Type} (E : (A -> R) -> R -> Prop) (k : nat) (f : list A -> R) (x : R) : Prop :=
  match k with
  | O => f [] = x
  | S k => exists g : A -> R, (forall a, repeated E k (fun l => f (a :: l)) (g a)) /\ E g x
  end.
(** the draws of a path, each of density [n], and the paths of a simulation *)
Definition draws (n : R -> R) (dim : nat) : (list R -> R) -> R -> Prop := repeated (mean n) dim.
Definition simulated (n : R -> R) (dim paths : nat) : (list (list R) -> R) -> R -> Prop := repeated (draws n dim) paths.
(** what a simulation gives *)
Definition total {A : Type} (f : A -> R) (l : list A) : R := fold_left Rplus (map f l) 0.
Definition average {A : Type} (f : A -> R) (l : list A) : R := total f l / INR (length l).
