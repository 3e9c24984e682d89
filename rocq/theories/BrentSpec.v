(** Words of the root-finding property. *)
From Coq Require Import Reals List.
From Verif Require Import Base BrentModel.
Import ListNotations.
Open Scope R_scope.
Definition ends (s : brent) : R * R := (Rmin (fst (pa s)) (fst (pb s)), Rmax (fst (pa s)) (fst (pb s))).
(** x lies in the interval *)
Definition within (i : R * R) (x : R) : Prop := fst i <= x <= snd i.
Definition subset (i j : R * R) : Prop := fst j <= fst i /\ snd i <= snd j.
(** the values at the two ends have opposite signs, or one of them is zero *)
Definition sign_change (s : brent) : Prop := snd (pa s) * snd (pb s) <= 0.
(** any number of rounds, in which any values are reported *)
Fixpoint rounds (s : brent) (ys : list R) : outcome brent :=
  match ys with [] => Ok s | y :: r => do s' <- round s (fun _ => y); rounds s' r end.
(** rounds in which the values of f are reported *)
Fixpoint rounds_of (f : R -> R) (n : nat) (s : brent) : outcome brent := match n with O => Ok s | S k => do s' <- round s f; rounds_of f k s' end.
Fixpoint search_rounds (f : R -> R) (n : nat) (s : search) : outcome search := match n with O => Ok s | S k => do s' <- search_round s f; search_rounds f k s' end.
Definition strictly_increasing (f : R -> R) : Prop := forall x y, x < y -> f x < f y.
Definition strictly_decreasing (f : R -> R) : Prop := forall x y, x < y -> f y < f x.
