(** Words for C88. *)
From Coq Require Import Reals.
From Coquelicot Require Import Coquelicot.
Local Open Scope R_scope.

(** [x] is the expectation of [g] of a random number of density [n]: what the integrals of g * n over longer and longer ranges approach *)
Definition mean (n g : R -> R) (x : R) : Prop :=
  forall e, 0 < e -> exists m, forall a b, a < - m -> m < b -> exists y, is_RInt (fun z => g z * n z) a b y /\ Rabs (y - x) < e.
(** a forward times a lognormal number of mean one, and a forward plus a normal number *)
Definition lognormal (fwd vol z : R) : R := fwd * exp (vol * z - vol * vol / 2).
Definition shifted (fwd vol z : R) : R := fwd + vol * z.
