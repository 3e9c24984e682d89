(** The recurrences of MRG32k3a and what a deviate is. *)
From Coq Require Import ZArith List Bool.
From Coq Require Import Floats.SpecFloat.
From Verif Require Import Base DateModel RandomModel.
Import ListNotations.
Open Scope Z_scope.

(** x(n) = (a12 x(n-2) - a13 x(n-3)) mod m1 and y(n) = (a21 y(n-1) - a23 y(n-3)) mod m2 *)
Definition xstep (v : row) : row := let '(x, x1, x2) := v in ((a12 * x1 - a13 * x2) mod m1, x, x1).
Definition ystep (v : row) : row := let '(y, y1, y2) := v in ((a21 * y - a23 * y2) mod m2, y, y1).
Definition iterate {A} (f : A -> A) (n : nat) (a : A) : A := Nat.iter n f a.
(** the deviate is the nearest double to [numer x y / (m1 + 1)] *)
Definition numer (x y : Z) : Z := if y <? x then x - y else x - y + m1.
(** the k-th pair of values of the recurrences started from constant histories *)
Definition xs (a : Z) (k : nat) : Z := fst (fst (iterate xstep k (a, a, a))).
Definition ys (b : Z) (k : nat) : Z := fst (fst (iterate ystep k (b, b, b))).
Definition deviate (a b : Z) (k : nat) : spec_float := fdiv (fl_of_Z (numer (xs a (S k)) (ys b (S k)))) (fl_of_Z m1p1).
(** strictly between 0 and 1 *)
Definition open01 (u : spec_float) : Prop := SFltb (fl_of_Z 0) u = true /\ SFltb u (fl_of_Z 1) = true.
