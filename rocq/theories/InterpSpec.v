(** Words of the interpolation properties. *)
From Coq Require Import Reals List Arith.
Import ListNotations.
Open Scope R_scope.
Definition increasing (l : list R) : Prop := forall i j, (i < j < length l)%nat -> nth i l 0 < nth j l 0.
Definition nondecreasing (l : list R) : Prop := forall i j, (i <= j < length l)%nat -> nth i l 0 <= nth j l 0.
Definition nonincreasing (l : list R) : Prop := forall i j, (i <= j < length l)%nat -> nth j l 0 <= nth i l 0.
(** the straight line through (x1, y1) and (x2, y2) *)
Definition chord (x1 x2 y1 y2 t : R) : R := y1 + (y2 - y1) * ((t - x1) / (x2 - x1)).
Definition between (a b v : R) : Prop := Rmin a b <= v <= Rmax a b.
(** a table of values with a row per x and a column per y *)
Definition table (x y : list R) (f : list (list R)) : Prop := length f = length x /\ (forall k, (k < length f)%nat -> length (nth k f []) = length y).
