(** Model of dal/math/interp/interp.hpp and interp2d.hpp over the real numbers. *)
From Coq Require Import Reals List Arith Bool.
From Verif Require Import Base Vec.
Import ListNotations.
Open Scope R_scope.

(** platform.hpp:55, :62 EPSILON, IsZero *)
Definition epsilon : R := 2 / 100000000000000.
Definition is_zero (x : R) : bool := if Rlt_dec x epsilon then (if Rlt_dec (- x) epsilon then true else false) else false.
(** algorithms.hpp:110-116: std::lower_bound and std::upper_bound on an ascending vector, as an index *)
Fixpoint lower_bound (l : list R) (x : R) : nat :=
  match l with [] => O | a :: r => if Rlt_dec a x then S (lower_bound r x) else O end.
Fixpoint upper_bound (l : list R) (x : R) : nat :=
  match l with [] => O | a :: r => if Rlt_dec x a then O else S (upper_bound r x) end.
(** std::vector::back *)
Definition back {A} (l : list A) : outcome A := match length l with O => UB | S k => get l k end.
(** algorithms.hpp:140-149 IsMonotonic with std::less_equal *)
Fixpoint is_monotonic (l : list R) : bool :=
  match l with a :: ((b :: _) as r) => if Rle_dec a b then is_monotonic r else false | _ => true end.
(** interp.hpp:35-45 InterpLinearImplX *)
Definition interp_linear (x y : list R) (x0 : R) : outcome R :=
  let k := lower_bound x x0 in
  if (k =? length x)%nat then back y
  else do xge <- get x k;
       if (k =? 0)%nat || is_zero (x0 - xge) then get y k
       else do xlt <- get x (k - 1);
            let frac := (x0 - xlt) / (xge - xlt) in
            do flt <- get y (k - 1); do fge <- get y k;
            Ok (flt + frac * (fge - flt)).
(** interp.cpp:28-41 Interp1Linear_: the checks of the constructor, then the evaluation *)
Definition interp1 (x y : list R) (x0 : R) : outcome R :=
  if (length x =? length y)%nat && is_monotonic x then interp_linear x y x0 else Throw.
(** interp2d.hpp:30-51 Interp2DLinearImplX.  The matrix is its list of rows. *)
Definition interp2_linear (x y : list R) (f : list (list R)) (x0 y0 : R) : outcome R :=
  let n := length x in
  let n2 := upper_bound x x0 in
  if (n2 =? n)%nat then (match n2 with O => UB | S k => do row <- get f k; interp_linear y row y0 end)
  else match n2 with
       | O => do row <- get f 0; interp_linear y row y0
       | S n1 =>
           do x1 <- get x n1; do x2 <- get x n2;
           do r1 <- get f n1; do z1 <- interp_linear y r1 y0;
           do r2 <- get f n2; do z2 <- interp_linear y r2 y0;
           let t := (x0 - x1) / (x2 - x1) in
           Ok (z1 + (z2 - z1) * t)
       end.
