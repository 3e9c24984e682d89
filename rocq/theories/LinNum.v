(** Numbers of the dense linear algebra: an arbitrary type with the operations the code uses; exact reals and binary64 are instances. *)
From Coq Require Import ZArith Reals List Bool SpecFloat.
From Verif Require Import Base DateModel.
Import ListNotations.

Class Lin := {
  num : Type;
  of_nat : nat -> num;
  nadd : num -> num -> num;
  nsub : num -> num -> num;
  nmul : num -> num -> num;
  ndiv : num -> num -> num;
  nopp : num -> num;
  nsqrt : num -> num;
  neqb : num -> num -> bool;
  nltb : num -> num -> bool;
  (** Dal::EPSILON, dal/platform/platform.hpp:55 *)
  epsilon : num }.
Definition zero {L : Lin} : num := of_nat 0.
Definition one {L : Lin} : num := of_nat 1.
(** std::max(a, b): b if a < b, otherwise a *)
Definition nmax {L : Lin} (a b : num) : num := if nltb a b then b else a.
(** Square, dal/platform/platform.hpp:77 *)
Definition square {L : Lin} (x : num) : num := nmul x x.
(** IsZero, IsNegative, IsPositive: dal/platform/platform.hpp:62-66 (x >= EPSILON is the negation of x < EPSILON except for NaN, which it excludes by x == x) *)
Definition is_zero {L : Lin} (x : num) : bool := nltb x epsilon && nltb (nopp x) epsilon.
Definition is_negative {L : Lin} (x : num) : bool := nltb x (nopp epsilon) || neqb x (nopp epsilon).
Definition is_positive {L : Lin} (x : num) : bool := nltb epsilon x || neqb epsilon x.
(** std::inner_product(xs.begin(), xs.end(), ys.begin(), init): adds the products one by one, from the left *)
Fixpoint inner {L : Lin} (init : num) (xs ys : list num) : num :=
  match xs, ys with x :: xs', y :: ys' => inner (nadd init (nmul x y)) xs' ys' | _, _ => init end.

(** Exact arithmetic *)
#[global] Instance RealLin : Lin := {|
  num := R; of_nat := INR; nadd := Rplus; nsub := Rminus; nmul := Rmult; ndiv := Rdiv; nopp := Ropp; nsqrt := R_sqrt.sqrt;
  neqb x y := if Req_EM_T x y then true else false;
  nltb x y := if Rlt_dec x y then true else false;
  epsilon := (2 / 100000000000000)%R |}.

(** binary64 *)
Definition FloatLin : Lin := {|
  num := spec_float; of_nat n := fl_of_Z (Z.of_nat n); nadd := fadd; nsub := fsub; nmul := fmul; ndiv := fdiv; nopp := SFopp;
  nsqrt := SFsqrt prec emax;
  neqb := SFeqb; nltb := SFltb;
  epsilon := fl_lit 2 100000000000000 |}.
