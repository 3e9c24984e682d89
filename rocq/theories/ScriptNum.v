(** Two concrete arithmetics for scripts: integers, and binary64. *)
From Coq Require Import ZArith List Bool.
From Coq Require Import Floats.SpecFloat.
From Verif Require Import Base DateModel ScriptModel.
Open Scope Z_scope.

(** Exact integers (log, exp and sqrt are stand-ins): the laws of [ScriptSpec.laws] hold. *)
Definition ZNum : Num := {|
  num := Z; n_zero := 0; n_thirty := 30; n_add := Z.add; n_sub := Z.sub; n_mul := Z.mul; n_div := Z.div; n_pow := Z.pow;
  n_neg := Z.opp; n_log := Z.log2; n_sqrt := Z.sqrt; n_exp := Z.pow 2; n_ltb := Z.ltb;
  eq0 := Z.eqb 0; gt0 := Z.ltb 0; ge0 := Z.leb 0; ge0_const := Z.leb 0 |}.

(** [double]: platform.hpp:55 EPSILON = 2e-14; evaluator.hpp:181-191 and compiler.hpp:232-241 for the tests.  pow, log
    and exp are left out (NaN): nothing below uses them. *)
Definition f_eps : spec_float := S754_finite false 6338253001141147 (-98).
Definition f_zero : spec_float := S754_zero false.
Definition FNum : Num := {|
  num := spec_float; n_zero := f_zero; n_thirty := fl_of_Z 30; n_add := fadd; n_sub := fsub; n_mul := fmul; n_div := fdiv;
  n_pow := fun _ _ => S754_nan; n_neg := SFopp; n_log := fun _ => S754_nan; n_sqrt := SFsqrt prec emax; n_exp := fun _ => S754_nan;
  n_ltb := SFltb; eq0 := fun x => SFeqb x f_zero; gt0 := fun x => SFltb f_zero x; ge0 := fun x => SFleb f_zero x;
  ge0_const := fun x => SFltb (SFopp f_eps) x |}.
