(** Model of dal/utilities/numerics.cpp: whole numbers out of doubles. *)
From Coq Require Import ZArith Bool Floats.SpecFloat.
From Verif Require Import Base DateModel.
Local Open Scope Z_scope.
(** static_cast<int>(double): undefined unless the truncated value is an int *)
Definition to_int (x : spec_float) : outcome Z :=
  match x with
  | S754_zero _ | S754_finite _ _ _ => if int_range (fl_trunc x) then Ok (fl_trunc x) else UB
  | _ => UB
  end.
(** numerics.cpp:12-15 AsInt(double); the literals are the nearest doubles *)
Definition as_int (src : spec_float) : outcome Z :=
  if SFltb (SFabs src) (fl_of_Z 2147483647)
  then to_int (fadd src (if SFltb (fl_of_Z 0) src then fl_lit 1 1000000000 else SFopp (fl_lit 1 1000000000)))
  else Throw.
(** numerics.cpp:17-20 NearestInt *)
Definition nearest_int (src : spec_float) : outcome Z :=
  if SFltb (SFabs src) (fl_of_Z 2147483647)
  then to_int (fadd src (if SFltb (fl_of_Z 0) src then fl_lit 1 2 else SFopp (fl_lit 1 2)))
  else Throw.
(** numerics.cpp:22-25 AsInt(std::ptrdiff_t): std::abs of the least 64-bit number is undefined *)
Definition as_int_wide (src : Z) : outcome Z :=
  if src =? -9223372036854775808 then UB else if Z.abs src <? 2147483647 then Ok src else Throw.
