(** Model of dal/time/datetime.hpp/.cpp: a date with a fraction of a day. *)
From Coq Require Import ZArith List Bool Floats.SpecFloat Reals.
From Verif Require Import Base DateModel.
Import ListNotations.
Local Open Scope Z_scope.

(** The operations on [double] used here. [to_int] is static_cast<int>(std::floor(x)): undefined when the result does not
    fit an int. Two instances: the reals (no rounding, below) and binary64. *)
Class Arith := {
  num : Type;
  of_Z : Z -> num;
  nadd : num -> num -> num;
  nsub : num -> num -> num;
  nmul : num -> num -> num;
  ndiv : num -> num -> num;
  nltb : num -> num -> bool;
  nleb : num -> num -> bool;
  to_int : num -> outcome Z }.
Definition as_int (z : Z) : outcome Z := if int_range z then Ok z else UB.

(** Exact arithmetic. *)
#[global] Instance RealArith : Arith := {|
  num := R; of_Z := IZR; nadd := Rplus; nsub := Rminus; nmul := Rmult; ndiv := Rdiv;
  nltb x y := if Rlt_dec x y then true else false;
  nleb x y := if Rle_dec x y then true else false;
  to_int x := as_int (Int_part x) |}.

(** binary64 with rounding to nearest even. *)
Definition fl_floor (x : spec_float) : outcome Z :=
  match x with
  | S754_zero _ => Ok 0
  | S754_finite s m e => let z := if s then - Zpos m else Zpos m in
                         as_int (if 0 <=? e then z * 2 ^ e else z / 2 ^ (- e))
  | _ => UB
  end.
Definition FloatArith : Arith := {|
  num := spec_float; of_Z := fl_of_Z; nadd := fadd; nsub := fsub; nmul := fmul; ndiv := fdiv;
  nltb := SFltb; nleb := SFleb; to_int := fl_floor |}.

Section DateTime.
Context {A : Arith}.

(** datetime.hpp:15-16 (date_, frac_). *)
Definition datetime : Type := Z * num.
(** datetime.cpp:19-21. *)
Definition mk_datetime (d : Z) (frac : num) : outcome datetime := if nltb frac (of_Z 1) then Ok (d, frac) else Throw.
(** datetime.cpp:23-27 (h, m and s are ints; their combination is taken not to overflow). *)
Definition mk_hms (d h m s : Z) : outcome datetime :=
  let secs := 60 * (60 * h + m) + s in
  if (0 <=? secs) && (secs <? 86400) then Ok (d, ndiv (of_Z secs) (of_Z 86400)) else Throw.
(** datetime.cpp:36-45. *)
Definition dt_plus (t : datetime) (frac : num) : outcome datetime :=
  if negb (nltb (of_Z 0) frac) then Throw else
  let f := nadd (snd t) frac in
  do k <- to_int f;
  if 0 <? k then Ok (add_days (fst t) k, nsub f (of_Z k)) else Ok (fst t, f).
(** datetime.cpp:57-59. *)
Definition dt_ltb (a b : datetime) : bool :=
  date_ltb (fst a) (fst b) || (date_eqb (fst a) (fst b) && nltb (snd a) (snd b)).
(** The order a std::map keyed by DateTime_ uses. *)
Definition dt_cmp (a b : datetime) : comparison := if dt_ltb a b then Lt else if dt_ltb b a then Gt else Eq.
(** datetime.cpp:53-55: the int difference of the dates, then the fractions one after the other. *)
Definition dt_minus (a b : datetime) : num := nsub (nadd (of_Z (date_diff (fst a) (fst b))) (snd a)) (snd b).
End DateTime.
