(** Model of dal/indice/indexpath.hpp/.cpp: questions put to a history of fixings. *)
From Coq Require Import ZArith List Bool Reals.
From Verif Require Import Base OMap DateModel DateTimeModel.
Import ListNotations.

Section Path.
Context {A : Arith}.
(** indexpath.hpp:36 (fixings_). *)
Definition fixings : Type := omap datetime num.
Implicit Types f : fixings.
Definition find_fix f (t : datetime) : option num := mfind dt_cmp f t.

(** std::max(a, b) is a < b ? b : a; std::min(a, b) is b < a ? b : a. *)
Definition std_max (a b : num) : num := if nltb a b then b else a.
Definition std_min (a b : num) : num := if nltb b a then b else a.

(** indexpath.cpp:26-30. *)
Definition expectation f (t : datetime) (lo hi : num) : outcome num :=
  match find_fix f t with None => Throw | Some x => Ok (std_max lo (std_min hi x)) end.

(** indexpath.cpp:37-47. *)
Definition ramp (lower upper width fixed : num) : num :=
  if nleb lower fixed && nleb fixed upper then of_Z 1
  else if nleb (nsub lower width) fixed && nltb fixed lower then nsub (of_Z 1) (ndiv (nsub lower fixed) width)
  else if nleb fixed (nadd upper width) && nltb upper fixed then nsub (of_Z 1) (ndiv (nsub fixed upper) width)
  else of_Z 0.
(** indexpath.cpp:32-48. *)
Definition fix_in_range f (t : datetime) (lower upper width : num) : outcome num :=
  match find_fix f t with None => Throw | Some x => Ok (ramp lower upper width x) end.

(** indexpath.cpp:50-65: the loop from [current], with at most [fuel] passes. *)
Fixpoint all_in_range_loop (fuel : nat) f (current to : datetime) (lower upper interval width prob : num) : outcome num :=
  match fuel with
  | O => OutOfFuel
  | S n =>
    if dt_ltb current to then
      do p <- match find_fix f current with
              | None => Ok prob
              | Some _ => do q <- fix_in_range f current lower upper width; Ok (nmul prob q)
              end;
      do next <- dt_plus current interval;
      all_in_range_loop n f next to lower upper interval width p
    else Ok prob
  end.
Definition all_in_range (fuel : nat) f (from to : datetime) (lower upper interval width : num) : outcome num :=
  all_in_range_loop fuel f from to lower upper interval width (of_Z 1).

(** indexpath.cpp:12-24. *)
Definition extremum (fuel : nat) f (maximum : bool) (from to : datetime) (interval lo hi : num) : outcome num :=
  do prob <- all_in_range fuel f from to lo hi interval (of_Z 0);
  Ok (if nltb (of_Z 0) prob then (if maximum then hi else lo) else of_Z 0).
End Path.
