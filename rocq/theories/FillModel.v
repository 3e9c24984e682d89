(** Model of dal/model/utilities.hpp: filling a grid so that no step is too long. *)
From Coq Require Import ZArith List Bool.
From Verif Require Import Base DateTimeModel.
Import ListNotations.
Local Open Scope Z_scope.

Section Fill.
Context {A : Arith}.
(** platform/platform.hpp:55 *)
Definition eps14 : num := ndiv (of_Z 2) (of_Z (10 ^ 14)).
(** conversion of a double to int: truncation, undefined out of range. [to_int] rounds down and is defined on
    the int range; simplified: -2^31 itself counts as out of range here. *)
Definition trunc (x : num) : outcome Z := if nltb x (of_Z 0) then do k <- to_int (nsub (of_Z 0) x); Ok (- k) else to_int x.
(** model/utilities.hpp:18 the comparison given to std::set_union *)
Definition before (min_dx x y : num) : bool := nltb x (nsub y min_dx).
(** model/utilities.hpp:17-18 std::set_union: the smaller head first; of two equivalent heads the first sequence's *)
Fixpoint union (min_dx : num) (a : list num) : list num -> list num :=
  match a with
  | [] => fun b => b
  | x :: a' => fix go (b : list num) : list num :=
      match b with
      | [] => a
      | y :: b' => if before min_dx x y then x :: union min_dx a' b
                   else if before min_dx y x then y :: go b' else x :: union min_dx a' b'
      end
  end.
(** model/utilities.hpp:13-20 the points the grid must have; without added points the original ones *)
Definition sequence (min_dx : num) (original added : list num) : list num :=
  match added with [] => original | _ => union min_dx original added end.
(** model/utilities.hpp:38-41 *)
Fixpoint supplement (fuel : nat) (min_dx spacing next t : num) : outcome (list num) :=
  match fuel with
  | O => OutOfFuel
  | S n => if nltb t (nsub next min_dx) then do r <- supplement n min_dx spacing next (nadd t spacing); Ok (t :: r) else Ok []
  end.
(** model/utilities.hpp:27-46; current is the point pushed last *)
Fixpoint fill (fuel : nat) (max_dx min_dx current : num) (rest : list num) : outcome (list num) :=
  match rest with
  | [] => Ok []
  | next :: r =>
    let gap := nsub next current in
    do extra <- (if nltb max_dx gap then
                   do k <- trunc (nsub (ndiv gap max_dx) eps14);
                   do n <- as_int (k + 1);
                   let spacing := ndiv gap (of_Z n) in
                   supplement fuel min_dx spacing next (nadd current spacing)
                 else Ok []);
    do tail <- fill fuel max_dx min_dx next r;
    Ok (extra ++ next :: tail)
  end.
(** model/utilities.hpp:10-49 FillData; dereferencing begin() of an empty sequence is undefined *)
Definition fill_data (fuel : nat) (original : list num) (max_dx min_dx : num) (added : list num) : outcome (list num) :=
  match sequence min_dx original added with
  | [] => UB
  | x :: r => do t <- fill fuel max_dx min_dx x r; Ok (x :: t)
  end.
End Fill.
