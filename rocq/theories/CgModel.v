(** Conjugate gradients: dal/math/matrix/bcg.cpp. *)
From Coq Require Import ZArith List Bool Arith Reals.
From Verif Require Import Base LinNum.
Import ListNotations.

Section Cg.
Context {L : Lin}.
(** the matrix of size n, through MultiplyLeft and MultiplyRight, and the preconditioner, through PreConditionerSolveLeft and
    PreConditionerSolveRight: the identity when the matrix has none (lines 15-30). They fill a vector of size n from one of size n. *)
Variables (n : nat) (times times_right : list num -> list num) (pre pre_right : list num -> list num).

Definition le (a b : num) : bool := nltb a b || neqb a b.
(** Vector_::operator+= and Transform with two vectors of the same size, dal/math/vectors.hpp:50-52, dal/utilities/algorithms.hpp:29-45 *)
Fixpoint zip (f : num -> num -> num) (a b : list num) : list num :=
  match a, b with x :: a', y :: b' => f x y :: zip f a' b' | _, _ => [] end.
(** LinearIncrement, dal/utilities/functionals.hpp:23-29 *)
Definition increment (scale : num) (x y : num) : num := nadd x (nmul scale y).
Definition norm (r : list num) : num := nsqrt (inner zero r r).

(** CGSolve, lines 46-78. One turn of the loop, lines 64-73: the solution, the residual, the direction and the product of this turn *)
Record cg_state := CgState { cg_x : list num; cg_r : list num; cg_p : list num; cg_beta : num }.
Definition cg_step (first : bool) (s : cg_state) : cg_state :=
  let z := pre (cg_r s) in
  let beta := inner zero z (cg_r s) in
  let ratio := if first then zero else ndiv beta (cg_beta s) in
  let p := zip nadd (map (fun v => nmul v ratio) (cg_p s)) z in
  let w := times p in
  let alpha := ndiv beta (inner zero w p) in
  CgState (zip (increment alpha) (cg_x s) p) (zip (increment (nopp alpha)) (cg_r s) w) p beta.
(** the loop, lines 63-77 *)
Fixpoint cg_loop (limit : num) (first : bool) (k : nat) (s : cg_state) : outcome (list num) :=
  match k with
  | O => Throw
  | S j => let s1 := cg_step first s in if le (norm (cg_r s1)) limit then Ok (cg_x s1) else cg_loop limit false j s1
  end.
Definition limit (b : list num) (tol_rel tol_abs : num) : num := nadd (nmul tol_rel (norm b)) tol_abs.
Definition acceptable (b x : list num) (tol_rel tol_abs : num) (max_iterations : Z) : bool :=
  (length b =? n)%nat && (length x =? n)%nat && ((is_positive tol_rel || is_positive tol_abs) && (0 <? max_iterations)%Z).
Definition cg_start (b x : list num) : cg_state := CgState x (zip nsub b (times x)) (repeat zero n) zero.
Definition cg_solve (b : list num) (tol_rel tol_abs : num) (max_iterations : Z) (x : list num) : outcome (list num) :=
  if acceptable b x tol_rel tol_abs max_iterations
  then cg_loop (limit b tol_rel tol_abs) true (Z.to_nat max_iterations) (cg_start b x)
  else Throw.

(** BCGSolve, lines 80-123: the same with the transposed residual and direction beside *)
Record bcg_state := BcgState { bcg_x : list num; bcg_r : list num; bcg_rr : list num; bcg_p : list num; bcg_pp : list num; bcg_beta : num }.
Definition bcg_step (first : bool) (s : bcg_state) : bcg_state :=
  let z := pre (bcg_r s) in
  let zz := pre_right (bcg_rr s) in
  let beta := inner zero zz (bcg_r s) in
  let ratio := if first then zero else ndiv beta (bcg_beta s) in
  let p := zip nadd (map (fun v => nmul v ratio) (bcg_p s)) z in
  let pp := zip nadd (map (fun v => nmul v ratio) (bcg_pp s)) zz in
  let w := times p in
  let ww := times_right pp in
  let alpha := ndiv beta (inner zero w pp) in
  BcgState (zip (increment alpha) (bcg_x s) p) (zip (increment (nopp alpha)) (bcg_r s) w) (zip (increment (nopp alpha)) (bcg_rr s) ww) p pp beta.
Fixpoint bcg_loop (limit : num) (first : bool) (k : nat) (s : bcg_state) : outcome (list num) :=
  match k with
  | O => Throw
  | S j => let s1 := bcg_step first s in if le (norm (bcg_r s1)) limit then Ok (bcg_x s1) else bcg_loop limit false j s1
  end.
Definition bcg_start (b x : list num) : bcg_state := let r := zip nsub b (times x) in BcgState x r r (repeat zero n) (repeat zero n) zero.
Definition bcg_solve (b : list num) (tol_rel tol_abs : num) (max_iterations : Z) (x : list num) : outcome (list num) :=
  if acceptable b x tol_rel tol_abs max_iterations
  then bcg_loop (limit b tol_rel tol_abs) true (Z.to_nat max_iterations) (bcg_start b x)
  else Throw.
End Cg.

(** Exact arithmetic in which a division by zero may give any number *)
Definition RealDiv (d : R -> R -> R) : Lin := {|
  num := R; of_nat := INR; nadd := Rplus; nsub := Rminus; nmul := Rmult; ndiv := d; nopp := Ropp; nsqrt := R_sqrt.sqrt;
  neqb x y := if Req_EM_T x y then true else false;
  nltb x y := if Rlt_dec x y then true else false;
  epsilon := (2 / 100000000000000)%R |}.
