(** Model of dal/math/optimization/underdetermined.cpp: the search for a root with more unknowns than equations.
    The function, its gradient, the quadratic programming step and the secant update are parameters: the model is of
    the control flow around them.  Numbers are those of an [Arith] (real or binary64).  Every call of the function and
    of its gradient is logged, also in runs that end with an exception. *)
From Coq Require Import ZArith List Bool.
From Verif Require Import Base DateTimeModel.
Import ListNotations.
Local Open Scope Z_scope.

(** Runs with a log. *)
Inductive call (X : Type) := CallF (x : X) | CallJ (x : X).
Arguments CallF {X}. Arguments CallJ {X}.
Definition run (X B : Type) : Type := list (call X) * outcome B.
Definition ret {X B} (b : B) : run X B := ([], Ok b).
Definition lift {X B} (o : outcome B) : run X B := ([], o).
Definition bind {X B C} (m : run X B) (k : B -> run X C) : run X C :=
  match m with
  | (l, Ok b) => let (l', r) := k b in (l ++ l', r)
  | (l, Throw) => (l, Throw) | (l, UB) => (l, UB) | (l, OutOfFuel) => (l, OutOfFuel)
  end.

Section Search.
Context {A : Arith}.
Definition vec := list num.
Variable Jac : Type.
(** underdetermined.hpp:67 F *)
Variable F : vec -> outcome vec.
(** underdetermined.cpp:103-111: the gradient with rows divided by the tolerances, sparse or dense *)
Variable grad : vec -> vec -> outcome Jac.
(** underdetermined.cpp:115-126 QPStep for the given weights *)
Variable qp_step : vec -> Jac -> outcome vec.
(** underdetermined.cpp:71-79 SecantUpdate *)
Variable secant : Jac -> vec -> vec -> Jac.

(** auto/MG_UnderdeterminedControls_object.hpp *)
Record controls := Controls { max_evals : Z; max_restarts : Z; max_tries : Z; restart_tol : num; backtrack_tol : num; max_backtrack : num }.

(** utilities/algorithms.hpp:29-34, 41-45, 59-65: elementwise, refused for different sizes *)
Fixpoint zip (op : num -> num -> num) (a b : vec) : outcome vec :=
  match a, b with
  | [], [] => Ok []
  | x :: a', y :: b' => do r <- zip op a' b'; Ok (op x y :: r)
  | _, _ => Throw
  end.
(** utilities/algorithms.hpp:132-138: std::max_element and std::min_element; the end of an empty range is dereferenced by the caller *)
Definition max_element (v : vec) : outcome num :=
  match v with [] => UB | x :: r => Ok (fold_left (fun m y => if nltb m y then y else m) r x) end.
Definition min_element (v : vec) : outcome num :=
  match v with [] => UB | x :: r => Ok (fold_left (fun m y => if nltb y m then y else m) r x) end.
(** utilities/numerics.hpp:28-31; both vectors have the size of the tolerances here *)
Fixpoint inner_from (acc : num) (a b : vec) : num :=
  match a, b with x :: a', y :: b' => inner_from (nadd acc (nmul x y)) a' b' | _, _ => acc end.
Definition inner (a b : vec) : num := inner_from (of_Z 0) a b.
(** std::min *)
Definition nmin (a b : num) : num := if nltb b a then b else a.
Definition half : num := ndiv (of_Z 1) (of_Z 2).

(** underdetermined.cpp:94-99: counted evaluation, scaled by the tolerances; the count left comes back with the value *)
Definition eval (tol : vec) (evals : Z) (x : vec) : run vec (vec * Z) :=
  if 0 <? evals then bind ([CallF x], F x) (fun f => bind (lift (zip ndiv f tol)) (fun g => ret (g, evals - 1))) else lift Throw.
(** underdetermined.cpp:101-112 *)
Definition jacobian (restarts : Z) (x f : vec) : run vec (Jac * Z) :=
  if 0 <? restarts then bind ([CallJ x], grad x f) (fun j => ret (j, restarts - 1)) else lift Throw.
(** underdetermined.cpp:236 *)
Definition k_min (f_old f_new : vec) : num :=
  let old_old := inner f_old f_old in let old_new := inner f_old f_new in let new_new := inner f_new f_new in
  ndiv (nsub new_new (nmul half old_new)) (nadd (nsub new_new old_new) old_old).
(** underdetermined.cpp:228: all scaled residuals below 1 and above -1 *)
Definition solved (f : vec) : outcome bool :=
  do hi <- max_element f;
  if nltb hi (of_Z 1) then do lo <- min_element f; Ok (nltb (nsub (of_Z 0) (of_Z 1)) lo) else Ok false.

(** underdetermined.cpp:225-252: the line search.  It ends with the answer, with a step taken (the point, its residuals and
    the step), or without a step; with the restart flag and the evaluations left.  The assertion on line 250 is not modelled. *)
Inductive line := Found (x : vec) | Stepped (x f s : vec) (restart : bool) (evals : Z) | Stuck (restart : bool) (evals : Z).
Fixpoint line_search (c : controls) (tol x_old f_old : vec) (tries : nat) (s : vec) (restart : bool) (evals : Z) : run vec line :=
  match tries with
  | O => ret (Stuck restart evals)
  | S n =>
    bind (lift (zip nadd x_old s)) (fun x_new =>
    bind (eval tol evals x_new) (fun '(f_new, evals') =>
    bind (lift (solved f_new)) (fun b =>
    if b then ret (Found x_new) else
    let k0 := k_min f_old f_new in
    if nltb k0 (backtrack_tol c) then ret (Stepped x_new f_new s restart evals')
    else let restart' := restart || nltb (restart_tol c) k0 in
         let k := nmin (max_backtrack c) (nmin k0 (nmul (of_Z 2) (nsub k0 (backtrack_tol c)))) in
         line_search c tol x_old f_old n (map (fun y => nmul y (nsub (of_Z 1) k)) s) restart' evals')))
  end.
(** underdetermined.cpp:216-254: the outer loop; jac is None when a new gradient is to be computed *)
Fixpoint find_loop (c : controls) (tol : vec) (fuel : nat) (x_old f_old : vec) (jac : option Jac) (approx : bool) (evals restarts : Z) : run vec vec :=
  match fuel with
  | O => lift OutOfFuel
  | S n =>
    bind (match jac with None => bind (jacobian restarts x_old f_old) (fun '(j, r) => ret (j, false, r)) | Some j => ret (j, approx, restarts) end) (fun '(j, approx, restarts) =>
    bind (lift (qp_step f_old j)) (fun s =>
    bind (line_search c tol x_old f_old (Z.to_nat (max_tries c)) s false evals) (fun r =>
    match r with
    | Found x => ret x
    | Stepped x f s' restart evals' =>
      if restart then find_loop c tol n x f None approx evals' restarts
      else bind (lift (zip nsub f f_old)) (fun df => find_loop c tol n x f (Some (secant j s' df)) true evals' restarts)
    | Stuck restart evals' => if approx then find_loop c tol n x_old f_old (if restart then None else Some j) approx evals' restarts else lift Throw
    end)))
  end.
(** underdetermined.cpp:201-255 Find.  The output argument eff_j_inv is never used by the code. *)
Definition find (c : controls) (guess tol : vec) : run vec vec :=
  bind (eval tol (max_evals c) guess) (fun '(f, evals) => find_loop c tol (S (Z.to_nat (max_evals c))) guess f None false evals (max_restarts c)).

(** underdetermined.cpp:185-198 ApproxQPStep from the guess for the given weights *)
Variable approx_step : vec -> vec -> Jac -> outcome vec.
(** underdetermined.cpp:272-286 *)
Fixpoint approx_loop (c : controls) (tol : vec) (fuel : nat) (ie ticker : Z) (x_old f_old : vec) (jac : option Jac) (evals restarts : Z) : run vec vec :=
  match fuel with
  | O => lift OutOfFuel
  | S n =>
    if negb (ie <? max_evals c) then ret x_old else
    bind (if ticker <=? 0 then bind (jacobian restarts x_old f_old) (fun '(j, r) => ret (Some j, r, max_evals c, ie + 1)) else ret (jac, restarts, ticker, ie)) (fun '(jo, restarts, ticker, ie) =>
    match jo with
    | None => lift UB
    | Some j =>
      bind (lift (approx_step x_old f_old j)) (fun s =>
      bind (lift (zip nadd x_old s)) (fun x_new =>
      bind (eval tol evals x_new) (fun '(f_new, evals) =>
      bind (if max_restarts c <? ticker then bind (lift (zip nsub f_new f_old)) (fun df => ret (secant j s df)) else ret j) (fun j =>
      approx_loop c tol n (ie + 1) (ticker - max_restarts c) x_new f_new (Some j) evals restarts))))
    end)
  end.
(** underdetermined.cpp:257-288 Approximate *)
Definition approximate (c : controls) (guess tol : vec) : run vec vec :=
  bind (eval tol (max_evals c) guess) (fun '(f, evals) => approx_loop c tol (Z.to_nat (max_evals c)) 3 0 guess f None evals (max_restarts c)).
End Search.
