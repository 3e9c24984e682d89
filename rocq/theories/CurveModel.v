(** dal/curve: piecewise constant and piecewise linear functions of a date, and the discount curve built on them.
    Real numbers stand for doubles; a date is its serial number, and dates are subtracted as integers (date.hpp). *)
From Coq Require Import Reals List ZArith Bool.
From Verif Require Import Base Vec.
Import ListNotations.

(** algorithms.hpp:110-116 LowerBound and UpperBound of an ascending vector of dates, as an index *)
Fixpoint lbound (l : list Z) (x : Z) : nat := match l with [] => O | a :: r => if (a <? x)%Z then S (lbound r x) else O end.
Fixpoint ubound (l : list Z) (x : Z) : nat := match l with [] => O | a :: r => if (a <=? x)%Z then S (ubound r x) else O end.

Open Scope R_scope.
(** the double difference of two dates *)
Definition dt (a b : Z) : R := IZR (a - b).
(** the running loop of both Sofar functions: the mean value on each interval is given by its index *)
Fixpoint sofar_from (mean : nat -> outcome R) (last : R) (k : Z) (r : list Z) (i : nat) : outcome (list R) :=
  match r with
  | [] => Ok []
  | k' :: r' => do m <- mean i; let x := last + dt k' k * m in do more <- sofar_from mean x k' r' (S i); Ok (x :: more)
  end.
Definition sofar_with (mean : nat -> outcome R) (ks : list Z) : outcome (list R) :=
  match ks with [] => Ok [0] | k :: r => do more <- sofar_from mean 0 k r 0; Ok (0 :: more) end.

(** piecewiseconstant.hpp:13-31 PiecewiseConstant_, without its name and its archive part *)
Record pwc := Pwc { c_knots : list Z; c_right : list R; c_sofar : list R }.
(** piecewiseconstant.cpp:35-42 Sofar *)
Definition pwc_sofar (ks : list Z) (fr : list R) : outcome (list R) := sofar_with (fun i => get fr i) ks.
(** piecewiseconstant.hpp:23-26, the constructor *)
Definition new_pwc (ks : list Z) (fr : list R) : outcome pwc := do s <- pwc_sofar ks fr; Ok (Pwc ks fr s).
(** piecewiseconstant.cpp:44-53 IntegralTo *)
Definition pwc_integral_to (c : pwc) (d : Z) : outcome R :=
  let i := lbound (c_knots c) d in
  if (i =? 0)%nat then Ok 0
  else if ((i <? length (c_knots c))%nat && (nth i (c_knots c) 0 =? d)%Z) then get (c_sofar c) i
  else do k <- get (c_knots c) (i - 1); do s <- get (c_sofar c) (i - 1); do f <- get (c_right c) (i - 1); Ok (s + dt d k * f).
(** piecewiseconstant.cpp:55-67 PWC::F: the value and whether the date is a knot *)
Definition pwc_f (c : pwc) (d : Z) : outcome (R * bool) :=
  let i := lbound (c_knots c) d in
  if ((i <? length (c_knots c))%nat && (nth i (c_knots c) 0 =? d)%Z) then do f <- get (c_right c) i; Ok (f, true)
  else if (i =? 0)%nat then Ok (0, false) else do f <- get (c_right c) (i - 1); Ok (f, false).
(** piecewiseconstant.hpp:39-43 PWC::Integral *)
Definition pwc_integral (c : pwc) (a b : Z) : outcome R :=
  do y <- pwc_integral_to c b; do x <- pwc_integral_to c a; Ok (y - x).

(** piecewiselinear.hpp:13-29 PiecewiseLinear_ *)
Record pwl := Pwl { l_knots : list Z; l_left : list R; l_right : list R; l_sofar : list R }.
(** piecewiselinear.cpp:13-21 Sofar *)
Definition pwl_sofar (ks : list Z) (fl fr : list R) : outcome (list R) :=
  sofar_with (fun i => do x <- get fl (S i); do y <- get fr i; Ok ((x + y) / 2)) ks.
(** piecewiselinear.hpp:24-25, the constructor *)
Definition new_pwl (ks : list Z) (fl fr : list R) : outcome pwl := do s <- pwl_sofar ks fl fr; Ok (Pwl ks fl fr s).
(** piecewiselinear.cpp:23-37 IntegralTo *)
Definition pwl_integral_to (p : pwl) (d : Z) : outcome R :=
  let ks := l_knots p in let i := lbound ks d in
  if (i =? 0)%nat then do f <- get (l_left p) 0; do k <- get ks 0; Ok (- f * dt k d)
  else if (i =? length ks)%nat then
    do s <- get (l_sofar p) (length (l_sofar p) - 1); do f <- get (l_right p) (length (l_right p) - 1); do k <- get ks (length ks - 1); Ok (s + f * dt d k)
  else do k <- get ks i;
    if (k =? d)%Z then get (l_sofar p) i
    else do k0 <- get ks (i - 1); do start <- get (l_right p) (i - 1); do f <- get (l_left p) i; do s <- get (l_sofar p) (i - 1);
      let elapsed := dt d k0 in
      let stop := start + elapsed / dt k k0 * (f - start) in
      Ok (s + elapsed * (start + stop) / 2).
(** piecewiselinear.cpp:39-51 ValueAt *)
Definition pwl_value (p : pwl) (d : Z) (from_right : bool) : outcome R :=
  let ks := l_knots p in let i := if from_right then ubound ks d else lbound ks d in
  if (i =? 0)%nat then get (l_left p) 0
  else if (i =? length ks)%nat then get (l_right p) (length (l_right p) - 1)
  else do k <- get ks i; do k0 <- get ks (i - 1); do start <- get (l_right p) (i - 1); do f <- get (l_left p) i;
    Ok (start + dt d k0 / dt k k0 * (f - start)).
(** ycimp.cpp:52-59 ApplyDX_PWLF: left and right values are moved in turn, then the integrals are recomputed *)
Fixpoint apply_dx_values (fl fr dx : list R) (leverage : R) : outcome (list R * list R) :=
  match fl with
  | [] => Ok ([], fr)
  | l :: fl' => match fr, dx with
    | r :: fr', x :: y :: dx' => do (a, b) <- apply_dx_values fl' fr' dx' leverage; Ok (l + leverage * x :: a, r + leverage * y :: b)
    | _, _ => UB
    end
  end.
Definition pwl_apply_dx (p : pwl) (dx : list R) (leverage : R) : outcome pwl :=
  do (a, b) <- apply_dx_values (l_left p) (l_right p) dx leverage; new_pwl (l_knots p) a b.

(** ycimp.cpp:61-90 DiscountPWLF_, the only implementation of DiscountCurve_ in the library: forwards and an optional base *)
Inductive discount := DiscountPWLF (fwds : pwl) (base : option discount).
(** ycimp.cpp:68-71 operator() *)
Fixpoint df (c : discount) (from to_ : Z) : outcome R :=
  match c with
  | DiscountPWLF p base =>
    do y <- pwl_integral_to p to_; do x <- pwl_integral_to p from;
    do b <- match base with Some c' => df c' from to_ | None => Ok 1 end;
    Ok (exp (- (y - x) / 365) * b)
  end.
(** ycimp.cpp:77-79 ApplyDX *)
Definition discount_apply_dx (c : discount) (dx : list R) (leverage : R) : outcome discount :=
  match c with DiscountPWLF p base => do p' <- pwl_apply_dx p dx leverage; Ok (DiscountPWLF p' base) end.
