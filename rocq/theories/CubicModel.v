(** Model of dal/math/interp/interpcubic.cpp over the real numbers. *)
From Coq Require Import Reals List Arith Bool ZArith.
From Verif Require Import Base Vec InterpModel.
Import ListNotations.
Open Scope R_scope.

(** interpcubic.hpp:12-16 Boundary_ *)
Record boundary := Boundary { order : Z; bvalue : R }.
(** algorithms.hpp:140-151 IsMonotonic with std::less *)
Fixpoint is_increasing (l : list R) : bool :=
  match l with a :: ((b :: _) as r) => if Rlt_dec a b then is_increasing r else false | _ => true end.
(** interpcubic.cpp:75-92: fpp_[0] and u[0] *)
Definition left_end (x f : list R) (lhs : boundary) : outcome (R * R) :=
  if (order lhs =? 1)%Z then
    do x0 <- get x 0; do x1 <- get x 1; do f0 <- get f 0; do f1 <- get f 1;
    let dx := x1 - x0 in Ok (((f1 - f0) / dx - bvalue lhs) * (3 / dx), - (1 / 2))
  else if (order lhs =? 2)%Z then Ok (bvalue lhs, 0)
  else if (order lhs =? 3)%Z then do x0 <- get x 0; do x1 <- get x 1; Ok (- (x1 - x0) * bvalue lhs, 1)
  else Throw.
(** interpcubic.cpp:93-102, one turn: fpp_[i] and u[i] from fpp_[i-1] and u[i-1] *)
Definition decompose (x f : list R) (i : nat) (prev : R * R) : outcome (R * R) :=
  do xp <- get x (i - 1); do xi <- get x i; do xn <- get x (S i);
  do fp <- get f (i - 1); do fi <- get f i; do fn <- get f (S i);
  let dx := xi - xp in let d2 := xn - xp in let sig := dx / d2 in
  let p := sig * snd prev + 2 in
  let temp := (fn - fi) / (xn - xi) - (fi - fp) / dx in
  Ok ((6 * temp - dx * fst prev) / (p * d2), (sig - 1) / p).
(** the loop: entries i, i+1, ... , i+k-1 *)
Fixpoint forward (x f : list R) (k i : nat) (prev : R * R) : outcome (list (R * R)) :=
  match k with
  | O => Ok []
  | S k' => do c <- decompose x f i prev; do l <- forward x f k' (S i) c; Ok (c :: l)
  end.
(** interpcubic.cpp:103-118: fpp_[n-1], from fpp_[n-2] and u[n-2] *)
Definition right_end (x f : list R) (rhs : boundary) (prev : R * R) : outcome R :=
  let n := length x in
  do xp <- get x (n - 2); do xn <- get x (n - 1); do fp <- get f (n - 2); do fn <- get f (n - 1);
  let dx := xn - xp in
  if (order rhs =? 1)%Z then let un := 3 / dx * (bvalue rhs - (fn - fp) / dx) in Ok ((2 * un - fst prev) / (2 + snd prev))
  else if (order rhs =? 2)%Z then Ok (bvalue rhs)
  else if (order rhs =? 3)%Z then Ok ((dx * bvalue rhs + fst prev) / (1 - snd prev))
  else Throw.
(** interpcubic.cpp:119-120 *)
Fixpoint backsub (l : list (R * R)) (last : R) : list R :=
  match l with [] => [last] | (g, u) :: r => let t := backsub r last in (g + u * hd 0 t) :: t end.
(** interpcubic.cpp:65-121: the second derivatives *)
Definition fit (x f : list R) (lhs rhs : boundary) : outcome (list R) :=
  if (2 <? length x)%nat && is_increasing x then
    if (length x =? length f)%nat then
      do c <- left_end x f lhs;
      do l <- forward x f (length x - 2) 1 c;
      do m <- right_end x f rhs (last l c);
      Ok (backsub (c :: l) m)
    else Throw
  else Throw.
(** interpcubic.cpp:51-62 operator() *)
Definition cubic (x f fpp : list R) (t : R) : outcome R :=
  let k := lower_bound x t in
  let interior :=
    let ige := Nat.min (length x - 1) (Nat.max 1 k) in
    let ilt := (ige - 1)%nat in
    do xg <- get x ige; do xl <- get x ilt; do fl <- get f ilt; do fg <- get f ige; do ml <- get fpp ilt; do mg <- get fpp ige;
    let h := xg - xl in let b := (t - xl) / h in let a := 1 - b in
    Ok (a * fl + b * fg - a * b * ((1 + a) * ml + (1 + b) * mg) * (h * h) / 6) in
  if (k =? length x)%nat then interior
  else do xg <- get x k; if Req_EM_T xg t then get f k else interior.
