(** Model of dal/math/random/brownianbridge.{hpp,cpp}.  Indices are computed as in the code, with undefined behaviour for
    an index out of range; deviates and weights are exact real numbers (the rounding of doubles is not modelled).
    Indices are [nat]: the code only subtracts 1 from indices it knows to be positive. *)
From Coq Require Import List Arith Reals.
From Verif Require Import Base Vec.
Import ListNotations.

(** brownianbridge.hpp: bridgeIndex_[i], leftIndex_[i], rightIndex_[i] for one i >= 1 *)
Record step := Step { bridge : nat; left_ : nat; right_ : nat }.

(** brownianbridge.cpp:34-35: while (map[j] != 0U) ++j; *)
Fixpoint skip_used (fuel : nat) (m : list nat) (j : nat) : outcome nat :=
  match fuel with
  | O => OutOfFuel
  | S f => do v <- get m j; if v =? 0 then Ok j else skip_used f m (j + 1)
  end.
(** brownianbridge.cpp:37-38: while (map[k] == 0U) ++k; *)
Fixpoint skip_free (fuel : nat) (m : list nat) (k : nat) : outcome nat :=
  match fuel with
  | O => OutOfFuel
  | S f => do v <- get m k; if v =? 0 then skip_free f m (k + 1) else Ok k
  end.
(** brownianbridge.cpp:33-56, the index part of the loop from i to ndim - 1 ([todo] iterations left) *)
Fixpoint init_loop (todo n i : nat) (m : list nat) (j : nat) : outcome (list step) :=
  match todo with
  | O => Ok []
  | S t =>
      do j1 <- skip_used (S n) m j;
      do k <- skip_free (S n) m j1;
      let l := j1 + (k - 1 - j1) / 2 in
      do m' <- put m l i;
      let j' := k + 1 in
      do r <- init_loop t n (i + 1) m' (if n <=? j' then 0 else j');
      Ok (Step l j1 k :: r)
  end.
(** brownianbridge.cpp:28-32 *)
Definition bridge_init (n : nat) : outcome (list step) :=
  if n =? 0 then UB
  else do m <- put (repeat 0 n) (n - 1) 1; init_loop (n - 1) n 1 m 0.

Local Open Scope R_scope.
(** brownianbridge.cpp:19-20 *)
Definition time (i : nat) : R := INR (i + 1).
(** brownianbridge.cpp:44-52: leftWeight_[i], rightWeight_[i], stdDev_[i] *)
Definition left_weight (s : step) : R :=
  if (left_ s =? 0)%nat then (time (right_ s) - time (bridge s)) / time (right_ s)
  else (time (right_ s) - time (bridge s)) / (time (right_ s) - time (left_ s - 1)).
Definition right_weight (s : step) : R :=
  if (left_ s =? 0)%nat then time (bridge s) / time (right_ s)
  else (time (bridge s) - time (left_ s - 1)) / (time (right_ s) - time (left_ s - 1)).
Definition std_dev (s : step) : R :=
  if (left_ s =? 0)%nat then sqrt (time (bridge s) * (time (right_ s) - time (bridge s)) / time (right_ s))
  else sqrt ((time (bridge s) - time (left_ s - 1)) * (time (right_ s) - time (bridge s)) / (time (right_ s) - time (left_ s - 1))).
(** brownianbridge.cpp:24-26: sqrtdt_ *)
Definition sqrt_dt (i : nat) : R := match i with O => sqrt (time 0) | S j => sqrt (time i - time j) end.

(** brownianbridge.cpp:69-77: the loop over the steps; [z] is innerDeviates_, [w] the vector filled *)
Fixpoint fill_steps (steps : list step) (i : nat) (z w : list R) : outcome (list R) :=
  match steps with
  | [] => Ok w
  | s :: r =>
      do wk <- get w (right_ s); do zi <- get z i;
      do v <- (if (left_ s =? 0)%nat then Ok (right_weight s * wk + std_dev s * zi)
               else do wj <- get w (left_ s - 1); Ok (left_weight s * wj + right_weight s * wk + std_dev s * zi));
      do w' <- put w (bridge s) v; fill_steps r (i + 1) z w'
  end.
(** brownianbridge.cpp:80-84: for i = ndim - 1 down to 1, then 0 *)
Fixpoint variations (i : nat) (w : list R) : outcome (list R) :=
  do wi <- get w i;
  match i with
  | O => put w 0 (wi / sqrt_dt 0)
  | S j => do wj <- get w j; do w' <- put w i ((wi - wj) / sqrt_dt i); variations j w'
  end.
(** brownianbridge.cpp:65-85: BrownianBridge_::FillNormal; [w] is the content of the resized output vector *)
Definition fill_normal (n : nat) (steps : list step) (z w : list R) : outcome (list R) :=
  do z0 <- get z 0; do w1 <- put w (n - 1) (sqrt (time (n - 1)) * z0);
  do w2 <- fill_steps steps 1 z w1; variations (n - 1) w2.
