(** Words of the path property. *)
From Coq Require Import Reals List.
Import ListNotations.
Local Open Scope R_scope.
(** strictly increasing times, none before today *)
Fixpoint later (t : R) (l : list R) : Prop := match l with [] => True | x :: r => t < x /\ later x r end.
Definition timeline_ok (l : list R) : Prop := match l with [] => False | x :: r => 0 <= x /\ later x r end.
(** the times at which the spot is simulated: today, then the product dates after today *)
Definition from_today (times : list R) : list R := match times with [] => [] | t :: _ => if Req_EM_T t 0 then times else 0 :: times end.
(** position of product date i in it *)
Definition position (times : list R) (i : nat) : nat := match times with t :: _ => if Req_EM_T t 0 then i else S i | [] => i end.
Fixpoint sum (n : nat) (f : nat -> R) : R := match n with O => 0 | S k => sum k f + f k end.
(** the weight of draw j in the Brownian motion after k steps *)
Definition weight (T : list R) (k j : nat) : R := if lt_dec j k then sqrt (nth (S j) T 0 - nth j T 0) else 0.
Definition brownian (T gauss : list R) (k : nat) : R := sum (length T - 1) (fun j => weight T k j * nth j gauss 0).
