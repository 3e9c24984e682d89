(** SmoothedVals, dal/math/smooth.cpp:12-39, over the reals. *)
From Coq Require Import Reals List Arith Bool.
From Verif Require Import Base InterpModel.
Import ListNotations.
Local Open Scope R_scope.
Section Smooth.
Variables (c w y : nat -> R).
(** lines 22-31: the arrays beta and gamma, as functions of the index *)
Fixpoint beta (i : nat) : R := match i with O => w 0%nat + c 0%nat | S j => w i + c j + c i - c j * c j / beta j end.
Fixpoint gamma (i : nat) : R := match i with O => w 0%nat * y 0%nat | S j => w i * y i + c j * gamma j / beta j end.
(** lines 33-36: z[last - k] *)
Fixpoint back (last k : nat) : R :=
  match k with O => gamma last / beta last | S k' => (gamma (last - k) + c (last - k)%nat * back last k') / beta (last - k) end.
End Smooth.
Definition dx_min : R := 1 / 1000000000.
(** lines 17-20: the array is zero when made; element i gets the distance from x[i-1] to x[i]; the last one is zeroed *)
Definition coupling (x : list R) (lambda : R) (i : nat) : R :=
  if (i =? 0)%nat then 0 else if (i =? length x - 1)%nat then 0 else lambda / Rmax (nth i x 0 - nth (i - 1) x 0) dx_min.
Definition weight_at (weight : list R) (i : nat) : R := match weight with [] => 1 | _ => nth i weight 0 end.
(** a weight vector that is not empty but too short is read beyond its end *)
Definition smoothed (x y weight : list R) (lambda : R) : outcome (list R) :=
  if negb (is_monotonic x) then Throw else
  let n := length x in
  if negb ((length y =? n)%nat && (1 <? n)%nat) then Throw else
  if (0 <? length weight)%nat && (length weight <? n)%nat then UB else
  Ok (map (fun i => back (coupling x lambda) (weight_at weight) (fun i => nth i y 0) (n - 1) (n - 1 - i)) (seq 0 n)).
