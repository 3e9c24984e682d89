(** Words for smoothing. *)
From Coq Require Import Reals List Arith.
From Verif Require Import BandSpec.
Import ListNotations.
Local Open Scope R_scope.
(** misfit to y, weighted, plus the penalty: link i weighs the squared jump from value i to value i + 1 *)
Definition cost (n : nat) (w link : nat -> R) (y u : list R) : R :=
  sum n (fun i => w i * (nth i u 0 - nth i y 0) ^ 2) + sum (n - 1) (fun i => link i * (nth (S i) u 0 - nth i u 0) ^ 2).
Definition minimizes (n : nat) (w link : nat -> R) (y z : list R) : Prop :=
  length z = n /\ forall u, length u = n -> cost n w link y z <= cost n w link y u.
(** the penalty asked for: lambda over the distance between the two points joined *)
Definition wanted_link (x : list R) (lambda : R) (i : nat) : R := lambda / Rmax (nth (S i) x 0 - nth i x 0) (1 / 1000000000).
(** what the code uses: the distance of the pair before, and none for the first pair *)
Definition shifted_link (x : list R) (lambda : R) (i : nat) : R := if (i =? 0)%nat then 0 else wanted_link x lambda (i - 1).
Definition ascending (x : list R) : Prop := forall i, (S i < length x)%nat -> nth i x 0 <= nth (S i) x 0.
(** a weight for each value, or none at all *)
Definition weights (weight : list R) (n : nat) : Prop := weight = [] \/ length weight = n /\ Forall (fun v => 0 < v) weight.
Definition the_weight (weight : list R) (i : nat) : R := match weight with [] => 1 | _ => nth i weight 0 end.
