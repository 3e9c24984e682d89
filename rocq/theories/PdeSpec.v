(** Words of the finite-difference properties. *)
From Coq Require Import Reals List Arith Bool.
From Verif Require Import Base InterpSpec BandModel BandSpec.
Import ListNotations.
Open Scope R_scope.
(** a grid of increasing points with the distances between neighbours *)
Definition grid (x : mesh) : Prop :=
  let n := length (locations x) in
  (2 < n)%nat /\ increasing (locations x) /\ length (dplus x) = n /\ length (dminus x) = n /\
  forall i, (S i < n)%nat -> nth i (dplus x) 0 = nth (S i) (locations x) 0 - nth i (locations x) 0 /\
                            nth (S i) (dminus x) 0 = nth (S i) (locations x) 0 - nth i (locations x) 0.
Definition inner (n i : nat) : Prop := (0 < i)%nat /\ (S i < n)%nat.
(** the three-point difference quotients at the inner points of a grid, as matrices *)
Definition difference (x : list R) (cl cm cu : R -> R -> R) (i j : nat) : R :=
  let n := length x in
  if (0 <? i)%nat && (S i <? n)%nat then
    let l := nth i x 0 - nth (i - 1) x 0 in let u := nth (S i) x 0 - nth i x 0 in
    if (j =? i)%nat then cm l u else if (j =? S i)%nat then cu l u else if (S j =? i)%nat then cl l u else 0
  else 0.
(** the operator mu d/dx + var/2 d2/dx2 - r on the inner points; nothing happens at the two ends *)
Definition generator (n : nat) (r m v : list R) (d dd : nat -> nat -> R) (i j : nat) : R :=
  if (0 <? i)%nat && (S i <? n)%nat then nth i m 0 * d i j + nth i v 0 / 2 * dd i j - nth i r 0 * identity i j else 0.
(** one time step of the theta scheme from old to new values *)
Definition theta_step (n : nat) (gen : nat -> nat -> R) (dt theta : R) (old new : list R) : Prop :=
  exists mid, product n (fun i j => identity i j + dt * (1 - theta) * gen i j) old mid /\
              product n (fun i j => identity i j - dt * theta * gen i j) new mid.
(** coefficients and step of one call *)
Record call := Call { c_rate : list R; c_mu : list R; c_var : list R; c_dt : R; c_theta : R }.
Definition set_coefficients (f : fd) (c : call) : fd := Fd (c_rate c) (c_mu c) (c_var c) (fdx f) (fdxx f) (amat f).
(** a history of calls *)
Fixpoint rolls (f : fd) (cs : list call) (res : list R) : outcome (fd * list R) :=
  match cs with
  | [] => Ok (f, res)
  | c :: cs' => do (f', y) <- roll_bwd (set_coefficients f c) (c_dt c) (c_theta c) res; rolls f' cs' y
  end.
Definition generator_of (n : nat) (d dd : nat -> nat -> R) (c : call) := generator n (c_rate c) (c_mu c) (c_var c) d dd.
Fixpoint theta_steps (n : nat) (d dd : nat -> nat -> R) (cs : list call) (old new : list R) : Prop :=
  match cs with
  | [] => new = old
  | c :: cs' => exists mid, length mid = n /\ theta_step n (generator_of n d dd c) (c_dt c) (c_theta c) old mid /\ theta_steps n d dd cs' mid new
  end.
Definition fits (n : nat) (c : call) : Prop := length (c_rate c) = n /\ length (c_mu c) = n /\ length (c_var c) = n.
(** enough diffusion for the drift: no neighbour has a negative weight *)
Definition positive_weights (n : nat) (d dd : nat -> nat -> R) (c : call) : Prop :=
  forall i j, inner n i -> (j < n)%nat -> i <> j -> 0 <= generator_of n d dd c i j.
