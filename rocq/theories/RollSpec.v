(** Words for C90. *)
From Coq Require Import Reals List Arith.
From Verif Require Import Base InterpSpec BandModel BandSpec PdeSpec.
Import ListNotations.
Local Open Scope R_scope.

(** by how much the values [new] miss row [i] of the time step that starts from [old] *)
Definition defect (n : nat) (gen : nat -> nat -> R) (dt theta : R) (old new : list R) (i : nat) : R :=
  sum n (fun j => (identity i j - dt * theta * gen i j) * nth j new 0) - sum n (fun j => (identity i j + dt * (1 - theta) * gen i j) * nth j old 0).
(** a step whose weights are none of them negative: not too long for the part of it that is explicit *)
Definition stable (n : nat) (d dd : nat -> nat -> R) (c : call) : Prop :=
  0 <= c_dt c /\ 0 <= c_theta c <= 1 /\ (forall i, (i < n)%nat -> 0 <= nth i (c_rate c) 0) /\ positive_weights n d dd c /\
  forall i, (i < n)%nat -> 0 <= 1 + c_dt c * (1 - c_theta c) * generator_of n d dd c i i.
(** the values [w], then those of [ws] after each of the steps, miss each step by at most [e] times its length *)
Fixpoint nearly (n : nat) (d dd : nat -> nat -> R) (e : R) (cs : list call) (w : list R) (ws : list (list R)) : Prop :=
  match cs, ws with
  | [], [] => True
  | c :: cs, w' :: ws => length w' = n /\ (forall i, (i < n)%nat -> Rabs (defect n (generator_of n d dd c) (c_dt c) (c_theta c) w w' i) <= c_dt c * e) /\ nearly n d dd e cs w' ws
  | _, _ => False
  end.
Definition elapsed (cs : list call) : R := fold_right (fun c t => c_dt c + t) 0 cs.
(** [u] (of the time to go and the place) solves u_t = mu u_x + var / 2 u_xx - rate u between [a] and [b], keeps its values at the two ends,
    and its second derivative in time and third in space are bounded *)
Record solution (a b T m2 m3 : R) (mu var rate : R -> R) (u : R -> R -> R) : Prop := Solution {
  s_time : exists ut utt, (forall t x, 0 <= t <= T -> a <= x <= b -> derivable_pt_lim (fun t => u t x) t (ut t x) /\ derivable_pt_lim (fun t => ut t x) t (utt t x) /\ Rabs (utt t x) <= m2) /\
    exists ux uxx uxxx, (forall t x, 0 <= t <= T -> a <= x <= b -> derivable_pt_lim (u t) x (ux t x) /\ derivable_pt_lim (ux t) x (uxx t x) /\ derivable_pt_lim (uxx t) x (uxxx t x) /\ Rabs (uxxx t x) <= m3) /\
    forall t x, 0 <= t <= T -> a < x < b -> ut t x = mu x * ux t x + var x / 2 * uxx t x - rate x * u t x;
  s_ends : forall t, 0 <= t <= T -> u t a = u 0 a /\ u t b = u 0 b }.
(** the calls use the coefficients of the equation at the points of the grid, and steps of at most [dt] *)
Definition uses (x : mesh) (mu var rate : R -> R) (dt : R) (c : call) : Prop :=
  c_mu c = map mu (locations x) /\ c_var c = map var (locations x) /\ c_rate c = map rate (locations x) /\ c_dt c <= dt.
