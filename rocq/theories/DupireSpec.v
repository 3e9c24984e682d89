(** Words of the path property for local volatility. *)
From Coq Require Import Reals List.
From Verif Require Import Base InterpModel DupireModel.
Import ListNotations.
Local Open Scope R_scope.
(** the local volatility at a time and a logarithm of the spot: linear in time for each spot, then linear in the logarithm *)
Definition surface (m : dupire) (t l : R) : outcome R :=
  do column <- mapm (fun r => interp_linear (u_times m) r t) (u_vols m);
  interp_linear (map ln (u_spots m)) column l.
(** a surface with a row for each spot and a column for each time *)
Definition surface_ok (m : dupire) : Prop :=
  u_spots m <> [] /\ u_times m <> [] /\ length (u_vols m) = length (u_spots m) /\ forall r, In r (u_vols m) -> length r = length (u_times m).
(** paths as allocated for the definitions: a table of forwards and room for the discounts *)
Definition allocated (defs : list ddef) (path : list dsample) : Prop :=
  Forall2 (fun d s => d_forwards s <> [] /\ length (d_discounts s) = length (w_discounts d)) defs path.
(** the logarithms L of the spot at the times T: each step uses its own draw, the volatility at its beginning, and the drift less half the variance *)
Definition diffuses (m : dupire) (T gauss : list R) (L : nat -> R) : Prop :=
  L 0%nat = ln (u_spot m) /\
  forall k, (S k < length T)%nat -> exists v, surface m (nth k T 0) (L k) = Ok v /\
    let dt := nth (S k) T 0 - nth k T 0 in
    L (S k) = L k + (u_r m - u_q m - 1/2 * v * v) * dt + v * sqrt dt * nth k gauss 0.
