(** Words for C91. *)
From Coq Require Import Reals List.
From Verif Require Import Base DupireModel.
Import ListNotations.
Local Open Scope R_scope.

(** the spot of product date [i] on the path the local volatility model makes of the draws [zs] *)
Definition spot_at (fuel : nat) (m : dupire) (st : dstate) (times : list R) (defs : list ddef) (path : list dsample) (i : nat) (zs : list R) : R :=
  match dsimulate fuel m st times defs zs path with
  | Ok (_, _, p) => match nth_error p i with Some s => d_spot s | None => 0 end
  | _ => 0
  end.
(** the forward for a date, seen from today *)
Definition forward_for (m : dupire) (t : R) : R := u_spot m * exp ((u_r m - u_q m) * t).
(** every volatility of the surface is [v] *)
Definition flat (m : dupire) (v : R) : Prop := forall r, In r (u_vols m) -> forall x, In x r -> x = v.
