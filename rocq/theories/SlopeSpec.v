(** Words for C92. *)
From Coq Require Import Reals.
From Verif Require Import ExpectSpec.
From Verif Require BsModel.
Local Open Scope R_scope.

(** [pay y z] depends on a parameter y and a draw z of density [n]: at y = x it has a slope in the parameter for every draw but one, and [s]
    is the expectation of the slope *)
Definition expected_slope (n : R -> R) (pay : R -> R -> R) (x s : R) : Prop :=
  exists z0 d, (forall z, z <> z0 -> derivable_pt_lim (fun y => pay y z) x (d z)) /\ mean n d s.
(** the model with another spot, another volatility *)
Definition with_spot (m : BsModel.bs) (s : R) : BsModel.bs := {| BsModel.b_spot := s; BsModel.b_vol := BsModel.b_vol m; BsModel.b_rate := BsModel.b_rate m; BsModel.b_div := BsModel.b_div m |}.
Definition with_vol (m : BsModel.bs) (v : R) : BsModel.bs := {| BsModel.b_spot := BsModel.b_spot m; BsModel.b_vol := v; BsModel.b_rate := BsModel.b_rate m; BsModel.b_div := BsModel.b_div m |}.
