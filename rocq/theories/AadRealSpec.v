(** The operations of the tape over the real numbers, and where they are differentiable. *)
From Coq Require Import Reals List Arith Bool.
From Verif Require Import Base AadModel AadSpec.
Import ListNotations.
Open Scope R_scope.

(** specialfunctions.hpp:10 NPDF *)
Definition npdf (z : R) : R :=
  if Rlt_dec z (-10) then 0 else if Rlt_dec 10 z then 0 else exp (- (1 / 2) * z * z) / (2506628274631 / 1000000000000).
Section Ops.
(** NCDF and erfc are not computed here *)
Variables ncdf erfc : R -> R.
(** expr.hpp:43-97 Eval, LeftDerivative, RightDerivative.  Powers of bases that are not positive are not modelled. *)
Definition r_beval (o : bop) (l r : R) : R :=
  match o with OPMult => l * r | OPAdd => l + r | OPSub => l - r | OPDiv => l / r | OPPow => Rpower l r | OPMax => Rmax l r | OPMin => Rmin l r end.
Definition r_bleft (o : bop) (l r v : R) : R :=
  match o with
  | OPMult => r | OPAdd => 1 | OPSub => 1 | OPDiv => 1 / r | OPPow => r * v / l
  | OPMax => if Rlt_dec r l then 1 else 0 | OPMin => if Rlt_dec l r then 1 else 0
  end.
Definition r_bright (o : bop) (l r v : R) : R :=
  match o with
  | OPMult => l | OPAdd => 1 | OPSub => -1 | OPDiv => - l / r / r | OPPow => ln l * v
  | OPMax => if Rlt_dec l r then 1 else 0 | OPMin => if Rlt_dec r l then 1 else 0
  end.
(** expr.hpp:164-266 Eval(r, d) and Derivative(r, v, d) *)
Definition r_ueval (o : uop) (r d : R) : R :=
  match o with
  | OPExp => exp r | OPLog => ln r | OPSqrt => sqrt r | OPFabs => Rabs r | OPNormalDens => npdf r | OPNormalCdf => ncdf r | OPErfc => erfc r
  | OPMultD => r * d | OPAddD => r + d | OPSubDL => d - r | OPSubDR => r - d | OPDivDL => d / r | OPDivDR => r / d
  | OPPowDL => Rpower d r | OPPowDR => Rpower r d | OPMaxD => Rmax r d | OPMinD => Rmin r d
  end.
Definition r_uder (o : uop) (r v d : R) : R :=
  match o with
  | OPExp => v | OPLog => 1 / r | OPSqrt => 1 / 2 / v | OPFabs => if Rlt_dec 0 r then 1 else -1
  | OPNormalDens => - r * v | OPNormalCdf => npdf r | OPErfc => - (112837916709551 / 100000000000000) * exp (- r * r)
  | OPMultD => d | OPAddD => 1 | OPSubDL => -1 | OPSubDR => 1 | OPDivDL => - d / r / r | OPDivDR => 1 / d
  | OPPowDL => ln d * v | OPPowDR => d * v / r
  | OPMaxD => if Rlt_dec d r then 1 else 0 | OPMinD => if Rlt_dec r d then 1 else 0
  end.
(** the arguments at which an operation is defined and has a derivative.  NCDF and erfc must have the derivative the code uses *)
Definition b_smooth (o : bop) (l r : R) : Prop :=
  match o with OPDiv => r <> 0 | OPPow => 0 < l | OPMax | OPMin => l <> r | _ => True end.
Definition u_smooth (o : uop) (r d : R) : Prop :=
  match o with
  | OPLog | OPSqrt => 0 < r | OPFabs => r <> 0 | OPNormalDens => Rabs r <> 10
  | OPNormalCdf => derivable_pt_lim ncdf r (npdf r)
  | OPErfc => derivable_pt_lim erfc r (- (112837916709551 / 100000000000000) * exp (- r * r))
  | OPDivDL => r <> 0 | OPDivDR => d <> 0 | OPPowDL => 0 < d | OPPowDR => 0 < r | OPMaxD | OPMinD => r <> d | _ => True
  end.
Fixpoint smooth (vs : nat -> R) (e : expr R nat) : Prop :=
  match e with
  | Num _ => True
  | Bin o l r => smooth vs l /\ smooth vs r /\ b_smooth o (eval r_beval r_ueval vs l) (eval r_beval r_ueval vs r)
  | Un o a d => smooth vs a /\ u_smooth o (eval r_beval r_ueval vs a) d
  end.
Definition r_values := values 0 r_beval r_ueval.
Fixpoint smooth_program (inputs : nat -> R) (p : list (stmt R)) (vs : list R) : Prop :=
  match p with
  | [] => True
  | s :: r => match s with Expr e => smooth (fun k => nth k vs 0) e | _ => True end /\
              smooth_program inputs r (vs ++ [value_of 0 r_beval r_ueval inputs s vs])
  end.
End Ops.
(** node.hpp:41, platform.hpp:55 *)
Definition r_tiny (x : R) : bool := if Rle_dec (Rabs x) (2 / 100000000000000) then true else false.
Definition r_is_zero (x : R) : bool := if Req_EM_T x 0 then true else false.
(** the inputs with number [i] changed to [y] *)
Definition with_input (x : nat -> R) (i : nat) (y : R) : nat -> R := fun j => if Nat.eqb j i then y else x j.
(** the input [i] appears once, as statement [q] *)
Definition only_input (p : list (stmt R)) (i q : nat) : Prop := forall k, nth_error p k = Some (Input i) <-> k = q.
Definition no_input (p : list (stmt R)) (i : nat) : Prop := ~ In (Input i) p.
