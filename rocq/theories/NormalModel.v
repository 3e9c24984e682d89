(** Model of dal/math/specialfunctions.cpp over the real numbers: the normal distribution function and its inverse.  The
    complementary error function of the C library is a parameter. *)
From Coq Require Import Reals List ZArith Bool.
From Verif Require Import Base Vec InterpModel CubicModel.
Import ListNotations.
Local Open Scope R_scope.

(** specialfunctions.cpp:14-26 MIN_SPLINE_X, MIN_SPLINE_F, MakeNcdfSpline *)
Definition min_spline_x : R := - (3734582185 / 10 ^ 9).
Definition min_spline_f : R := 947235 / 10 ^ 10.
Definition spline_x : list R := [- (3734582185 / 10 ^ 9); - (3347382781 / 10 ^ 9); - (3030883722 / 10 ^ 9); - (275090681 / 10 ^ 8); - (2492289824 / 10 ^ 9); - (2243141537 / 10 ^ 9); - (1992179668 / 10 ^ 9); - (1494029881 / 10 ^ 9); - (1290815576 / 10 ^ 9); - (1120050999 / 10 ^ 9); - (954303629 / 10 ^ 9); - (792072249 / 10 ^ 9); - (629093487 / 10 ^ 9); - (460389924 / 10 ^ 9); - (276889742 / 10 ^ 9); 0].
Definition spline_f : list R := [947235 / 10 ^ 10; 408582 / 10 ^ 9; 1219907 / 10 ^ 9; 2972237 / 10 ^ 9; 634685 / 10 ^ 8; 12444548 / 10 ^ 9; 23176395 / 10 ^ 9; 67583453 / 10 ^ 9; 98383227 / 10 ^ 9; 131345731 / 10 ^ 9; 16996458 / 10 ^ 8; 214158839 / 10 ^ 9; 264643073 / 10 ^ 9; 322617682 / 10 ^ 9; 39093184 / 10 ^ 8; 5 / 10 ^ 1].
Definition spline_lhs : boundary := Boundary 1 (373538 / 10 ^ 9).
Definition spline_rhs : boundary := Boundary 1 (39898679 / 10 ^ 8).
(** specialfunctions.cpp:32-34, for an argument that is not positive *)
Definition ncdf_lower (z : R) : outcome R :=
  if Rlt_dec z min_spline_x then Ok (min_spline_f * exp (- (11180061 / 10 ^ 7) * (z * z - min_spline_x * min_spline_x)))
  else do fpp <- fit spline_x spline_f spline_lhs spline_rhs; cubic spline_x spline_f fpp z.
(** specialfunctions.cpp:28-35 NcdfBySpline: the call for a positive argument is with a negative one *)
Definition ncdf_by_spline (z : R) : outcome R :=
  if Rlt_dec 0 z then do v <- ncdf_lower (- z); Ok (1 - v) else ncdf_lower z.

(** specialfunctions.cpp:44-68, the coefficients, as the decimal numbers written there *)
Definition inv_norm : R := 25066282746310002 / 10 ^ 16.
Definition a1 : R := - (3969683028665376 / 10 ^ 14).
Definition a2 : R := 2209460984245205 / 10 ^ 13.
Definition a3 : R := - (2759285104469687 / 10 ^ 13).
Definition a4 : R := 1383577518672690 / 10 ^ 13.
Definition a5 : R := - (3066479806614716 / 10 ^ 14).
Definition a6 : R := 2506628277459239 / 10 ^ 15.
Definition b1 : R := - (5447609879822406 / 10 ^ 14).
Definition b2 : R := 1615858368580409 / 10 ^ 13.
Definition b3 : R := - (1556989798598866 / 10 ^ 13).
Definition b4 : R := 6680131188771972 / 10 ^ 14.
Definition b5 : R := - (1328068155288572 / 10 ^ 14).
Definition c1 : R := - (7784894002430293 / 10 ^ 18).
Definition c2 : R := - (3223964580411365 / 10 ^ 16).
Definition c3 : R := - (2400758277161838 / 10 ^ 15).
Definition c4 : R := - (2549732539343734 / 10 ^ 15).
Definition c5 : R := 4374664141464968 / 10 ^ 15.
Definition c6 : R := 2938163982698783 / 10 ^ 15.
Definition d1 : R := 7784695709041462 / 10 ^ 18.
Definition d2 : R := 3224671290700398 / 10 ^ 16.
Definition d3 : R := 2445134137142996 / 10 ^ 15.
Definition d4 : R := 3754408661907416 / 10 ^ 15.
Definition x_low : R := 2425 / 10 ^ 5.
Definition x_high : R := 1 - x_low.
(** specialfunctions.cpp:75-76, 80-81: the tails, as a function of the root *)
Definition tail (z : R) : R := (((((c1 * z + c2) * z + c3) * z + c4) * z + c5) * z + c6) / ((((d1 * z + d2) * z + d3) * z + d4) * z + 1).
(** specialfunctions.cpp:84-87 the middle *)
Definition middle (z : R) : R :=
  let r := z * z in (((((a1 * r + a2) * r + a3) * r + a4) * r + a5) * r + a6) * z / (((((b1 * r + b2) * r + b3) * r + b4) * r + b5) * r + 1).

Section Erfc.
Variable erfc : R -> R.
(** specialfunctions.cpp:38 NCDF *)
Definition ncdf (z : R) (precise : bool) : outcome R := if precise then Ok (1 / 2 * erfc (- z / sqrt 2)) else ncdf_by_spline z.
(** specialfunctions.cpp:70-88 before polishing.  None is not-a-number: at 0 and 1 the logarithm is infinite and the quotient one of infinities. *)
Definition rough_inverse (x : R) : option R :=
  if Rlt_dec x x_low then (if Req_EM_T x 0 then None else Some (tail (sqrt (-2 * ln x))))
  else if Rlt_dec x_high x then (if Req_EM_T x 1 then None else Some (- tail (sqrt (-2 * ln (1 - x)))))
  else Some (middle (x - 1 / 2)).
(** specialfunctions.cpp:40-95 InverseNCDF *)
Definition inverse_ncdf (x : R) (precise polish : bool) : outcome (option R) :=
  if Rle_dec 0 x then
    if Rle_dec x 1 then
      match rough_inverse x with
      | None => Ok None
      | Some z =>
        if polish then
          do p <- ncdf z precise;
          Ok (Some (z - (p - x) * inv_norm * exp (Rmin 8 (1 / 2 * (z * z)))))
        else Ok (Some z)
      end
    else Throw
  else Throw.
End Erfc.
