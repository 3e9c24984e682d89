(** Model of dal/model/ivs.hpp, ivs.cpp, dal/math/analytics/vanilla.hpp, vanilla.cpp and of the calibration functions of
    dal/model/dupire.hpp over the real numbers.  The normal distribution function is a parameter, as in BlackModel.  The number
    type T_ is the real numbers too.  The square root of a negative number and a quotient by zero, not-a-number or infinite in the
    code, are what the real functions give. *)
From Coq Require Import ZArith Reals List Arith Bool.
From Verif Require Import Base Vec BlackModel InterpModel DateTimeModel FillModel DupireModel.
Import ListNotations.
Local Open Scope R_scope.

(** ivs.hpp:14-48 RiskView_: empty, or spreads over strikes and maturities *)
Inductive risk_view := NoView | View (strikes mats : list R) (spreads : list (list R)).
(** ivs.hpp:22-26 *)
Definition new_view (strikes mats : list R) : risk_view := View strikes mats (repeat (repeat 0 (length mats)) (length strikes)).
(** ivs.hpp:28-30 Spread *)
Definition spread (v : risk_view) (strike mat : R) : outcome R :=
  match v with NoView => Ok 0 | View ks ms sp => interp2_linear ks ms sp strike mat end.
(** ivs.hpp:47 Bump *)
Definition bump (v : risk_view) (i j : nat) (by_ : R) : outcome risk_view :=
  match v with
  | NoView => UB
  | View ks ms sp => do r <- get sp i; do x <- get r j; do r' <- put r j (x + by_); do sp' <- put sp i r'; Ok (View ks ms sp')
  end.

Section Surface.
Variable NCDF : R -> R.
(** vanilla.hpp:13-16 BlackScholes *)
Definition black_scholes (spot strike vol mat : R) : outcome R := black_opt NCDF spot (vol * sqrt mat) strike Call.
(** vanilla.hpp:22-48 Merton: term n of the sum, with fact = n! and iT = intensT ^ n *)
Definition merton_term (spot strike vol mat intens mean_jmp std_jmp : R) (n : nat) (fact i_t : R) : outcome R :=
  let var_jmp := std_jmp * std_jmp in
  let mv2 := mean_jmp + 1 / 2 * var_jmp in
  let comp := intens * (exp mv2 - 1) in
  let s := spot * exp (INR n * mv2 - comp * mat) in
  let v := sqrt (vol * vol + INR n * var_jmp / mat) in
  do p <- black_scholes s strike v mat;
  Ok (exp (- (intens * mat)) * i_t / fact * p).
(** vanilla.hpp:38-47: the loop over n; unsigned fact never wraps within ten rounds *)
Fixpoint merton_loop (spot strike vol mat intens mean_jmp std_jmp : R) (n cut : nat) (fact i_t result : R) : outcome R :=
  match cut with
  | O => Ok result
  | S c => do x <- merton_term spot strike vol mat intens mean_jmp std_jmp n fact i_t;
           merton_loop spot strike vol mat intens mean_jmp std_jmp (S n) c (fact * INR (S n)) (i_t * (intens * mat)) (result + x)
  end.
Definition merton (spot strike vol mat intens mean_jmp std_jmp : R) : outcome R :=
  merton_loop spot strike vol mat intens mean_jmp std_jmp 0 10 1 1 0.
(** vanilla.cpp:11-15 BlackScholesIVol; None as in BlackModel.implied.  black.hpp gives the default guess 0. *)
Definition black_scholes_ivol (spot strike prem mat : R) : outcome (option R) :=
  do (v, _) <- black_iv NCDF spot strike Call prem 0; Ok (match v with Some v => Some (v / sqrt mat) | None => None end).
(** ivs.hpp:51-59 IVS_; ImpliedVol is virtual *)
Record ivs := Ivs { spot_ : R; r_ : R; q_ : R; implied_vol : R -> R -> outcome R }.
(** ivs.hpp:61-64 Call; the risk view is optional *)
Definition call (s : ivs) (risk : option risk_view) (strike mat : R) : outcome R :=
  do iv <- implied_vol s strike mat;
  do sp <- (match risk with Some v => spread v strike mat | None => Ok 0 end);
  black_scholes (spot_ s) strike (iv + sp) mat.
(** ivs.hpp:66-80 LocalVol *)
Definition local_vol (s : ivs) (risk : option risk_view) (strike mat : R) : outcome R :=
  do c00 <- call s risk strike mat;
  let dt := 1 / 10000 * mat in
  do c01 <- call s risk strike (mat - dt);
  do c02 <- call s risk strike (mat + dt);
  let ct := (c02 - c01) * (1 / 2) / dt in
  let ds := 1 / 10000 * strike in
  do c10 <- call s risk (strike - ds) mat;
  do c20 <- call s risk (strike + ds) mat;
  let ckk := (c10 + c20 - 2 * c00) / ds / ds in
  let ck := (c20 - c10) * (1 / 2) / ds in
  Ok (sqrt (2 * (ct + q_ s * c00 + (r_ s - q_ s) * ck) / ckk) / strike).

(** dupire.hpp:204-206: the first index not below the band *)
Fixpoint first_inside (lo : R) (spots : list R) : nat :=
  match spots with [] => O | s :: r => if Rlt_dec s lo then S (first_inside lo r) else O end.
(** dupire.hpp:207-209: one more than the last index not above the band; n is one more than the index looked at *)
Fixpoint past_inside (hi : R) (spots : list R) (n : nat) : nat :=
  match n with O => O | S k => if Rlt_dec hi (nth k spots 0) then past_inside hi spots k else n end.
(** dupire.hpp:212-215 *)
Fixpoint vols_from (f : R -> outcome R) (spots : list R) (i n : nat) (row : list R) : outcome (list R) :=
  match n with O => Ok row | S k => do s <- get spots i; do v <- f s; do row' <- put row i v; vols_from f spots (S i) k row' end.
(** dupire.hpp:218-221: copy the entry at [from] to n places from i on *)
Fixpoint flat_from (from i n : nat) (row : list R) : outcome (list R) :=
  match n with O => Ok row | S k => do v <- get row from; do row' <- put row i v; flat_from from (S i) k row' end.
(** dupire.hpp:187-222 DupireCalibMaturity, into a row of local volatilities.  An index before the row counts as undefined, although
    the row before may lie there. *)
Definition calib_maturity (s : ivs) (mat : R) (spots : list R) (risk : risk_view) (row : list R) : outcome (list R) :=
  do atm <- call s None (spot_ s) mat;
  let std := atm * (2506628274631 / 10 ^ 12) in
  let il := first_inside (spot_ s - 5 / 2 * std) spots in
  let past := past_inside (spot_ s + 5 / 2 * std) spots (length spots) in
  do row1 <- vols_from (fun x => local_vol s (Some risk) x mat) spots il (past - il) row;
  do row2 <- flat_from il 0 il row1;
  match past with
  | O => match length spots with O => Ok row2 | _ => UB end
  | S ih => flat_from ih past (length spots - past) row2
  end.
(** dupire.hpp:239-242 *)
Definition calib_rows (s : ivs) (spots times : list R) (risk : risk_view) : outcome (list (list R)) :=
  mapm (fun t => calib_maturity s t spots risk (repeat 0 (length spots))) times.
(** matrixutils.hpp:15-22 MakeTranspose, matrices being lists of rows of the given width *)
Definition turned (width : nat) (m : list (list R)) : outcome (list (list R)) := mapm (fun i => mapm (fun r => get r i) m) (seq 0 width).
(** dupire.hpp:226-246 DupireCalib: spots, times and volatilities.  MakeTranspose of a matrix with no row is not looked at. *)
Definition one_hour : R := 114469 / 10 ^ 9.
Definition dupire_calib (fuel : nat) (s : ivs) (incl_spots : list R) (max_ds : R) (incl_times : list R) (max_dt : R) (risk : risk_view) : outcome (list R * list R * list (list R)) :=
  do spots <- fill_data (A := RealArith) fuel incl_spots max_ds (1 / 100) [];
  do times <- fill_data (A := RealArith) fuel incl_times max_dt one_hour [max_dt];
  do rows <- calib_rows s spots times risk;
  do vols <- turned (length spots) rows;
  Ok (spots, times, vols).
(** ivs.cpp:10-13 MertonIVS_::ImpliedVol *)
Definition merton_ivol (spot vol intens ave_jmp std_jmp strike mat : R) : outcome (option R) :=
  do c <- merton spot strike vol mat intens ave_jmp std_jmp; black_scholes_ivol spot strike c mat.
End Surface.
