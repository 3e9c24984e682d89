(** Model of dal/math/distribution/black.hpp, black.cpp, utils.cpp and dal/protocol/optiontype.hpp over the real
    numbers.  The normal distribution function NCDF and density NPDF (dal/math/specialfunctions.hpp:10-11) are
    parameters: the theorems say what they need of them. *)
From Coq Require Import Ascii String Reals List Bool.
From Verif Require Import Base BrentModel StringModel.
Import ListNotations.
Local Open Scope string_scope.
Local Open Scope R_scope.

(** platform/platform.hpp:55 EPSILON *)
Definition epsilon : R := 2 / 10 ^ 14.
(** platform/platform.hpp:62 IsZero *)
Definition is_zero (x : R) : bool := rltb x epsilon && rltb (- x) epsilon.
(** platform/platform.hpp:64 IsPositive *)
Definition is_positive (x : R) : bool := rleb epsilon x.

(** auto/MG_OptionType_enum.hpp: the values of OptionType_, including the one of a default-constructed object *)
Inductive option_type := Call | Put | Straddle | NotSet.
(** protocol/optiontype.hpp:24-36 Payout *)
Definition payout (t : option_type) (spot strike : R) : outcome R :=
  match t with
  | Call => Ok (Rmax 0 (spot - strike))
  | Put => Ok (Rmax 0 (strike - spot))
  | Straddle => Ok (Rabs (spot - strike))
  | NotSet => Throw
  end.

Section Distribution.
Variables NCDF NPDF : R -> R.

(** black.hpp:17-18 the two arguments; black.cpp:29-30 again *)
Definition d_minus (fwd vol strike : R) : R := ln (fwd / strike) / vol - 1 / 2 * vol.
Definition d_plus (fwd vol strike : R) : R := d_minus fwd vol strike + vol.
(** black.hpp:13-29 BlackOpt.  Past the test the quotient is positive and vol is not zero. *)
Definition black_opt (fwd vol strike : R) (t : option_type) : outcome R :=
  if is_zero vol || negb (is_positive (fwd * strike)) then payout t fwd strike
  else let dm := d_minus fwd vol strike in let dp := d_plus fwd vol strike in
       match t with
       | Call => Ok (fwd * NCDF dp - strike * NCDF dm)
       | Put => Ok (strike * NCDF (- dm) - fwd * NCDF (- dp))
       | Straddle => Ok (fwd * (1 - 2 * NCDF (- dp)) + strike * (1 - 2 * NCDF dm))
       | NotSet => Throw
       end.
(** black.hpp:34-50 BachelierOpt *)
Definition bachelier_opt (fwd vol strike : R) (t : option_type) : outcome R :=
  if is_zero vol || negb (is_positive (fwd * strike)) then payout t fwd strike
  else let diff := fwd - strike in let d := diff / vol in
       match t with
       | Call => Ok (diff * NCDF d + vol * NPDF d)
       | Put => Ok (- diff * NCDF (- d) + vol * NPDF d)
       | Straddle => Ok (diff * (2 * NCDF d - 1) + 2 * vol * NPDF d)
       | NotSet => Throw
       end.
(** black.cpp:28-53 BlackGreeks: forward delta and vega.  Ok None: vol is zero or the quotient has no logarithm, so
    that the code computes with infinities or not-a-number, which the model does not follow. *)
Definition black_greeks (fwd vol strike : R) (t : option_type) : outcome (option (R * R)) :=
  let dp := d_plus fwd vol strike in
  let ok p := Ok (if reqb vol 0 || rleb (fwd * strike) 0 then None else Some p) in
  match t with
  | Call => ok (NCDF dp, fwd * NPDF dp)
  | Put => ok (- NCDF (- dp), fwd * NPDF dp)
  | Straddle => ok (NCDF dp - NCDF (- dp), 2 * fwd * NPDF dp)
  | NotSet => Throw
  end.
(** black.cpp:69-94 BachelierGreeks *)
Definition bachelier_greeks (fwd vol strike : R) (t : option_type) : outcome (option (R * R)) :=
  let d := (fwd - strike) / vol in
  let ok p := Ok (if reqb vol 0 then None else Some p) in
  match t with
  | Call => ok (NCDF d, NPDF d)
  | Put => ok (- NCDF (- d), NPDF d)
  | Straddle => ok (NCDF d - NCDF (- d), 2 * NPDF d)
  | NotSet => Throw
  end.

(** black.hpp:71-76 and 96-101 ParameterNames *)
Definition parameter_names : list str := [lit "forward"; lit "vol"].
(** black.cpp:102-118 and 125-141 ParameterDerivatives, given the greeks; the code collects the pairs in a
    map, here they are listed in the order of the names asked for.
    String_ compares without regard to case (string/strings.hpp). *)
Fixpoint parameter_derivatives (vol : R) (greeks : R * R) (names : list str) : outcome (list (str * R)) :=
  match names with
  | [] => Ok []
  | n :: r =>
    do v <- (if ci_eqb n (lit "delta") then Ok (lit "delta", fst greeks)
             else if ci_eqb n (lit "vega") then Ok (lit "vega", snd greeks)
             else if ci_eqb n (lit "volvega") then Ok (lit "volvega", vol * snd greeks)
             else Throw);
    do vs <- parameter_derivatives vol greeks r; Ok (v :: vs)
  end.

(** black.cpp:20-25 and 61-66: the loop of at most n rounds.  The value is the volatility returned, with the list of
    the volatilities at which the formula was evaluated.  When the root finder proposes something that is not a
    number the model stops (Ok None), without following the code further. *)
Fixpoint iv_loop (opt : R -> outcome R) (x_tol f_tol price : R) (n : nat) (s : search) : outcome (option R * list R) :=
  match n with
  | O => Throw
  | S k =>
    do (x, s1) <- search_next s;
    match x with
    | Val x =>
      let vol := exp x in
      do p <- opt vol;
      do (b, s2) <- converged x_tol f_tol s1 (p - price);
      if b then Ok (Some vol, [vol]) else do (v, l) <- iv_loop opt x_tol f_tol price k s2; Ok (v, vol :: l)
    | _ => Ok (None, [])
    end
  end.
(** black.cpp:14-26 and 55-67, from the starting point of the search; rootfind.hpp:56 gives the default arguments *)
Definition implied (opt : R -> outcome R) (fwd strike : R) (t : option_type) (price start : R) : outcome (option R * list R) :=
  do intrinsic <- payout t fwd strike;
  if rltb price intrinsic then Throw
  else let tol := 1 / 10 ^ 10 in iv_loop opt (tol * Rmax 1 fwd) (tol * Rmax 1 price) price 30%nat (new_search start epsilon 0).
(** black.cpp:14-26 BlackIV *)
Definition black_iv (fwd strike : R) (t : option_type) (price guess : R) : outcome (option R * list R) :=
  implied (fun vol => black_opt fwd vol strike t) fwd strike t price (if rltb 0 guess then ln guess else - (3 / 2)).
(** black.cpp:55-67 BachelierIV *)
Definition bachelier_iv (fwd strike : R) (t : option_type) (price guess : R) : outcome (option R * list R) :=
  implied (fun vol => bachelier_opt fwd vol strike t) fwd strike t price (if rltb 0 guess then guess else - (3 / 2) * fwd).

End Distribution.
