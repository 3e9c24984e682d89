(** Model of dal/time/daybasis.cpp.  Year fractions are exact rationals: the double division and addition of the
    source are not rounded here. *)
From Coq Require Import ZArith QArith Bool.
From Verif Require Import Base DateModel.
Open Scope Z_scope.

Inductive basis := ACT_365F | ACT_365L | ACT_360 | ACT_ACT | BOND.
(** daybasis.hpp:26-36 DayBasis::Context_, the two fields that are read *)
Record context := Context { nominal_end : Z; coupon_months : Z }.

Definition ratio (n d : Z) : Q := (inject_Z n / inject_Z d)%Q.

(** daybasis.cpp:15-22 ActActISDA; the recursion is bounded by fuel *)
Fixpoint act_act (fuel : nat) (from to : Z) : outcome Q :=
  match fuel with
  | O => OutOfFuel
  | S f =>
      let y := year from in
      let next_year := mk_date (y + 1) 1 1 in
      let denom := date_diff next_year (mk_date y 1 1) in
      if to <=? next_year then Ok (ratio (date_diff to from) denom)
      else do rest <- act_act f next_year to; Ok (ratio (date_diff next_year from) denom + rest)%Q
  end.

(** daybasis.cpp:24-36 AnnualDaysL: one turn of the loop per unit of fuel *)
Fixpoint annual_days_l_loop (fuel : nat) (mm yy to : Z) : outcome Z :=
  match fuel with
  | O => OutOfFuel
  | S f =>
      let yy := if 2 <? mm then yy + 1 else yy in
      let mm := 2 in
      if to <? mk_date yy 3 1 then Ok 365
      else if days_in_month yy 2 =? 29 then Ok 366
      else annual_days_l_loop f mm yy to
  end.
Definition annual_days_l (fuel : nat) (from to : Z) : outcome Z :=
  annual_days_l_loop fuel (month (add_days from 1)) (year (add_days from 1)) to.
(** daybasis.cpp:38-41 DaysL *)
Definition days_l (e : Z) : Z := date_diff (mk_date (year e + 1) 1 1) (mk_date (year e) 1 1).
(** daybasis.cpp:43-45 Act365L *)
Definition act_365l (fuel : nat) (from to : Z) (is_annual : bool) (e : Z) : outcome Q :=
  do d <- (if is_annual then annual_days_l fuel from e else Ok (days_l e));
  Ok (ratio (date_diff to from) d).

(** daybasis.cpp:47-63 Bond: the numerator over 360 *)
Definition bond_days (from to : Z) : Z :=
  let '(y1, m1, d1) := ymd from in
  let '(y2, m2, d2) := ymd to in
  let feb1 := (m1 =? 2) && (d1 =? days_in_month y1 m1) in
  let feb2 := (m2 =? 2) && (d2 =? days_in_month y2 m2) in
  let d2 := if feb1 && feb2 then 30 else d2 in
  let d1 := if feb1 then 30 else d1 in
  let d2 := if 30 <? d1 then Z.min d1 d2 else d2 in
  360 * (y2 - y1) + 30 * (m2 - m1) + (d2 - d1).

(** daybasis.cpp:66-83 DayBasis_::operator() *)
Definition day_count (fuel : nat) (b : basis) (from to : Z) (info : option context) : outcome Q :=
  match b with
  | ACT_360 => Ok (ratio (date_diff to from) 360)
  | ACT_365F => Ok (ratio (date_diff to from) 365)
  | ACT_ACT => act_act fuel from to
  | ACT_365L => match info with
                | None => Throw
                | Some i => act_365l fuel from to (coupon_months i =? 12) (nominal_end i)
                end
  | BOND => Ok (ratio (bond_days from to) 360)
  end.
