(** Words of the local volatility calibration property. *)
From Coq Require Import Reals List.
Import ListNotations.
Local Open Scope R_scope.
(** within d of the spot *)
Definition in_band (spot d x : R) : Prop := spot - d <= x <= spot + d.
(** half the width of the band the volatilities are computed in: two and a half times sqrt(2 pi) times the at-the-money call *)
Definition half_width (atm : R) : R := 5 / 2 * (atm * (2506628274631 / 10 ^ 12)).
(** x is the grid point whose volatility stands for s: s itself in the band, otherwise the nearest one in the band *)
Definition stands_for (spot d : R) (grid : list R) (s x : R) : Prop :=
  In x grid /\ in_band spot d x /\ (in_band spot d s -> x = s) /\
  (s < spot - d -> forall y, In y grid -> in_band spot d y -> x <= y) /\ (spot + d < s -> forall y, In y grid -> in_band spot d y -> y <= x).
(** the gamma of an undiscounted Black call with density n of the normal law *)
Definition gamma (n : R -> R) (spot vol strike mat : R) : R :=
  n (ln (spot / strike) / (vol * sqrt mat) - vol * sqrt mat / 2) / (strike * (vol * sqrt mat)).
