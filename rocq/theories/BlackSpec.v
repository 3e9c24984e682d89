(** Words of the option-price property. *)
From Coq Require Import Reals List.
From Verif Require Import Base BlackModel.
Local Open Scope R_scope.
(** a distribution function symmetric about zero *)
Definition symmetric (N : R -> R) : Prop := forall x, N (- x) = 1 - N x.
(** the normal law: a symmetric distribution function that vanishes at minus infinity and whose density is
    a multiple of exp(-x^2/2) *)
Record normal_law (N n : R -> R) : Prop := Normal {
  nl_sym : symmetric N;
  nl_zero : forall e, 0 < e -> exists m, forall x, x < m -> Rabs (N x) < e;
  nl_rate : forall x, derivable_pt_lim N x (n x);
  nl_gauss : exists c, 0 < c /\ forall x, n x = c * exp (- (x * x / 2)) }.
(** near x the function gives numbers, and d is its rate of change at x *)
Definition rate (f : R -> outcome R) (x d : R) : Prop :=
  exists g e, 0 < e /\ (forall y, Rabs (y - x) < e -> f y = Ok (g y)) /\ derivable_pt_lim g x d.
(** the volatility is one the code does not treat as zero *)
Definition counts (vol : R) : Prop := epsilon < Rabs vol.
(** the three option prices c, p and v fit together *)
Definition parity (f : option_type -> outcome R) (spot strike : R) : Prop :=
  exists c p v, f Call = Ok c /\ f Put = Ok p /\ f Straddle = Ok v /\ c - p = spot - strike /\ v = c + p.
(** the volatility v solves opt v = price as far as the search can tell: the price is matched within f_tol, or another
    tried volatility, with logarithm closer than x_tol, has a price on the other side *)
Definition solves (opt : R -> outcome R) (x_tol f_tol price : R) (tried : list R) (v : R) : Prop :=
  exists p, opt v = Ok p /\ (Rabs (p - price) < f_tol \/
    exists v' p', In v' tried /\ 0 < v' /\ opt v' = Ok p' /\ (p - price) * (p' - price) <= 0 /\ Rabs (ln v - ln v') < x_tol).
