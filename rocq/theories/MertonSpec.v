(** Words of the jump-diffusion price property. *)
From Coq Require Import Reals.
Local Open Scope R_scope.
(** probability of n jumps when m are expected *)
Definition poisson (m : R) (n : nat) : R := exp (- m) * m ^ n / INR (fact n).
(** expected growth of the price at a jump with lognormal size *)
Definition growth (mean_jmp std_jmp : R) : R := exp (mean_jmp + std_jmp * std_jmp / 2).
(** the forward and the volatility given n jumps *)
Definition forward_after (spot mat intens mean_jmp std_jmp : R) (n : nat) : R := spot * growth mean_jmp std_jmp ^ n * exp (- (intens * mat * (growth mean_jmp std_jmp - 1))).
Definition vol_after (vol mat std_jmp : R) (n : nat) : R := sqrt (vol * vol + INR n * (std_jmp * std_jmp) / mat).
