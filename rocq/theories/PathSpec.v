(** What the questions put to a history of fixings should answer, in real numbers. *)
From Coq Require Import ZArith List Reals.
From Verif Require Import DateModel DateTimeModel.
Import ListNotations.
Local Open Scope R_scope.

(** A date and a fraction of a day as one number of days. *)
Definition moment (t : Z * R) : R := IZR (fst t) + snd t.
(** A date-time the library can make: a 16-bit date, a fraction in [0, 1). *)
Definition good_time (t : Z * R) : Prop := (0 <= fst t < 65536)%Z /\ 0 <= snd t < 1.

(** How far [x] is outside the range [lo, hi]. *)
Definition outside (lo hi x : R) : R := Rmax 0 (Rmax (lo - x) (x - hi)).

(** The fixing recorded for the moment [r], if any. *)
Fixpoint fixed_at (f : list ((Z * R) * R)) (r : R) : option R :=
  match f with [] => None | (t, x) :: f => if Req_EM_T (moment t) r then Some x else fixed_at f r end.
(** The product of [p x] over the fixings [x] recorded at start, start + step, ..., start + (n-1) step. *)
Fixpoint product (p : R -> R) (f : list ((Z * R) * R)) (start step : R) (n : nat) : R :=
  match n with
  | O => 1
  | S n => match fixed_at f start with Some x => p x | None => 1 end * product p f (start + step) step n
  end.
