(** Specification of the day-count bases. *)
From Coq Require Import ZArith QArith Bool.
From Verif Require Import DateSpec.
Open Scope Z_scope.

(** Calendar day [n] days after 1970-01-01 has serial [n + 1]. *)
Definition day_at (s : Z) (t : Z * Z * Z) : Prop := civil (s - 1) t.
Definition year_length (y : Z) : Z := if leap y then 366 else 365.

(** ACT/ACT (ISDA): every day of the period weighs one over the length of the calendar year it lies in. *)
Inductive isda (a : Z) : Z -> Q -> Prop :=
| isda_empty q : (q == 0)%Q -> isda a a q
| isda_day b y m d q q' : isda a b q -> day_at b (y, m, d) ->
    (q' == q + 1 / inject_Z (year_length y))%Q -> isda a (b + 1) q'.

(** 30/360 (US): the days between two dates, in a year of twelve 30-day months. *)
Definition last_of_feb (y m d : Z) : bool := (m =? 2) && (d =? month_len y 2).
Definition thirty_360 (t1 t2 : Z * Z * Z) : Z :=
  let '(y1, m1, d1) := t1 in
  let '(y2, m2, d2) := t2 in
  let d2 := if last_of_feb y1 m1 d1 && last_of_feb y2 m2 d2 then 30 else d2 in
  let d1 := if last_of_feb y1 m1 d1 then 30 else d1 in
  let d2 := if (d2 =? 31) && (30 <=? d1) then 30 else d2 in
  let d1 := if d1 =? 31 then 30 else d1 in
  360 * (y2 - y1) + 30 * (m2 - m1) + (d2 - d1).

(** Years in which 1 January of the year and of the next one are both built correctly (see C01). *)
Definition sound_year (y : Z) : Prop := 1970 <= y <= 2033 \/ 2101 <= y <= 2148.
(** Two dates in the same stretch of such years. *)
Definition same_era (y1 y2 : Z) : Prop := (1970 <= y1 <= 2033 /\ 1970 <= y2 <= 2033) \/ (2101 <= y1 <= 2148 /\ 2101 <= y2 <= 2148).

(** The date with serial [f] is the last day of February of year [y]. *)
Definition feb_end (f y : Z) : Prop := day_at f (y, 2, month_len y 2).
