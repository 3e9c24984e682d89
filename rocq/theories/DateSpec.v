(** Independent specification of the Gregorian calendar, counted day by day from 1970-01-01. *)
From Coq Require Import ZArith Bool.
Open Scope Z_scope.

Definition leap (y : Z) : bool := (y mod 4 =? 0) && (negb (y mod 100 =? 0) || (y mod 400 =? 0)).
Definition month_len (y m : Z) : Z :=
  if (m =? 4) || (m =? 6) || (m =? 9) || (m =? 11) then 30
  else if m =? 2 then (if leap y then 29 else 28) else 31.

Definition valid_ymd (t : Z * Z * Z) : bool :=
  let '(y, m, d) := t in (1 <=? m) && (m <=? 12) && (1 <=? d) && (d <=? month_len y m).

Definition next_day (t : Z * Z * Z) : Z * Z * Z :=
  let '(y, m, d) := t in
  if d <? month_len y m then (y, m, d + 1)
  else if m <? 12 then (y, m + 1, 1) else (y + 1, 1, 1).

(** [civil n t]: [t] is the calendar day [n] days after 1970-01-01. *)
Inductive civil : Z -> Z * Z * Z -> Prop :=
| civil_0 : civil 0 (1970, 1, 1)
| civil_S n t : civil n t -> civil (n + 1) (next_day t).

(** Lexicographic order of calendar days. *)
Definition ymd_ltb (a b : Z * Z * Z) : bool :=
  let '(y1, m1, d1) := a in
  let '(y2, m2, d2) := b in
  (y1 <? y2) || ((y1 =? y2) && ((m1 <? m2) || ((m1 =? m2) && (d1 <? d2)))).

(** Calendar month arithmetic: months numbered consecutively. *)
Definition month_index (y m : Z) : Z := 12 * y + (m - 1).

(** The days a 16-bit date can hold: 1970-01-01 .. 2149-06-05. *)
Definition last_day : Z * Z * Z := (2149, 6, 5).
Definition supported (t : Z * Z * Z) : Prop :=
  valid_ymd t = true /\ ymd_ltb t (1970, 1, 1) = false /\ ymd_ltb last_day t = false.


(** The days for which building a date from (year, month, day) is one day off: 2034-03-01 .. 2100-02-28. *)
Definition in_bad_window (t : Z * Z * Z) : bool := negb (ymd_ltb t (2034, 3, 1)) && ymd_ltb t (2100, 3, 1).

(** Outside the damaged months and the very last months of the range. *)
Definition good_month (y m : Z) : Prop :=
  month_index 1970 1 <= month_index y m < month_index 2149 6 /\
  (month_index y m < month_index 2034 2 \/ month_index 2100 2 < month_index y m).

