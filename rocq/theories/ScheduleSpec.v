(** Specification of schedules. *)
From Coq Require Import Ascii ZArith List Sorted.
From Verif Require Import Base DateSpec StringModel HolidayModel HolidaySpec.
Import ListNotations.
Open Scope Z_scope.

(** [chain next l]: each element of [l] is obtained from the one before it by [next]. *)
Inductive chain (next : Z -> outcome Z) : list Z -> Prop :=
| chain_one d : chain next [d]
| chain_step d d' l : next d = Ok d' -> chain next (d' :: l) -> chain next (d :: d' :: l).

(** A schedule generated forward: it starts at [start], steps by [next] as long as the date does not exceed
    [maturity], and ends at [maturity] (with a short last period if needed). *)
Definition forward_schedule (next : Z -> outcome Z) (start maturity : Z) (l : list Z) : Prop :=
  exists body, chain next body /\ hd 0 body = start /\ Forall (fun d => start <= d <= maturity) body /\
    (exists beyond, next (last body 0) = Ok beyond /\ maturity < beyond) /\
    (last body 0 = maturity /\ l = body \/ last body 0 <> maturity /\ l = body ++ [maturity]).
(** Backward: read from the end, it steps by [next] from [maturity] down to [start]. *)
Definition backward_schedule (next : Z -> outcome Z) (start maturity : Z) (l : list Z) : Prop :=
  exists body, chain next body /\ hd 0 body = maturity /\ Forall (fun d => start <= d <= maturity) body /\
    (exists beyond, next (last body 0) = Ok beyond /\ beyond < start) /\
    (last body 0 = start /\ l = rev body \/ last body 0 <> start /\ l = start :: rev body).

(** The tenor moves strictly forward (backward) between the two dates. *)
Definition advances (next : Z -> outcome Z) (a b : Z) : Prop := forall d, a <= d <= b -> exists d', next d = Ok d' /\ d < d'.
Definition retreats (next : Z -> outcome Z) (a b : Z) : Prop := forall d, a <= d <= b -> exists d', next d = Ok d' /\ d' < d.

(** All months between two month indices can be built (see C01, C03). *)
Definition good_months (lo hi : Z) : Prop := forall y m, 1 <= m <= 12 -> lo <= month_index y m <= hi -> good_month y m.

(** [d] is the first business day on or after [p]. *)
Definition rolls_to (h : list center) (p d : Z) : Prop := p <= d < 65536 /\ business h d /\ forall x, p <= x < d -> ~ business h x.

(** A text of decimal digits and its value. *)
Inductive decimal : str -> Z -> Prop :=
| decimal_nil : decimal [] 0
| decimal_snoc s v c : decimal s v -> 48 <= code c <= 57 -> decimal (s ++ [c]) (10 * v + (code c - 48)).
