(** Specification vocabulary for calendars: business days, counting, the n-th business day, registries. *)
From Coq Require Import ZArith List Bool Sorted.
From Verif Require Import Base StringModel StringSpec HolidayModel DateSpec.
Import ListNotations.
Open Scope Z_scope.

(** Serial 1 is 1970-01-01, a Thursday (4, counting from Sunday = 0). *)
Definition weekday (d : Z) : Z := (d + 3) mod 7.
Definition weekend (d : Z) : Prop := weekday d = 0 \/ weekday d = 6.

(** What a registered centre must look like. *)
Definition good_center (c : center) : Prop :=
  StronglySorted Z.lt (c_hols c) /\ StronglySorted Z.lt (c_wws c) /\
  Forall (fun d => 0 <= d < 65536 /\ ~ weekend d) (c_hols c) /\
  Forall (fun d => 0 <= d < 65536 /\ weekend d) (c_wws c).
Definition good (h : list center) : Prop := Forall good_center h.

(** A date is closed when some centre has it as a holiday, opened when some centre declares it a working weekend. *)
Definition closed (h : list center) (d : Z) : Prop := exists c, In c h /\ In d (c_hols c).
Definition opened (h : list center) (d : Z) : Prop := exists c, In c h /\ In d (c_wws c).
Definition business (h : list center) (d : Z) : Prop := ~ closed h d /\ (~ weekend d \/ opened h d).

(** [tally P a b n]: exactly [n] of the integers in [a, b) satisfy [P]. *)
Inductive tally (P : Z -> Prop) (a : Z) : Z -> Z -> Prop :=
| tally_nil : tally P a a 0
| tally_yes b n : tally P a b n -> P b -> tally P a (b + 1) (n + 1)
| tally_no b n : tally P a b n -> ~ P b -> tally P a (b + 1) n.

(** [r] is the n-th business day strictly after (before) [d]. *)
Definition nth_after (h : list center) (d n r : Z) : Prop := d < r /\ business h r /\ tally (business h) (d + 1) (r + 1) n.
Definition nth_before (h : list center) (d n r : Z) : Prop := r < d /\ business h r /\ tally (business h) r d n.

(** The registry seen from outside: the list of accepted centres, in order. *)
Definition acceptable (reg : list center) (city : str) (hols wws : list Z) : Prop :=
  StronglySorted Z.lt hols /\ StronglySorted Z.lt wws /\ (forall d, In d hols -> ~ weekend d) /\
  (forall d, In d wws -> weekend d) /\ (forall c, In c reg -> ~ same_up_to_case (c_name c) city).
Inductive registered : list (str * list Z * list Z) -> list center -> Prop :=
| reg_nil : registered [] []
| reg_accept ops reg city hols wws : registered ops reg -> acceptable reg city hols wws ->
    registered (ops ++ [(city, hols, wws)]) (reg ++ [Center city hols wws])
| reg_reject ops reg city hols wws : registered ops reg -> ~ acceptable reg city hols wws ->
    registered (ops ++ [(city, hols, wws)]) reg.
(** Registration dates are 16-bit. *)
Definition dates_ok (ops : list (str * list Z * list Z)) : Prop :=
  Forall (fun o => Forall (fun d => 0 <= d < 65536) (snd (fst o)) /\ Forall (fun d => 0 <= d < 65536) (snd o)) ops.

(** The calendar a text like "LON NYC" denotes, over the registered centres. *)
Definition closed_in (reg : list center) (tokens : list str) (d : Z) : Prop :=
  exists t c, In t tokens /\ In c reg /\ same_up_to_case (c_name c) t /\ In d (c_hols c).
Definition opened_in (reg : list center) (tokens : list str) (d : Z) : Prop :=
  exists t c, In t tokens /\ In c reg /\ same_up_to_case (c_name c) t /\ In d (c_wws c).
Definition business_in (reg : list center) (tokens : list str) (d : Z) : Prop :=
  ~ closed_in reg tokens d /\ (~ weekend d \/ opened_in reg tokens d).

(** The third Wednesday of a month. *)
Definition third_wednesday (t : Z * Z * Z) : Prop :=
  valid_ymd t = true /\ 15 <= snd t <= 21 /\ exists n, civil n t /\ (n + 4) mod 7 = 3.
(** Months in which building a date works (see C01) and which are wholly in range. *)
Definition sound_month (y m : Z) : Prop := 1 <= m <= 12 /\
  month_index 1970 1 <= month_index y m <= month_index 2149 5 /\
  (month_index y m < month_index 2034 3 \/ month_index 2100 3 <= month_index y m).
