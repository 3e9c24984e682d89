(** Model of the start-up of the library and of its market conventions: dal/time/calendars/init.cpp, dal/currency/init.cpp,
    dal/platform/initall.cpp, dal/currency/currencydata.cpp and dal/protocol/conventions.cpp. *)
From Coq Require Import String Ascii ZArith List Bool.
From Verif Require Import Base StringModel DateModel HolidayModel IndexModel CalendarData.
Import ListNotations.
Local Open Scope Z_scope.

(** * The shipped calendars *)
Definition date_of (t : Z * Z * Z) : Z := let '(y, m, d) := t in mk_date y m d.
(** china.hpp:9-91 and 95-126, built by Date_(yy, mm, dd). *)
Definition sse_holidays : list Z := map date_of sse_ymd.
Definition ib_weekends : list Z := map date_of ib_weekends_ymd.
(** init.cpp:21-24: a std::set of the holidays of the stock exchange (sorted, without repetition) less one date, copied back. *)
Definition ib_holidays : list Z := filter (fun d => negb (d =? mk_date 2024 2 9)) (uniqueZ sse_holidays).

(** * Facts by currency: currencydata.cpp:14-46 *)
(** currency.hpp: equality of the enumeration. *)
Definition ccy_eq_dec (a b : ccy) : {a = b} + {a <> b}.
Proof. decide equality. Defined.
Section Facts.
  Context {T : Type}.
  (** The values are objects of their own, owned by a handle: [live] are those that exist, by address. An address is not used
      again after its object is gone. *)
  Record fact := Fact { next : Z; live : list (Z * T); background : option Z; specific : list (ccy * Z) }.
  Definition fact_empty : fact := Fact 0 [] None [].
  Definition release (a : option Z) (l : list (Z * T)) : list (Z * T) :=
    match a with None => l | Some a => filter (fun p => negb (fst p =? a)) l end.
  Fixpoint slot (c : ccy) (l : list (ccy * Z)) : option Z :=
    match l with [] => None | (c', a) :: r => if ccy_eq_dec c' c then Some a else slot c r end.
  (** what a Writer_ is asked to do (facts.hpp:21-26) *)
  Inductive write := ByDefault (v : T) | For (c : ccy) (v : T).
  (** currencydata.cpp:25-26: the handle is reset to a new object, which ends the old one. *)
  Definition put_fact (f : fact) (w : write) : fact :=
    match w with
    | ByDefault v => Fact (next f + 1) ((next f, v) :: release (background f) (live f)) (Some (next f)) (specific f)
    | For c v => Fact (next f + 1) ((next f, v) :: release (slot c (specific f)) (live f)) (background f) ((c, next f) :: specific f)
    end.
  (** currencydata.cpp:37-43: the reference handed out is the address of the object. *)
  Definition refer (f : fact) (c : ccy) : outcome Z :=
    match slot c (specific f) with
    | Some a => Ok a
    | None => match background f with Some a => Ok a | None => Throw end
    end.
  (** Using a reference. *)
  Definition use (f : fact) (a : Z) : outcome T :=
    match find (fun p => fst p =? a) (live f) with Some (_, v) => Ok v | None => UB end.
  Definition fact_of (f : fact) (c : ccy) : outcome T := do a <- refer f c; use f a.
End Facts.
Arguments fact : clear implicits. Arguments write : clear implicits.

(** * The state of the process *)
(** The three other facts (currencydata.cpp:52-57: payment holidays, Libor and swap day counts) are written by nobody in the library
    and left out. *)
Record world := World { w_reg : hdata; w_calendars : bool; w_days : fact Z; w_fixing : fact holidays; w_facts : bool; w_all : bool }.
Definition w_start : world := World hd_empty false fact_empty fact_empty false false.
Definition sse : str := lit "CN.SSE".
Definition ib : str := lit "CN.IB".
(** calendars/init.cpp:17-28 *)
Definition init_calendars (w : world) : world * outcome unit :=
  if w_calendars w then (w, Ok tt) else
  let '(r1, o1) := add_center (w_reg w) sse sse_holidays [] in
  match o1 with
  | Ok _ =>
      let '(r2, o2) := add_center r1 ib ib_holidays ib_weekends in
      (World r2 (match o2 with Ok _ => true | _ => false end) (w_days w) (w_fixing w) (w_facts w) (w_all w), o2)
  | e => (World r1 false (w_days w) (w_fixing w) (w_facts w) (w_all w), e)
  end.
(** currency/init.cpp:16-24. One centre is named, so the merged calendars (holidays.cpp:36-40) play no part. *)
Definition init_facts (w : world) : world * outcome unit :=
  if w_facts w then (w, Ok tt) else
  let days := put_fact (put_fact (w_days w) (ByDefault 2)) (For CNY 1) in
  match mk_holidays (w_reg w) [] ib with
  | Ok h => (World (w_reg w) (w_calendars w) days (put_fact (w_fixing w) (For CNY h)) true (w_all w), Ok tt)
  | Throw => (World (w_reg w) (w_calendars w) days (w_fixing w) false (w_all w), Throw)
  | UB => (w, UB)
  | OutOfFuel => (w, OutOfFuel)
  end.
(** initall.hpp:11-14, initall.cpp:21-41: a constructor that throws leaves the static unbuilt, and the next call builds it again.
    The threads, the console, the index parsers (IndexModel) and the tape are left out. *)
Definition init_all (w : world) : world * outcome unit :=
  if w_all w then (w, Ok tt) else
  let '(w1, o1) := init_calendars w in
  match o1 with
  | Ok _ =>
      let '(w2, o2) := init_facts w1 in
      (World (w_reg w2) (w_calendars w2) (w_days w2) (w_fixing w2) (w_facts w2) (match o2 with Ok _ => true | _ => false end), o2)
  | e => (w1, e)
  end.

(** What a user can do. *)
Inductive event :=
| Init
| AddCenter (city : str) (hols wws : list Z)
| SetDays (w : write Z)
| SetFixing (w : write holidays).
Definition happen (w : world) (e : event) : world :=
  match e with
  | Init => fst (init_all w)
  | AddCenter c h k => World (fst (add_center (w_reg w) c h k)) (w_calendars w) (w_days w) (w_fixing w) (w_facts w) (w_all w)
  | SetDays x => World (w_reg w) (w_calendars w) (put_fact (w_days w) x) (w_fixing w) (w_facts w) (w_all w)
  | SetFixing x => World (w_reg w) (w_calendars w) (w_days w) (put_fact (w_fixing w) x) (w_facts w) (w_all w)
  end.
Definition after (es : list event) : world := fold_left happen es w_start.

(** * Libor: conventions.cpp:13-41 *)
Definition libor_start (w : world) (c : ccy) (fix_date : Z) : outcome Z :=
  do h <- fact_of (w_fixing w) c; do n <- fact_of (w_days w) c; start_from_fix h n fix_date.
(** The time of day, always ten o'clock, is left out. *)
Definition libor_fixing (w : world) (c : ccy) (start : Z) : outcome Z :=
  do h <- fact_of (w_fixing w) c; do n <- fact_of (w_days w) c; fix_date_from_start h n start.
