(** Model of dal/time/holidaydata.cpp, dal/time/holidays.cpp, dal/time/dateincrement.cpp and
    dal/protocol/conventions.cpp.  Dates are 16-bit serials (DateModel). *)
From Coq Require Import String Ascii ZArith List Bool.
From Verif Require Import Base DateModel StringModel.
Import ListNotations.
Open Scope Z_scope.

(** * dal/utilities/algorithms.hpp *)
Section Algorithms.
  Context {A : Type} (ltb eqb : A -> A -> bool).
  (** std::sort, as insertion sort: the elements compared equal are interchangeable for the callers below *)
  Fixpoint insert (x : A) (l : list A) : list A :=
    match l with [] => [x] | y :: r => if ltb y x then y :: insert x r else x :: l end.
  Fixpoint sort (l : list A) : list A := match l with [] => [] | x :: r => insert x (sort r) end.
  (** std::unique *)
  Fixpoint dedup (l : list A) : list A :=
    match l with
    | [] => []
    | x :: r => match dedup r with
                | [] => [x]
                | y :: r' => if eqb x y then x :: r' else x :: y :: r'
                end
    end.
  (** algorithms.hpp:101-108 Unique *)
  Definition unique (l : list A) : list A := dedup (sort l).
  (** algorithms.hpp:110-112 LowerBound: the number of leading elements below [x] (the partition point, which is
      what std::lower_bound returns on a sorted range) *)
  Fixpoint lower_bound (l : list A) (x : A) : nat :=
    match l with [] => O | y :: r => if ltb y x then S (lower_bound r x) else O end.
  (** algorithms.hpp:118-120 BinarySearch *)
  Definition binary_search (l : list A) (x : A) : bool :=
    match nth_error l (lower_bound l x) with Some y => negb (ltb x y) | None => false end.
  (** algorithms.hpp:140-151 IsMonotonic *)
  Fixpoint is_monotonic (l : list A) : bool :=
    match l with
    | x :: (y :: _) as r => ltb x y && is_monotonic r
    | _ => true
    end.
End Algorithms.
Definition uniqueZ : list Z -> list Z := unique Z.ltb Z.eqb.
Definition unique_str : list str -> list str := unique ci_ltb ci_eqb.

(** * dal/time/holidaydata.hpp:13-27 *)
Record center := Center { c_name : str; c_hols : list Z; c_wws : list Z }.
Record hdata := HData { hd_list : list center; hd_index : list (str * Z) }.
Definition hd_empty : hdata := HData [] [].

(** std::map<String_, T>: association list searched with the map's ordering (case-insensitive) *)
Fixpoint map_find {T} (m : list (str * T)) (k : str) : option T :=
  match m with [] => None | (k', v) :: r => if ci_eqb k' k then Some v else map_find r k end.

(** holidaydata.cpp:14-25 HolidayData_::IsValid *)
Definition hd_valid (h : hdata) : bool :=
  let nc := Z.of_nat (length (hd_list h)) in
  (Z.of_nat (length (hd_index h)) =? nc) &&
  forallb (fun ki => let '(k, i) := ki in
             if (nc <=? i) || (i <? 0) then false
             else match nth_error (hd_list h) (Z.to_nat i) with
                  | Some c => ci_eqb (c_name c) k
                  | None => false
                  end) (hd_index h).
(** holidaydata.cpp:37-49 *)
Definition contains_no_weekends (l : list Z) : bool := forallb (fun d => negb (Z.rem (day_of_week d) 6 =? 0)) l.
Definition contains_only_weekends (l : list Z) : bool := forallb (fun d => Z.rem (day_of_week d) 6 =? 0) l.
(** holidaydata.cpp:52-69 AddCenter, one thread: the new registry and the outcome *)
Definition add_center (h : hdata) (city : str) (hols wws : list Z) : hdata * outcome unit :=
  if negb (hd_valid h) then (h, Throw)
  else if negb (contains_no_weekends hols) then (h, Throw)
  else if negb (contains_only_weekends wws) then (h, Throw)
  else if negb (is_monotonic Z.ltb hols) then (h, Throw)
  else if negb (is_monotonic Z.ltb wws) then (h, Throw)
  else match map_find (hd_index h) city with
       | Some _ => (h, Throw)
       | None =>
           let temp := HData (hd_list h ++ [Center city hols wws])
                             (hd_index h ++ [(city, Z.of_nat (length (hd_list h)))]) in
           (temp, if hd_valid temp then Ok tt else Throw)
       end.
(** holidaydata.cpp:71-76 CenterIndex *)
Definition center_index (h : hdata) (c : str) : outcome Z :=
  match map_find (hd_index h) c with Some i => Ok i | None => Throw end.
(** holidaydata.cpp:78-83 OfCenter *)
Definition of_index (h : hdata) (i : Z) : outcome center :=
  if (0 <=? i) && (i <? Z.of_nat (length (hd_list h))) then
    match nth_error (hd_list h) (Z.to_nat i) with Some c => Ok c | None => UB end
  else Throw.
Definition of_center (h : hdata) (c : str) : outcome center := do i <- center_index h c; of_index h i.

(** * dal/time/holidays.cpp *)
(** A Holidays_ is its [parts_]. *)
Definition holidays := list center.
(** holidays.cpp:22-25 NameFromCenter, :57 String *)
Definition hols_name (h : holidays) : str := accumulate (map c_name h) (lit " ") true.
Fixpoint map_outcome {A B} (f : A -> outcome B) (l : list A) : outcome (list B) :=
  match l with [] => Ok [] | x :: r => do y <- f x; do ys <- map_outcome f r; Ok (y :: ys) end.
(** holidays.cpp:32-41 Holidays_(src): [combos] is TheCombinations *)
Definition mk_holidays (h : hdata) (combos : list (str * center)) (src : str) : outcome holidays :=
  do parts <- map_outcome (of_center h) (unique_str (split src " "%char false));
  Ok (if (1 <? Z.of_nat (length parts))
      then match map_find combos (hols_name parts) with Some c => [c] | None => parts end
      else parts).
(** holidays.cpp:43-55 *)
Definition is_holiday (h : holidays) (d : Z) : bool := existsb (fun p => binary_search Z.ltb (c_hols p) d) h.
Definition is_work_weekend (h : holidays) (d : Z) : bool := existsb (fun p => binary_search Z.ltb (c_wws p) d) h.
(** holidays.cpp:121-124 None; :61 operator!= against it *)
Definition hols_none : holidays := [].
Definition hols_neqb (a b : holidays) : bool := negb (ci_eqb (hols_name a) (hols_name b)).

(** the loop test of holidays.cpp:109 and :116 *)
Definition bus_test (h : holidays) (d : Z) : bool := is_work_weekend h d || (negb (is_weekend d) && negb (is_holiday h d)).
(** holidays.cpp:107-119.  The 16-bit serial wraps, so 65536 steps visit every date: when none passes the test
    the C++ loop never ends, which is [OutOfFuel] here. *)
Fixpoint next_bus_fuel (fuel : nat) (h : holidays) (d : Z) : outcome Z :=
  match fuel with
  | O => OutOfFuel
  | S f => if bus_test h d then Ok d else next_bus_fuel f h (incr d)
  end.
Fixpoint prev_bus_fuel (fuel : nat) (h : holidays) (d : Z) : outcome Z :=
  match fuel with
  | O => OutOfFuel
  | S f => if bus_test h d then Ok d else prev_bus_fuel f h (decr d)
  end.
Definition cycle : nat := Z.to_nat 65536.
Definition next_bus (h : holidays) (from : Z) : outcome Z := next_bus_fuel cycle h from.
Definition prev_bus (h : holidays) (from : Z) : outcome Z := prev_bus_fuel cycle h from.

(** holidays.cpp:63-76 CountBusDays_ constructor: new cache and the stored calendar *)
Definition merged (h : holidays) : center :=
  Center (hols_name h) (uniqueZ (flat_map c_hols h)) (uniqueZ (flat_map c_wws h)).
Definition count_ctor (combos : list (str * center)) (h : holidays) : list (str * center) * center :=
  match map_find combos (hols_name h) with
  | Some c => (combos, c)
  | None => let c := merged h in ((hols_name h, c) :: combos, c)
  end.
(** holidays.cpp:91-103: the tail loop; the iterators p1Stop and p2Stop are the remaining suffixes *)
Fixpoint count_tail (n : nat) (d : Z) (p1 p2 : list Z) (ret : Z) : Z :=
  match n with
  | O => ret
  | S k =>
      let '(p1', ret1) :=
        if negb (is_weekend d) then
          match p1 with
          | x :: r => if x =? d then (r, ret) else (p1, ret + 1)
          | [] => (p1, ret + 1)
          end
        else (p1, ret) in
      let '(p2', ret2) :=
        match p2 with
        | x :: r => if x =? d then (r, ret1 + 1) else (p2, ret1)
        | [] => (p2, ret1)
        end in
      count_tail k (incr d) p1' p2' ret2
  end.
(** holidays.cpp:78-105 CountBusDays_::operator().  The loop runs end - stop times (at most six), since
    stop <= end and the serial does not wrap below [end]. *)
Definition count_bus_days (c : center) (b e : Z) : Z :=
  if e <=? b then 0
  else
    let weeks := Z.quot (date_diff e b) 7 in
    let stop := add_days b (7 * weeks) in
    let hols := c_hols c in
    let wws := c_wws c in
    let p1 := lower_bound Z.ltb hols stop in
    let p2 := lower_bound Z.ltb wws stop in
    let hols_to_stop := Z.of_nat p1 - Z.of_nat (lower_bound Z.ltb hols b) in
    let wws_to_add := Z.of_nat p2 - Z.of_nat (lower_bound Z.ltb wws b) in
    count_tail (Z.to_nat (e - stop)) stop (skipn p1 hols) (skipn p2 wws) (5 * weeks - hols_to_stop + wws_to_add).

(** * dal/time/dateincrement.cpp *)
Inductive step_size := SY | SM | SW | SCD | SBD.
(** dateincrement.cpp:133-136: n times next (previous) business day strictly after (before) *)
Fixpoint bd_steps (n : nat) (forward : bool) (h : holidays) (d : Z) : outcome Z :=
  match n with
  | O => Ok d
  | S k => do d' <- (if forward then next_bus h (add_days d 1) else prev_bus h (add_days d (-1)));
           bd_steps k forward h d'
  end.
(** dateincrement.cpp:114-142 DateStepSize_::operator() ([int] overflow of 12*n and 7*n is undefined) *)
Definition step (sz : step_size) (from : Z) (forward : bool) (n : Z) (h : holidays) : outcome Z :=
  let sign := if forward then 1 else -1 in
  do r <- match sz with
          | SY => if int_range (12 * n) then Ok (add_months from (12 * n * sign) false) else UB
          | SM => Ok (add_months from (n * sign) false)
          | SW => if int_range (7 * n) then Ok (add_days from (7 * n * sign)) else UB
          | SCD => Ok (add_days from (n * sign))
          | SBD => bd_steps (Z.to_nat n) forward h from
          end;
  if hols_neqb h hols_none then (if forward then next_bus h r else prev_bus h r) else Ok r.
(** dateincrement.cpp:173-176 NBusDays, :149-151 FwdFrom/BackFrom *)
Definition n_bus_days_fwd (n : Z) (h : holidays) (d : Z) : outcome Z := step SBD d true n h.
Definition n_bus_days_back (n : Z) (h : holidays) (d : Z) : outcome Z := step SBD d false n h.

(** dateincrement.cpp:50-55 MonthInRange; the callers' months are in 0..15, so the fuel is ample *)
Fixpoint while_gt12 (fuel : nat) (y m : Z) : Z * Z :=
  match fuel with O => (y, m) | S f => if 12 <? m then while_gt12 f (y + 1) (m - 12) else (y, m) end.
Fixpoint while_lt1 (fuel : nat) (y m : Z) : Z * Z :=
  match fuel with O => (y, m) | S f => if m <? 1 then while_lt1 f (y - 1) (m + 12) else (y, m) end.
Definition month_in_range (y m : Z) : Z * Z := let '(y1, m1) := while_gt12 3 y m in while_lt1 3 y1 m1.
(** dateincrement.cpp:63-65 and 79-81: do mm += sign while (mm % k) *)
Fixpoint do_month (fuel : nat) (k mm sign : Z) : outcome Z :=
  match fuel with
  | O => OutOfFuel
  | S f => let mm' := mm + sign in if Z.rem mm' k =? 0 then Ok mm' else do_month f k mm' sign
  end.
Definition sign_of (forward : bool) : Z := if forward then 1 else -1.
(** dateincrement.cpp:57-69 ToCDS *)
Definition to_cds (from : Z) (forward : bool) : outcome Z :=
  let '(yy, mm, dd) := ymd from in
  do mm1 <- (if (if forward then 20 <=? dd else dd <=? 20) then do_month 4 3 mm (sign_of forward) else Ok mm);
  let '(y2, m2) := month_in_range yy mm1 in Ok (mk_date y2 m2 20).
(** dateincrement.cpp:71 IMMDay *)
Definition imm_day (yy mm : Z) : Z := 21 - day_of_week (mk_date yy mm 18).
(** dateincrement.cpp:73-85 ToIMM *)
Definition to_imm (from : Z) (forward : bool) (k : Z) : outcome Z :=
  let '(yy, mm, dd) := ymd from in
  do mm1 <- (if (if forward then imm_day yy mm <=? dd else dd <=? imm_day yy mm)
             then do_month 4 k mm (sign_of forward) else Ok mm);
  let '(y2, m2) := month_in_range yy mm1 in Ok (mk_date y2 m2 (imm_day y2 m2)).
(** dateincrement.cpp:97-98 EOM *)
Definition to_eom (from : Z) (forward : bool) : Z :=
  if forward then end_of_month from else add_days (mk_date (year from) (month from) 1) (-1).

(** * dal/protocol/conventions.cpp: [nDays] and [hols] are the currency's conventions *)
(** conventions.cpp:13-23 StartFromFix *)
Definition start_from_fix (h : holidays) (n_days fix_date : Z) : outcome Z :=
  if n_days =? 0 then next_bus h fix_date else bd_steps (Z.to_nat n_days) true h fix_date.
(** conventions.cpp:26-35 FixDateFromStart *)
Definition fix_date_from_start (h : holidays) (n_days start : Z) : outcome Z :=
  if n_days =? 0 then prev_bus h start else bd_steps (Z.to_nat n_days) false h start.

(** holidaydata.cpp:60-67 as two threads can interleave it: the copy is taken and extended before the lock, the
    swap publishes it.  [prepare] is the part before the lock. *)
Definition prepare (h : hdata) (city : str) (hols wws : list Z) : option hdata :=
  match add_center h city hols wws with (t, Ok _) => Some t | _ => None end.
(** Thread A prepares, thread B prepares, A publishes, B publishes. *)
Definition racing_adds (h : hdata) (a b : str * list Z * list Z) : option hdata :=
  match prepare h (fst (fst a)) (snd (fst a)) (snd a), prepare h (fst (fst b)) (snd (fst b)) (snd b) with
  | Some _, Some tb => Some tb
  | _, _ => None
  end.
