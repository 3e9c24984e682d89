(** Model of dal/time/date.hpp and dal/time/date.cpp.
    A date is its 16-bit serial, a [Z] in 0..65535; 0 is the invalid date. *)
From Coq Require Import String Ascii ZArith List Bool.
From Coq Require Import Floats.SpecFloat.
From Verif Require Import Base.
Import ListNotations.
Open Scope Z_scope.

(** * binary64 arithmetic used by the conversion (round to nearest even) *)
Definition prec : Z := 53.
Definition emax : Z := 1024.
Definition fl_of_Z (z : Z) : spec_float := binary_normalize prec emax z 0 false.
Definition fadd := SFadd prec emax.
Definition fsub := SFsub prec emax.
Definition fmul := SFmul prec emax.
Definition fdiv := SFdiv prec emax.
(** A decimal literal n/d with n, d exactly representable: the nearest double. *)
Definition fl_lit (n d : Z) : spec_float := fdiv (fl_of_Z n) (fl_of_Z d).
(** static_cast<int>(double): truncation towards zero (only applied to finite, in-range values) *)
Definition fl_trunc (x : spec_float) : Z :=
  match x with
  | S754_finite s m e =>
      let a := if 0 <=? e then Z.pos m * 2 ^ e else Z.pos m / 2 ^ (- e) in
      if s then - a else a
  | _ => 0
  end.

(** The literals of ExcelDateToYMD as doubles. *)
Definition lit_1867216_25 : spec_float := Eval vm_compute in fl_lit 7468865 4.
Definition lit_36524_25 : spec_float := Eval vm_compute in fl_lit 146097 4.
Definition lit_122_1 : spec_float := Eval vm_compute in fl_lit 1221 10.
Definition lit_365_25 : spec_float := Eval vm_compute in fl_lit 1461 4.
Definition lit_30_6001 : spec_float := Eval vm_compute in fl_lit 306001 10000.

(** dal/time/date.cpp:13 *)
Definition EXCEL_OFFSET : Z := 25568.

(** dal/time/date.cpp:15-27 ExcelDateToYMD; the ints and longs stay far below their limits for the
    serials that occur (0 <= serial <= 25568 + 65535). *)
Definition excel_date_to_ymd (serial0 : Z) : Z * Z * Z :=
  let serial := serial0 + 2415019 in
  let alpha := fl_trunc (fdiv (fsub (fl_of_Z serial) lit_1867216_25) lit_36524_25) in
  let A := serial + 1 + alpha - Z.quot alpha 4 in
  let B := A + 1524 in
  let C := fl_trunc (fdiv (fsub (fl_of_Z B) lit_122_1) lit_365_25) in
  let D := fl_trunc (fmul lit_365_25 (fl_of_Z C)) in
  let E := fl_trunc (fdiv (fl_of_Z (B - D)) lit_30_6001) in
  let dd := B - D - fl_trunc (fmul lit_30_6001 (fl_of_Z E)) in
  let m := E - (if 13 <? E then 13 else 1) in
  (* m > 2.5 for an integer m is 3 <= m *)
  let yy := C - (if 3 <=? m then 4716 else 4715) in
  (yy, m, dd).

(** The same computation with exact rational arithmetic instead of doubles; used only in proofs
    (it is proved equal to [excel_date_to_ymd] on every serial the date type can hold). *)
Definition excel_date_to_ymd_Z (serial0 : Z) : Z * Z * Z :=
  let serial := serial0 + 2415019 in
  let alpha := (4 * serial - 7468865) / 146097 in
  let A := serial + 1 + alpha - alpha / 4 in
  let B := A + 1524 in
  let C := (20 * B - 2442) / 7305 in
  let D := (1461 * C) / 4 in
  let E := ((B - D) * 10000) / 306001 in
  let dd := B - D - (306001 * E) / 10000 in
  let m := E - (if 13 <? E then 13 else 1) in
  let yy := C - (if 3 <=? m then 4716 else 4715) in
  (yy, m, dd).

(** dal/time/date.cpp:29-34 ExcelDateFromYMD.  C integer division truncates ([Z.quot]).  Note the
    parenthesisation of the source: [(3 * ((yy + 4900 + k)) / 100) / 4] multiplies by 3 before
    dividing by 100.  [int] overflow is not modelled (|yy| below about a million). *)
Definition excel_date_from_ymd (yy mm dd : Z) : Z :=
  let k := Z.quot (mm - 14) 12 in
  Z.quot (1461 * (yy + k)) 4 + Z.quot (367 * (mm - 2 - 12 * k)) 12
  - Z.quot (Z.quot (3 * (yy + 4900 + k)) 100) 4 + dd - 693894.

(** static_cast<uint16_t> *)
Definition u16 (z : Z) : Z := z mod 65536.

(** dal/time/date.cpp:36-42 SerialFromYMD; dal/time/date.cpp:45 Date_(int,int,int) *)
Definition serial_from_ymd (yy mm dd : Z) : Z :=
  let xl := excel_date_from_ymd yy mm dd in
  let retval := u16 (xl - EXCEL_OFFSET) in
  if retval + EXCEL_OFFSET =? xl then retval else 0.
Definition mk_date := serial_from_ymd.

(** dal/time/date.hpp:59 *)
Definition is_valid (s : Z) : bool := 0 <? s.

(** dal/time/date.cpp:47-53 Date::FromExcel *)
Definition from_excel (serial : Z) : Z :=
  if (EXCEL_OFFSET <? serial) && (serial <? EXCEL_OFFSET + 65536) then u16 (serial - EXCEL_OFFSET) else 0.
(** dal/time/date.cpp:55 Date::ToExcel *)
Definition to_excel (s : Z) : Z := s + EXCEL_OFFSET.

(** dal/time/date.cpp:57-73 Date::Year, Date::Month, Date::Day *)
Definition ymd (s : Z) : Z * Z * Z := excel_date_to_ymd (to_excel s).
Definition year (s : Z) : Z := fst (fst (ymd s)).
Definition month (s : Z) : Z := snd (fst (ymd s)).
Definition day (s : Z) : Z := snd (ymd s).

(** dal/time/date.hpp:63-67 AddDays; :69-77 operator++ and operator--: uint16_t arithmetic wraps. *)
Definition add_days (s n : Z) : Z := u16 (s + u16 n).
Definition incr (s : Z) : Z := u16 (s + 1).
Definition decr (s : Z) : Z := u16 (s - 1).

(** dal/time/date.cpp:117 operator- *)
Definition date_diff (a b : Z) : Z := to_excel a - to_excel b.
(** dal/time/date.hpp:80-90 comparisons *)
Definition date_eqb (a b : Z) : bool := a =? b.
Definition date_ltb (a b : Z) : bool := a <? b.

(** dal/time/date.cpp:83-86 DayOfWeek; 0 is Sunday *)
Definition day_of_week (s : Z) : Z := Z.rem (to_excel s - 974) 7.
(** dal/time/date.hpp:24 IsWeekEnd *)
Definition is_weekend (s : Z) : bool := Z.rem (day_of_week s) 6 =? 0.

(** dal/time/date.cpp:88-91 DaysInMonth; the narrowing to short is harmless (|difference| < 65536 but a
    difference of a valid and an invalid date may exceed 32767: wrap written out). *)
Definition to_short (z : Z) : Z := (z + 32768) mod 65536 - 32768.
Definition days_in_month (y m : Z) : Z :=
  if m =? 12 then 31 else to_short (date_diff (mk_date y (m + 1) 1) (mk_date y m 1)).

(** dal/time/date.cpp:93-97 EndOfMonth *)
Definition end_of_month (s : Z) : Z :=
  let yy := year s in
  let mm := month s in
  if mm =? 12 then add_days (mk_date (yy + 1) 1 1) (-1) else add_days (mk_date yy (mm + 1) 1) (-1).

(** dal/time/date.cpp:99-115 AddMonths *)
Definition add_months (s n_months : Z) (preserve_eom : bool) : Z :=
  let yy0 := year s in
  let mm0 := month s in
  let dd0 := day s in
  let to_eom := preserve_eom && (dd0 =? days_in_month yy0 mm0) in
  let ny := Z.quot n_months 12 in
  let yy1 := yy0 + ny in
  let mm1 := mm0 + (n_months - 12 * ny) in
  let '(yy2, mm2) := if 12 <? mm1 then (yy1 + 1, mm1 - 12) else (yy1, mm1) in
  let '(yy3, mm3) := if mm2 <? 1 then (yy2 - 1, mm2 + 12) else (yy2, mm2) in
  let d_max := days_in_month yy3 mm3 in
  let dd := if to_eom || (d_max <? dd0) then d_max else dd0 in
  mk_date yy3 mm3 dd.

(** dal/time/date.cpp:119-121 Minimum, Maximum *)
Definition date_minimum : Z := from_excel (EXCEL_OFFSET + 1).
Definition date_maximum : Z := add_days date_minimum 65520 (* 0xFFF0 *).

(** * Text form *)
(** One decimal digit *)
Definition digit (n : Z) : ascii := ascii_of_N (Z.to_N (48 + n)).
(** "%02d" for 0..99 and "%4d" for 1000..9999 (the only values that occur: years 1969..2149) *)
Definition pad2 (n : Z) : string := String (digit (n / 10)) (String (digit (n mod 10)) EmptyString).
Definition pad4 (n : Z) : string :=
  String (digit (n / 1000)) (String (digit (n / 100 mod 10)) (pad2 (n mod 100))).
(** dal/time/date.cpp:75-81 Date::ToString *)
Definition to_string (s : Z) : string :=
  let '(yy, mm, dd) := ymd s in
  (pad4 yy ++ String "-" (pad2 mm ++ String "-" (pad2 dd)))%string.

(** [0-9]+ is matched greedily; the separators are not digits, so there is only one way to match. *)
Definition is_digit (c : ascii) : bool := let n := N_of_ascii c in ((48 <=? n) && (n <=? 57))%N.
Fixpoint span_digits (s : string) : string * string :=
  match s with
  | String c r => if is_digit c then let '(a, b) := span_digits r in (String c a, b) else (EmptyString, s)
  | EmptyString => (EmptyString, EmptyString)
  end.
(** dal/time/dateutils.cpp:13-14, std::regex_match of "([0-9]+)<sep>([0-9]+)<sep>([0-9]+)" *)
Definition match3 (sep : ascii) (s : string) : option (string * string * string) :=
  let '(a, s1) := span_digits s in
  match a, s1 with
  | String _ _, String c1 s2 =>
      if Ascii.eqb c1 sep then
        let '(b, s3) := span_digits s2 in
        match b, s3 with
        | String _ _, String c2 s4 =>
            if Ascii.eqb c2 sep then
              let '(c, s5) := span_digits s4 in
              match c, s5 with
              | String _ _, EmptyString => Some (a, b, c)
              | _, _ => None
              end
            else None
        | _, _ => None
        end
      else None
  | _, _ => None
  end.
Fixpoint dec_value (acc : Z) (s : string) : Z :=
  match s with
  | EmptyString => acc
  | String c r => dec_value (10 * acc + (Z.of_N (N_of_ascii c) - 48)) r
  end.
(** dal/string/strings.cpp:40 String::ToInt on a digit string: std::stoi throws when out of the int range *)
Definition stoi (s : string) : outcome Z :=
  let v := dec_value 0 s in if v <=? 2147483647 then Ok v else Throw.
(** Date_(int,int,int) from user input: the int arithmetic of date.cpp:32-33 overflows for huge arguments (UB). *)
Definition int_range (z : Z) : bool := (-2147483648 <=? z) && (z <=? 2147483647).
Definition mk_date_checked (yy mm dd : Z) : outcome Z :=
  let k := Z.quot (mm - 14) 12 in
  if int_range (yy + k) && int_range (1461 * (yy + k)) && int_range (12 * k) && int_range (mm - 2 - 12 * k)
     && int_range (367 * (mm - 2 - 12 * k)) && int_range (yy + 4900) && int_range (yy + 4900 + k)
     && int_range (3 * (yy + 4900 + k)) && int_range (mm - 14)
     && int_range (Z.quot (1461 * (yy + k)) 4 + Z.quot (367 * (mm - 2 - 12 * k)) 12)
     && int_range (Z.quot (1461 * (yy + k)) 4 + Z.quot (367 * (mm - 2 - 12 * k)) 12 - Z.quot (Z.quot (3 * (yy + 4900 + k)) 100) 4)
     && int_range (Z.quot (1461 * (yy + k)) 4 + Z.quot (367 * (mm - 2 - 12 * k)) 12 - Z.quot (Z.quot (3 * (yy + 4900 + k)) 100) 4 + dd)
     && int_range (excel_date_from_ymd yy mm dd) && int_range (excel_date_from_ymd yy mm dd - EXCEL_OFFSET)
  then Ok (mk_date yy mm dd) else UB.
(** dal/time/dateutils.cpp:18-20 *)
Definition is_date_string (s : string) : bool :=
  match match3 "/" s, match3 "-" s with None, None => false | _, _ => true end.
(** dal/time/dateutils.cpp:22-39 Date::FromString *)
Definition from_string (s : string) : outcome Z :=
  match match3 "/" s with
  | Some (a, b, c) =>
      do mm <- stoi a; do dd <- stoi b; do y <- stoi c;
      mk_date_checked (y + (if (String.length c =? 2)%nat then 2000 else 0)) mm dd
  | None =>
      match match3 "-" s with
      | Some (a, b, c) => do yy <- stoi a; do mm <- stoi b; do dd <- stoi c; mk_date_checked yy mm dd
      | None => Throw
      end
  end.

(** dal/time/dateutils.cpp:41-48 MonthFromFutureCode; the argument is a char code *)
Definition month_from_future_code (code : Z) : outcome Z :=
  if (65 <=? code) && (code <=? 90) then
    match nth_error [0; 0; 0; 0; 0; 1; 2; 3; 0; 4; 5; 0; 6; 7; 0; 0; 8; 0; 0; 0; 9; 10; 0; 11; 0; 12]
            (Z.to_nat (code - 65)) with
    | Some v => if 0 <? v then Ok v else Throw
    | None => UB
    end
  else Throw.
