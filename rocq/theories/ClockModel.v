(** Model of the time of day in dal/time/datetime.cpp and dal/time/datetimeutils.cpp, in binary64. *)
From Coq Require Import ZArith Ascii String List Bool.
From Coq.Floats Require Import SpecFloat.
From Verif Require Import Base DateModel DateTimeModel StringModel.
Import ListNotations.
Local Open Scope Z_scope.
(** datetime.hpp:15-16 *)
Definition moment : Type := datetime (A := FloatArith).
(** datetime.cpp:12-16 FracToHMS (the fractions that occur keep the products in the int range) *)
Definition hms (f : spec_float) : Z * Z * Z :=
  (fl_trunc (fmul (fl_of_Z 24) f), Z.rem (fl_trunc (fmul (fl_of_Z 1440) f)) 60, Z.rem (fl_trunc (fmul (fl_of_Z 86400) f)) 60).
(** datetime.cpp:62-66 Hour, 68-72 Minute *)
Definition hour (t : moment) : Z := fst (fst (hms (snd t))).
Definition minute (t : moment) : Z := snd (fst (hms (snd t))).
(** datetime.cpp:74-80 TimeString; simplified: for parts from 0 to 99 *)
Definition time_string (t : moment) : string :=
  let '(h, m, s) := hms (snd t) in (pad2 h ++ ":" ++ pad2 m ++ ":" ++ pad2 s)%string.
(** datetime.hpp:43-45 ToString *)
Definition to_text (t : moment) : string := (to_string (fst t) ++ " " ++ time_string t)%string.
(** datetime.cpp:29-34: from a number of milliseconds (a long long) *)
Definition of_msec (ms : Z) : outcome moment :=
  let whole := Z.quot ms 86400000 in
  let frac := fdiv (fl_of_Z (ms - 86400000 * whole)) (fl_of_Z 86400000) in
  if SFltb frac (fl_of_Z 1) then Ok (add_days date_minimum whole, frac) else Throw.
(** datetime.cpp:84-87 MSec *)
Definition msec (t : moment) : Z := 86400000 * date_diff (fst t) date_minimum + fl_trunc (fmul (snd t) (fl_of_Z 86400000)).
(** strings.cpp:40 String::ToInt: std::stoi skips blanks, takes a sign and digits, and ignores what follows *)
Fixpoint skip_blanks (s : string) : string :=
  match s with
  | String c r => let n := N_of_ascii c in if ((n =? 32) || ((9 <=? n) && (n <=? 13)))%N then skip_blanks r else s
  | EmptyString => EmptyString
  end.
Definition stoi_text (s : string) : outcome Z :=
  let s := skip_blanks s in
  let '(neg, r) := match s with String "-" r => (true, r) | String "+" r => (false, r) | _ => (false, s) end in
  match span_digits r with
  | (EmptyString, _) => Throw
  | (ds, _) => let v := if neg then - dec_value 0 ds else dec_value 0 ds in if int_range v then Ok v else Throw
  end.
Fixpoint mapm {A B} (f : A -> outcome B) (l : list A) : outcome (list B) :=
  match l with [] => Ok [] | x :: r => do y <- f x; do s <- mapm f r; Ok (y :: s) end.
Definition of_str (s : str) : string := string_of_list_ascii s.
(** datetimeutils.cpp:26-38 FromString *)
Definition from_text (src : string) : outcome moment :=
  let '(first, rest) := cut " " (list_ascii_of_string src) in
  do d <- from_string (of_str first);
  match rest with
  | None => mk_hms (A := FloatArith) d 0 0 0
  | Some r =>
      let parts := split r ":" true in
      if ((2 <=? List.length parts) && (List.length parts <=? 3))%nat then
        do v <- mapm (fun p => stoi_text (of_str p)) parts;
        match v with
        | h :: m :: more =>
            let s := match more with x :: _ => x | [] => 0 end in
            if forallb (fun x => (0 <=? x) && (x <? 60)) v && (h <? 24) then mk_hms (A := FloatArith) d h m s else Throw
        | _ => UB
        end
      else Throw
  end.
(** datetimeutils.cpp:14-24 IsDateTimeString: a date, a blank, something, a colon, something *)
Definition is_text (src : string) : bool :=
  match cut " " (list_ascii_of_string src) with
  | (first, Some r) => is_date_string (of_str first) &&
      match cut ":" r with (_ :: _, Some (_ :: _)) => true | _ => false end
  | _ => false
  end.
