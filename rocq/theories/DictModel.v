(** dal/utilities/dictionary.cpp and the parts of dal/math/cell.cpp, dal/math/cellutils.cpp,
    dal/time/datetimeutils.cpp it rests on: dictionaries of cells and their text form. *)
From Coq Require Import String Ascii ZArith List Bool Lia DecimalString.
From Verif Require Import Base DateModel StringModel OMap.
Import ListNotations.
Open Scope Z_scope.

(** std::to_string of an int (strings.cpp:51 FromInt) *)
Definition show_int (z : Z) : str := list_ascii_of_string (NilZero.string_of_int (Z.to_int z)).

Section Dict.
(** double, and DateTime_, together with the library routines that print and read them.  They are parameters:
    std::stod over the whole string (strings.cpp:42-47 ToDouble, None = throws), the check "is a 32-bit whole number" of
    numerics.cpp:12-15 AsInt and cell.cpp:43-49 IsInt_, std::to_string of a double (strings.cpp:49) *)
Variables N T : Type.
Variable to_double : str -> option N.
Variable as_int : N -> outcome (option Z).
Variable show_double : N -> str.
(** datetime.hpp:43-45 DateTime::ToString and datetimeutils.cpp:26-38 DateTime::FromString *)
Variable show_time : T -> str.
Variable read_time : str -> outcome T.

(** dal/math/cell.hpp Cell_ *)
Inductive cell : Type :=
| CEmpty | CBool (b : bool) | CNum (x : N) | CDate (d : Z) | CTime (t : T) | CStr (s : str).

(** dal/math/cellutils.cpp:13-28 Cell::CoerceToString *)
Definition coerce_to_string (c : cell) : outcome str :=
  match c with
  | CStr s => Ok s
  | CBool b => Ok (if b then lit "true" else lit "false")
  | CNum x => do i <- as_int x; Ok (match i with Some z => show_int z | None => show_double x end)
  | CDate d => Ok (list_ascii_of_string (DateModel.to_string d))
  | CTime t => Ok (show_time t)
  | CEmpty => Ok []
  end.

(** strings.cpp:31-38 IsNumber *)
Definition is_number (s : str) : bool := match to_double s with Some _ => true | None => false end.
Definition is_date (s : str) : bool := is_date_string (string_of_list_ascii s).
(** datetimeutils.cpp:14-24 IsDateTimeString: the text before the first space is a date; after it a colon follows at
    least one character, and something follows the colon *)
Definition is_date_time (s : str) : bool :=
  match cut " " s with
  | (_, None) => false
  | (d, Some r) => is_date d && match cut ":" r with
                                | (_ :: _, Some (_ :: _)) => true
                                | _ => false
                                end
  end.

(** dictionary.cpp:60-70: the cell a value text stands for *)
Definition read_value (s : str) : outcome cell :=
  match to_double s with
  | Some x => Ok (CNum x)
  | None => if is_date s then do d <- DateModel.from_string (string_of_list_ascii s); Ok (CDate d)
            else if is_date_time s then do t <- read_time s; Ok (CTime t)
            else match s with [] => Ok CEmpty | _ => Ok (CStr s) end
  end.
(** dal/math/cellutils.cpp:32-48 Cell::ConvertString *)
Definition convert_string (s : str) : outcome cell :=
  match s with
  | [] => Ok CEmpty
  | _ => match to_double s with
         | Some x => Ok (CNum x)
         | None => if is_date s then do d <- DateModel.from_string (string_of_list_ascii s); Ok (CDate d)
                   else if is_date_time s then do t <- read_time s; Ok (CTime t)
                   else if ci_eqb s (lit "TRUE") then Ok (CBool true)
                   else if ci_eqb s (lit "FALSE") then Ok (CBool false)
                   else Ok (CStr s)
         end
  end.

(** dictionary.hpp:15: a std::map keyed by String_, which compares without regard to case *)
Definition dict := list (str * cell).
(** dictionary.cpp:14-18 Insert *)
Definition insert (d : dict) (key : str) (v : cell) : outcome dict :=
  do k <- condensed key;
  match mfind ci_compare d k with Some _ => Throw | None => Ok (minsert ci_compare d k v) end.
(** dictionary.cpp:22-29 At *)
Definition at_key (d : dict) (key : str) (optional : bool) : outcome cell :=
  do k <- condensed key;
  match mfind ci_compare d k with
  | Some v => Ok v
  | None => if optional then Ok CEmpty else Throw
  end.
(** dictionary.cpp:31 Has *)
Definition has (d : dict) (key : str) : outcome bool :=
  do k <- condensed key; Ok (match mfind ci_compare d k with Some _ => true | None => false end).

(** dictionary.cpp:43-53 Dictionary::ToString; [acc] is the text so far *)
Fixpoint write_from (acc : str) (d : dict) : outcome str :=
  match d with
  | [] => Ok acc
  | (k, v) :: r =>
      let acc1 := match acc with [] => acc | _ => acc ++ [";"%char] end in
      do t <- coerce_to_string v;
      write_from (acc1 ++ k ++ ["="%char] ++ t) r
  end.
Definition write (d : dict) : outcome str := write_from [] d.

(** dictionary.cpp:54-74 Dictionary::FromString; one entry *)
Definition read_entry (d : dict) (e : str) : outcome dict :=
  match split e "=" true with
  | [k; vs] => match k with
               | [] => Throw
               | _ => do v <- read_value vs; insert d k v
               end
  | _ => Throw
  end.
Fixpoint read_entries (d : dict) (l : list str) : outcome dict :=
  match l with [] => Ok d | e :: r => do d1 <- read_entry d e; read_entries d1 r end.
Definition read (s : str) : outcome dict := read_entries [] (split s ";" false).
End Dict.
Arguments CEmpty {N T}. Arguments CBool {N T}. Arguments CNum {N T}. Arguments CDate {N T}. Arguments CTime {N T}.
Arguments CStr {N T}. Arguments insert {N T}. Arguments at_key {N T}. Arguments has {N T}.
Arguments coerce_to_string {N T}. Arguments read_value {N T}. Arguments convert_string {N T}.
Arguments write_from {N T}. Arguments write {N T}. Arguments read_entry {N T}. Arguments read_entries {N T}.
Arguments read {N T}. Arguments is_number {N}.
