(** dal/string/stringutils.cpp (flags in text) and the rest of dal/math/cell.cpp and cell.hpp (what a cell converts to). *)
From Coq Require Import String Ascii ZArith List Bool.
From Verif Require Import Base DateModel StringModel DictModel ClockModel.
Import ListNotations.
Open Scope Z_scope.

(** stringutils.cpp:13-30 CharToBool *)
Definition char_to_bool (c : ascii) : outcome bool :=
  if existsb (Ascii.eqb c) ["T"; "t"; "Y"; "y"; "1"]%char then Ok true
  else if existsb (Ascii.eqb c) ["F"; "f"; "N"; "n"; "0"]%char then Ok false
  else Throw.
(** :32-40 TestTrue and TestFalse: the size, then one letter after another; toupper of a negative char is undefined
    (255, which is EOF, is taken with the others) *)
Fixpoint spells (word s : str) : outcome bool :=
  match word, s with
  | [], [] => Ok true
  | w :: word', c :: s' => if 128 <=? code c then UB else if Ascii.eqb (toupper c) w then spells word' s' else Ok false
  | _, _ => Ok false
  end.
Definition test_word (word s : str) : outcome bool := if Nat.eqb (length s) (length word) then spells word s else Ok false.
Definition test_true : str -> outcome bool := test_word (lit "TRUE").
Definition test_false : str -> outcome bool := test_word (lit "FALSE").
(** :44-52 String::ToBool *)
Definition to_bool (s : str) : outcome bool :=
  match s with
  | [] => Throw
  | [c] => char_to_bool c
  | _ => do t <- test_true s; if t then Ok true else do f <- test_false s; if f then Ok false else Throw
  end.
(** :54-64 String::ToBoolVector *)
Definition to_bool_vector (s : str) : outcome (list bool) :=
  match snd (cut "," s) with
  | Some _ => mapm to_bool (split s "," true)
  | None =>
      do t <- test_true s; if t then Ok [true] else
      do f <- test_false s; if f then Ok [false] else
      mapm char_to_bool s
  end.
(** cell.cpp:98-103 FromBoolVector *)
Definition from_bool_vector {N T} (l : list bool) : cell N T := CStr (map (fun b : bool => if b then "T"%char else "F"%char) l).
(** :90-96 Cell::ToBoolVector *)
Definition cell_bool_vector {N T} (c : cell N T) : outcome (list bool) :=
  match c with CBool b => Ok [b] | CStr s => to_bool_vector s | _ => Throw end.

Section Cells.
Variables N T : Type.
(** numerics.cpp:12-15 AsInt; "ii == d"; int to double; strings.cpp:49 FromDouble; DateTime::ToString *)
Variable as_int : N -> outcome Z.
Variable equals_int : N -> Z -> bool.
Variable of_int : Z -> N.
Variables zero one : N.
Variable show_double : N -> str.
Variable show_time : T -> str.
Notation cell := (cell N T).
(** cell.hpp:70-74, 76, 90, 97 (cell.cpp:43-49, 62-65), 104, 108, 112 *)
Definition is_empty (c : cell) : bool := match c with CEmpty | CStr [] => true | _ => false end.
Definition is_string (c : cell) : bool := match c with CStr _ => true | _ => false end.
Definition is_double (c : cell) : bool := match c with CNum _ => true | _ => false end.
Definition is_bool (c : cell) : bool := match c with CBool _ => true | _ => false end.
Definition is_date_cell (c : cell) : bool := match c with CDate _ => true | _ => false end.
Definition is_time_cell (c : cell) : bool := match c with CTime _ => true | _ => false end.
Definition is_int (c : cell) : outcome bool := match c with CNum x => do i <- as_int x; Ok (equals_int x i) | _ => Ok false end.
(** cell.cpp:14-25, 52-55 ToString *)
Definition cell_to_string (c : cell) : outcome str :=
  match c with
  | CNum x => do i <- as_int x; Ok (if equals_int x i then show_int i else show_double x)
  | CBool b => Ok (if b then lit "TRUE" else lit "FALSE")
  | CStr s => Ok s
  | CDate d => Ok (list_ascii_of_string (DateModel.to_string d))
  | CTime t => Ok (show_time t)
  | CEmpty => Ok []
  end.
(** :27-31, 57-60 ToDouble; :33-41, 67-70 ToInt; :72-88 ToBool, ToDate, ToDateTime *)
Definition cell_to_double (c : cell) : outcome N := match c with CNum x => Ok x | CBool b => Ok (if b then one else zero) | _ => Throw end.
Definition cell_to_int (c : cell) : outcome Z :=
  match c with
  | CNum x => do i <- as_int x; if equals_int x i then Ok i else Throw
  | CBool b => Ok (if b then 1 else 0)
  | _ => Throw
  end.
Definition cell_to_bool (c : cell) : outcome bool := match c with CBool b => Ok b | _ => Throw end.
Definition cell_to_date (c : cell) : outcome Z := match c with CDate d => Ok d | _ => Throw end.
Definition cell_to_time (c : cell) : outcome T := match c with CTime t => Ok t | _ => Throw end.
(** cell.hpp:83-85, 92-94, 99-101: with a value for the empty cell *)
Definition or_empty {A} (read : cell -> outcome A) (v : A) (c : cell) : outcome A := if is_empty c then Ok v else read c.
(** cell.hpp:80-82, 86-88: an enumeration goes through its text *)
Definition to_enum {E} (parse : str -> outcome E) (c : cell) : outcome E := do s <- cell_to_string c; parse s.
Definition from_enum {E} (show : E -> str) (e : E) : cell := CStr (show e).
End Cells.
