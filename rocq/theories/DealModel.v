(** The spreadsheet functions that make, print and value products: public/excel/__script.cpp, public/src/script.hpp, public/excel/__value.cpp,
    public/src/value.cpp; and the names of the parameters of the models. *)
From Coq Require Import String Ascii ZArith List Bool.
From Verif Require Import Base DateModel StringModel HolidayModel OMap DictModel FlagModel ScriptModel EventModel RiskModel.
Import ListNotations.
Open Scope Z_scope.
Open Scope list_scope.

(** * Making a product *)
Section Make.
Context {N T : Type}.
Variable as_int : N -> outcome Z.
Variable equals_int : N -> Z -> bool.
Variable show_double : N -> str.
Variable show_time : T -> str.
Notation cell := (DictModel.cell N T).
(** __script.cpp:48-54: the spreadsheet may give a date as a number *)
Definition read_date (c : cell) : outcome cell :=
  if is_double N T c then do k <- cell_to_int N T as_int equals_int c; Ok (CDate (from_excel k)) else Ok c.
Fixpoint read_dates (l : list cell) : outcome (list cell) :=
  match l with [] => Ok [] | c :: r => do d <- read_date c; do ds <- read_dates r; Ok (d :: ds) end.
(** event.hpp:157-164 ScriptProductData_ *)
Record data := Data { d_name : str; d_dates : list cell; d_events : list str }.
(** __script.cpp:43-56 Product_New *)
Definition product_new (name : str) (dates : list cell) (events : list str) : outcome data :=
  do ds <- read_dates dates; Ok (Data name ds events).
(** event.cpp:20-24, 61-66: what the first cell of a row is.  Here all rows are looked at before the first one is processed. *)
Definition row_of (c : cell) (text : str) : outcome row :=
  match c with
  | CDate d => Ok (Dated d text)
  | _ => do s <- cell_to_string N T as_int equals_int show_double show_time c; Ok (Named s text)
  end.
Fixpoint rows_of (dates : list cell) (events : list str) : outcome (list row) :=
  match dates, events with
  | c :: cs, t :: ts => do r <- row_of c t; do rs <- rows_of cs ts; Ok (r :: rs)
  | _, _ => Ok []
  end.
Section Product.
Variables (reg : hdata) (combos : list (str * center)).
Context {Number Stmt : Type}.
Variables (tokenize : str -> list str) (number : str -> option Number) (parse : omap str Number -> str -> outcome (list Stmt))
  (regex_replace : str -> str -> str -> outcome str) (fuel : nat).
(** event.hpp:54-59, 165: Product(), with the evaluation date of the moment; the past and the future events *)
Definition product_of (today : Z) (d : data) : outcome (list (Z * list Stmt) * list (Z * list Stmt)) :=
  if Nat.eqb (length (d_dates d)) (length (d_events d)) then
    do rows <- rows_of (d_dates d) (d_events d); parse_events reg combos tokenize number parse regex_replace fuel today rows
  else Throw.

(** * Printing it: event.cpp:161-179.  [show] is what the Debugger_ makes of a statement (DebugModel.debug) *)
Variable show : Stmt -> str.
Definition line (l : str) : str := l ++ [newline].
Fixpoint print_vars (i : Z) (names : list str) : str :=
  match names with [] => [] | n :: r => line (lit "Var[" ++ show_int i ++ lit "] = " ++ n) ++ print_vars (i + 1) r end.
Fixpoint print_statements (k : Z) (l : list Stmt) : str :=
  match l with [] => [] | s :: r => line (lit "Statement_: " ++ show_int k) ++ line (show s) ++ print_statements (k + 1) r end.
Fixpoint print_events (k : Z) (l : list (Z * list Stmt)) : str :=
  match l with
  | [] => []
  | (d, ss) :: r => line (lit "EventTime_: " ++ lit (to_string d) ++ "009"%char :: lit "Event_: " ++ show_int k) ++ print_statements 1 ss ++ print_events (k + 1) r
  end.
(** script.hpp:19-25 DebugScriptProduct: IndexVariables has not been called, so there are no variables; __script.cpp:58-61 Product_Debug *)
Definition product_debug (today : Z) (d : data) : outcome (list str) :=
  do p <- product_of today d;
  match print_vars 0 [] ++ print_events 1 (snd p) with
  | [] => Throw
  | text => Ok (split text newline true)
  end.
End Product.
End Make.

(** * The table of values *)
Section Table.
Context {N : Num}.
(** value.cpp:32-45: without sensitivities, or with the names and the risks of SimResults_ *)
Fixpoint put_risks (m : omap str num) (l : list (str * num)) : omap str num :=
  match l with [] => m | (n, v) :: r => put_risks (massign ci_compare m (lit "d_" ++ n) v) r end.
Definition value_map (pv : num) (risks : option (list str * list num)) : outcome (omap str num) :=
  let m := massign ci_compare [] (lit "PV") pv in
  match risks with
  | None => Ok m
  | Some (names, rs) => do l <- report names rs names; Ok (put_risks m l)
  end.
(** __value.cpp:46-53 *)
Definition value_table {T : Type} (m : omap str num) : list (list (DictModel.cell num T)) := map (fun p => [CStr (fst p); CNum (snd p)]) m.
End Table.

(** * The names of the parameters *)
(** blackscholes.hpp:63-66 *)
Definition bs_labels : list str := [lit "spot"; lit "vol"; lit "rate"; lit "div"].
Section Labels.
Context {N : Type}.
(** std::setprecision(2) << std::fixed *)
Variable fixed : N -> str.
Definition lvol (s t : N) : str := lit "lvol " ++ fixed s ++ lit " " ++ fixed t.
(** dupire.hpp:68-78: rows of spots, columns of times; reading beyond them is undefined *)
Fixpoint lvol_row (s : N) (times : list N) (nc : nat) : outcome (list str) :=
  match nc with
  | O => Ok []
  | S k => match times with t :: r => do l <- lvol_row s r k; Ok (lvol s t :: l) | [] => UB end
  end.
Fixpoint lvol_rows (spots times : list N) (nr nc : nat) : outcome (list str) :=
  match nr with
  | O => Ok []
  | S k => match spots with
           | s :: r => do l <- lvol_row s times nc; do ls <- lvol_rows r times k nc; Ok (l ++ ls)
           | [] => match nc with O => Ok [] | S _ => UB end
           end
  end.
Definition dupire_labels (spots times : list N) (nr nc : nat) : outcome (list str) :=
  do l <- lvol_rows spots times nr nc; Ok (lit "spot" :: lit "rate" :: lit "repo" :: l).
End Labels.
