(** Words for the spreadsheet functions that make, print and value products. *)
From Coq Require Import String Ascii ZArith List Bool.
From Verif Require Import Base DateModel StringModel StringSpec DictModel ScriptModel EventModel DealModel.
Import ListNotations.
Open Scope Z_scope.
Open Scope list_scope.

(** The table has a row under this heading (in any letter case) with this number. *)
Definition shows {N : Num} {T} (table : list (list (DictModel.cell num T))) (heading : str) (v : num) : Prop :=
  exists k, In [CStr k; CNum v] table /\ same_up_to_case k heading.
(** The rows are a heading and a number each, in the order of the headings, which all differ (not only in letter case). *)
Definition heading_of {N : Num} {T} (row : list (DictModel.cell num T)) : str := match row with CStr k :: _ => k | _ => [] end.
Definition in_order {N : Num} {T} (table : list (list (DictModel.cell num T))) : Prop :=
  Forall (fun row => exists k v, row = [CStr k; CNum v]) table /\
  forall i j a b, (i < j)%nat -> nth_error table i = Some a -> nth_error table j = Some b -> ci_ltb (heading_of a) (heading_of b) = true.
(** [v] is the risk at the last of the places with this name. *)
Definition last_risk {N : Num} (names : list str) (risks : list num) (n : str) (v : num) : Prop :=
  exists i a, nth_error names i = Some a /\ same_up_to_case a n /\ nth_error risks i = Some v /\
    forall j b, (i < j)%nat -> nth_error names j = Some b -> ~ same_up_to_case b n.
(** all names differ, not only in letter case *)
Definition all_differ (names : list str) : Prop :=
  forall i j a b, nth_error names i = Some a -> nth_error names j = Some b -> same_up_to_case a b -> i = j.

(** How a cell of the first column was meant and how the spreadsheet passes it: a date as itself or as its number, texts as they are *)
Inductive entered {N T} (as_int : N -> outcome Z) (equals_int : N -> Z -> bool) : DictModel.cell N T -> DictModel.cell N T -> Prop :=
| as_date d : entered as_int equals_int (CDate d) (CDate d)
| as_number d x : 1 <= d < 65536 -> as_int x = Ok (to_excel d) -> equals_int x (to_excel d) = true -> entered as_int equals_int (CDate d) (CNum x)
| as_text s : entered as_int equals_int (CStr s) (CStr s).

(** What a first cell and an event's text are: an event on a date, or a schedule or macro with its definition *)
Inductive means {N T} : DictModel.cell N T * str -> EventModel.row -> Prop :=
| means_dated d text : means (CDate d, text) (EventModel.Dated d text)
| means_named s text : means (CStr s, text) (EventModel.Named s text).

(** The lines printed for the events, numbered from [k]; the text of a statement ends with an empty line. *)
Section Lines.
Context {Stmt : Type}.
Variable shown : Stmt -> list str.
Fixpoint statement_lines (k : Z) (l : list Stmt) : list str :=
  match l with [] => [] | s :: r => (lit "Statement_: " ++ show_int k) :: shown s ++ [[]] ++ statement_lines (k + 1) r end.
Fixpoint event_lines (k : Z) (l : list (Z * list Stmt)) : list str :=
  match l with
  | [] => []
  | (d, ss) :: r => (lit "EventTime_: " ++ lit (to_string d) ++ "009"%char :: lit "Event_: " ++ show_int k) :: statement_lines 1 ss ++ event_lines (k + 1) r
  end.
End Lines.
(** a text of whole lines *)
Definition of_lines (l : list str) : str := concat (map line l).
From Verif Require Import DebugModel.
(** A tree in functional form, by lines *)
Fixpoint tree_lines (prefix : str) (t : tree) : list str :=
  match t with
  | Node label args =>
      let fix rest (l : list tree) : list str :=
        match l with [] => [] | a :: r => (prefix ++ lit ",") :: tree_lines (prefix ++ tab) a ++ rest r end in
      match args with
      | [] => [prefix ++ label]
      | a :: r => (prefix ++ label ++ lit "(") :: tree_lines (prefix ++ tab) a ++ rest r ++ [prefix ++ lit ")"]
      end
  end.
