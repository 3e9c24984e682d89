(** Records read out of a range of the spreadsheet: RowReader_ and ToRecordVector of public/excel/_excel.hpp and _excel.cpp, and the
    readers with defaults of dal/storage/_reader.hpp. *)
From Coq Require Import String Ascii ZArith List Bool.
From Verif Require Import Base DateModel StringModel OMap DictModel ExcelModel.
Import ListNotations.
Open Scope nat_scope.

Section Records.
(** numbers and times as in ExcelModel; [E] an enumeration, [H] objects *)
Variables N T E H : Type.
Variable as_int : N -> outcome Z.
Variable equals_int near_int : N -> Z -> bool.
(** the enumeration's constructor from a string; Fetch (an empty handle is [None]); handle_cast to the class wanted *)
Variable parse : str -> outcome E.
Variable fetch : str -> outcome (option H).
Variable cast : H -> option H.

(** _excel.hpp:101-106: the range, with its columns, and the row *)
Record reader := Reader { columns_of_range : nat; range_cells : list (oper N); row : nat }.
(** lparray[i_col + columns * iRow] with an int for the column; before the array is undefined *)
Definition place (r : reader) (col : Z) : outcome (oper N) :=
  let k := (col + Z.of_nat (columns_of_range r) * Z.of_nat (row r))%Z in if (k <? 0)%Z then UB else cell_at (range_cells r) (Z.to_nat k).
(** _excel.cpp:1086-1090 Exists; the assertion on the row is the loop's condition *)
Definition exists_in (r : reader) (col : Z) : outcome bool :=
  if (col <? Z.of_nat (columns_of_range r))%Z then do o <- place r col; Ok (negb (is_blank o)) else Ok false.
(** _excel.cpp:1092-1097 ReaderExtract *)
Definition extract {A} (read : oper N -> outcome A) (r : reader) (col : Z) : outcome A :=
  if (col <? Z.of_nat (columns_of_range r))%Z then do o <- place r col; read o else Throw.
(** :1098-1105 ReaderExtractOrDefault *)
Definition extract_or {A} (read : oper N -> outcome A) (r : reader) (col : Z) (def : A) : outcome A :=
  if (Z.of_nat (columns_of_range r) <=? col)%Z then Ok def else do o <- place r col; if is_blank o then Ok def else read o.
(** :918-927 ToHandleBase, mandatory *)
Definition to_handle_base (o : oper N) : outcome (option H) :=
  do tag <- to_string o false; match tag with [] => Throw | _ => fetch tag end.

(** What the constructor of a record asks for, one after the other.  A constructor that asks for one field depending on another is left out. *)
Inductive field :=
| FDouble (col : Z) | FDoubleOr (col : Z) (def : N) | FInt (col : Z) | FIntOr (col : Z) (def : Z) | FBool (col : Z) | FString (col : Z)
| FStringOr (col : Z) (def : str) | FDate (col : Z) | FEnum (col : Z) | FEnumOr (col : Z) (def : E) | FHandle (col : Z).
Inductive value := VDouble (x : N) | VInt (z : Z) | VBool (b : bool) | VString (s : str) | VDate (d : Z) | VEnum (e : E) | VHandle (h : H).
Definition to_date_of (o : oper N) : outcome Z := to_date N T as_int equals_int o false.
Definition string_of (o : oper N) : outcome str := to_string o false.
(** _reader.hpp:32-38 ExtractHandle *)
Definition extract_handle (r : reader) (col : Z) : outcome H :=
  do b <- extract to_handle_base r col; match b with None => Throw | Some h => match cast h with None => Throw | Some h' => Ok h' end end.
Definition get_field (r : reader) (f : field) : outcome value :=
  match f with
  (* _excel.cpp:1107-1129 *)
  | FDouble c => do x <- extract to_double r c; Ok (VDouble x)
  | FDoubleOr c d => do x <- extract_or to_double r c d; Ok (VDouble x)
  | FInt c => do x <- extract (to_int as_int near_int) r c; Ok (VInt x)
  | FIntOr c d => do x <- extract_or (to_int as_int near_int) r c d; Ok (VInt x)
  | FBool c => do x <- extract (to_bool equals_int) r c; Ok (VBool x)
  | FString c => do x <- extract string_of r c; Ok (VString x)
  | FDate c => do x <- extract to_date_of r c; Ok (VDate x)
  (* _reader.hpp:22-24 *)
  | FStringOr c d => do b <- exists_in r c; if (b : bool) then do x <- extract string_of r c; Ok (VString x) else Ok (VString d)
  (* _reader.hpp:28-31 *)
  | FEnum c => do x <- extract string_of r c; do e <- parse x; Ok (VEnum e)
  | FEnumOr c d => do b <- exists_in r c; if (b : bool) then do x <- extract string_of r c; do e <- parse x; Ok (VEnum e) else Ok (VEnum d)
  | FHandle c => do h <- extract_handle r c; Ok (VHandle h)
  end.
Fixpoint get_fields (r : reader) (fs : list field) : outcome (list value) :=
  match fs with [] => Ok [] | f :: fs' => do v <- get_field r f; do vs <- get_fields r fs'; Ok (v :: vs) end.

(** _excel.cpp:1079-1084 Rows; [None] is a null pointer *)
Definition rows (src : option (oper N)) : outcome nat :=
  match src with
  | None => Ok 0
  | Some o => if is_blank o then Ok 0 else match o with OMulti _ nr nc cells => do s <- nonblank_size nr nc cells; Ok (fst s) | _ => Throw end
  end.
(** _excel.hpp:121-127 ToRecordVector: the loop, from row [i] on *)
Fixpoint records_from (nc : nat) (cells : list (oper N)) (fs : list field) (n i : nat) : outcome (list (list value)) :=
  match n with O => Ok [] | S m => do v <- get_fields (Reader nc cells i) fs; do l <- records_from nc cells fs m (S i); Ok (v :: l) end.
Definition to_records (fs : list field) (src : option (oper N)) (optional : bool) : outcome (list (list value)) :=
  do n <- rows src;
  do l <- match src with Some (OMulti _ _ nc cells) => records_from nc cells fs n 0 | _ => Ok [] end;
  match l with [] => if optional then Ok l else Throw | _ => Ok l end.
End Records.
Arguments Reader {N}. Arguments columns_of_range {N}. Arguments range_cells {N}. Arguments row {N}. Arguments place {N}. Arguments exists_in {N}.
Arguments extract {N A}. Arguments extract_or {N A}. Arguments rows {N}. Arguments string_of {N}.
Arguments FDouble {N E}. Arguments FDoubleOr {N E}. Arguments FInt {N E}. Arguments FIntOr {N E}. Arguments FBool {N E}. Arguments FString {N E}.
Arguments FStringOr {N E}. Arguments FDate {N E}. Arguments FEnum {N E}. Arguments FEnumOr {N E}. Arguments FHandle {N E}.
Arguments VDouble {N E H}. Arguments VInt {N E H}. Arguments VBool {N E H}. Arguments VString {N E H}. Arguments VDate {N E H}. Arguments VEnum {N E H}. Arguments VHandle {N E H}.
Arguments to_handle_base {N H}.
