(** Words for C86. *)
From Coq Require Import String Ascii ZArith List Bool.
From Verif Require Import Base DateModel StringModel DictModel ExcelModel ExcelSpec RecordModel.
Import ListNotations.
Open Scope nat_scope.

(** one after the other; the first that fails is the failure of all *)
Fixpoint all_of {A} (l : list (outcome A)) : outcome (list A) :=
  match l with [] => Ok [] | x :: r => do v <- x; do vs <- all_of r; Ok (v :: vs) end.
Section Fields.
Variables N T E H : Type.
Variable as_int : N -> outcome Z.
Variable equals_int near_int : N -> Z -> bool.
Variable parse : str -> outcome E.
Variable fetch : str -> outcome (option H).
Variable cast : H -> option H.
(** the column asked for *)
Definition column_of (f : field N E) : Z :=
  match f with FDouble c | FDoubleOr c _ | FInt c | FIntOr c _ | FBool c | FString c | FStringOr c _ | FDate c | FEnum c | FEnumOr c _ | FHandle c => c end.
(** what is asked for when the cell is blank or the range has no such column *)
Definition default_of (f : field N E) : option (value N E H) :=
  match f with FDoubleOr _ d => Some (VDouble d) | FIntOr _ d => Some (VInt d) | FStringOr _ d => Some (VString d) | FEnumOr _ d => Some (VEnum d) | _ => None end.
(** a tag, of an object that is there and of the right class *)
Definition object (tag : str) : outcome (value N E H) :=
  match tag with
  | [] => Throw
  | _ => do h <- fetch tag; match h with Some x => match cast x with Some y => Ok (VHandle y) | None => Throw end | None => Throw end
  end.
(** a cell, read as the field wants it *)
Definition read_as_field (f : field N E) (o : oper N) : outcome (value N E H) :=
  match f with
  | FDouble _ | FDoubleOr _ _ => do x <- to_double o; Ok (VDouble x)
  | FInt _ | FIntOr _ _ => do x <- to_int as_int near_int o; Ok (VInt x)
  | FBool _ => do x <- to_bool equals_int o; Ok (VBool x)
  | FString _ | FStringOr _ _ => do x <- to_string o false; Ok (VString x)
  | FDate _ => do x <- to_date N T as_int equals_int o false; Ok (VDate x)
  | FEnum _ | FEnumOr _ _ => do x <- to_string o false; do e <- parse x; Ok (VEnum e)
  | FHandle _ => do x <- to_string o false; object x
  end.
(** a field of row [i] of a range *)
Definition field_at (nc : nat) (cells : list (oper N)) (i : nat) (f : field N E) : outcome (value N E H) :=
  if (column_of f <? Z.of_nat nc)%Z then
    let o := at_place nc cells i (Z.to_nat (column_of f)) in
    match default_of f with Some d => if is_blank o then Ok d else read_as_field f o | None => read_as_field f o end
  else match default_of f with Some d => Ok d | None => Throw end.

(** a value as the spreadsheet gives it back ([returned]), read as the field wants it *)
Definition from_cell (f : field N E) (c : DictModel.cell N T) : outcome (value N E H) :=
  match f, c with
  | (FDouble _ | FDoubleOr _ _), CNum x => Ok (VDouble x)
  | (FInt _ | FIntOr _ _), CNum x => do i <- as_int x; if near_int x i then Ok (VInt i) else Throw
  | FBool _, CBool b => Ok (VBool b)
  | FBool _, CNum x => if equals_int x 0 then Ok (VBool false) else if equals_int x 1 then Ok (VBool true) else Throw
  | (FString _ | FStringOr _ _), CStr s => Ok (VString s)
  | (FString _ | FStringOr _ _), CEmpty => Ok (VString [])
  | FDate _, CNum x => do i <- as_int x; if equals_int x i then Ok (VDate (from_excel i)) else Throw
  | (FEnum _ | FEnumOr _ _), CStr s => do e <- parse s; Ok (VEnum e)
  | (FEnum _ | FEnumOr _ _), CEmpty => do e <- parse []; Ok (VEnum e)
  | FHandle _, CStr s => object s
  | _, _ => Throw
  end.
(** a field of a row of values *)
Definition field_from (row : list (DictModel.cell N T)) (f : field N E) : outcome (value N E H) :=
  match nth_error row (Z.to_nat (column_of f)), default_of f with
  | Some CEmpty, Some d => Ok d
  | Some c, _ => from_cell f c
  | None, Some d => Ok d
  | None, None => Throw
  end.
End Fields.
