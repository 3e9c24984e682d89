(** What the tables exchanged with the spreadsheet should be. *)
From Coq Require Import Ascii ZArith List Bool.
From Verif Require Import Base DateModel StringModel DictModel ExcelModel.
Import ListNotations.
Open Scope nat_scope.

(** A range of the spreadsheet: as many cells as rows times columns, row after row *)
Definition range {N} (nr nc : nat) (cells : list (oper N)) : Prop := length cells = nr * nc.
Definition at_place {N} (nc : nat) (cells : list (oper N)) (i j : nat) : oper N := nth (i * nc + j) cells OMissing.
Definition blank {N} (nc : nat) (cells : list (oper N)) (i j : nat) : Prop := is_blank (at_place nc cells i j) = true.

(** A block of rows and columns at the top left is fenced when the row below it and the column to its right are blank along the
    block, or are the end of the range. *)
Definition fenced (nr nc : nat) (b : nat -> nat -> Prop) (r c : nat) : Prop :=
  1 <= r <= nr /\ 1 <= c <= nc /\ (r = nr \/ forall j, j < c -> b r j) /\ (c = nc \/ forall i, i < r -> b i c).
(** The smallest fenced block *)
Definition smallest (nr nc : nat) (b : nat -> nat -> Prop) (r c : nat) : Prop :=
  fenced nr nc b r c /\ forall r' c', fenced nr nc b r' c' -> r <= r' /\ c <= c'.

(** The columns of the table that several results make up: the scalars, one column for each vector, the columns of each matrix *)
Definition columns_of {N T} (c : nat) (m : list (list (DictModel.cell N T))) : list (list (DictModel.cell N T)) :=
  map (fun j => map (fun row => nth j row CEmpty) m) (seq 0 c).
Definition columns {N T} (l : list (result N T)) : list (list (DictModel.cell N T)) :=
  match scalars l with [] => [] | s => [s] end ++ vectors l ++ flat_map (fun m => columns_of (fst m) (snd m)) (matrices l).
(** the rows of a matrix all have its number of columns *)
Definition rectangular {N T} (r : result N T) : Prop := match r with RMatrix c m => Forall (fun row => length row = c) m | _ => True end.

(** How a cell comes back from the spreadsheet *)
Definition returned {N T} (of_int : Z -> N) (time_number : T -> N) (c : DictModel.cell N T) : DictModel.cell N T :=
  match c with
  | CStr [] | CEmpty => CEmpty
  | CStr s => CStr (until_zero (firstn max_size s))
  | CNum x => CNum x
  | CBool b => CBool b
  | CDate d => CNum (of_int (to_excel d))
  | CTime t => CNum (time_number t)
  end.
(** a cell that shows as blank *)
Definition empty_cell {N T} (c : DictModel.cell N T) : Prop := c = CEmpty \/ c = CStr [].
(** the two columns of a dictionary up to the first row that is blank in both, without the rows whose value is blank *)
Fixpoint entries {N} (rows : list (oper N * oper N)) : list (oper N * oper N) :=
  match rows with
  | [] => []
  | (k, v) :: r => if is_blank v then if is_blank k then [] else entries r else (k, v) :: entries r
  end.

(** a list up to its first empty cell *)
Fixpoint before_empty {N T} (v : list (DictModel.cell N T)) : list (DictModel.cell N T) :=
  match v with [] => [] | CEmpty :: _ => [] | CStr [] :: _ => [] | c :: r => c :: before_empty r end.
(** [m] is what [read] makes of the first [r] rows and [c] columns of a range *)
Definition read_as {N A} (read : oper N -> outcome A) (nc : nat) (cells : list (oper N)) (r c : nat) (m : list (list A)) : Prop :=
  length m = r /\ forall i, i < r -> length (nth i m []) = c /\
    forall j, j < c -> exists x, nth_error (nth i m []) j = Some x /\ read (at_place nc cells i j) = Ok x.
(** one entry of a dictionary: the text of the key, the value, and the insertion, which fails when the key is there *)
Definition add_entry {N T} (acc : outcome (dict N T)) (p : oper N * oper N) : outcome (dict N T) :=
  do d <- acc; do ks <- to_string (fst p) false; do c <- to_cell (snd p) false; DictModel.insert d ks c.
