(** public/excel/_excel.cpp: the tables that go to and come from the spreadsheet.  A spreadsheet value is an xloper12
    (_xlcall.hpp:173-213): a type tag and a union.  Numbers, and moments in time, are kept abstract. *)
From Coq Require Import String Ascii ZArith List Bool.
From Verif Require Import Base DateModel StringModel OMap DictModel.
Import ListNotations.
Open Scope nat_scope.

Section Excel.
Variables N T : Type.
(** int to double; numerics.cpp:12-15 AsInt; "id == d" of an int and a double; IsZero(d - id) (platform.hpp:62);
    Date::ToExcel(dt.Date()) + dt.Frac() *)
Variable of_int : Z -> N.
Variable as_int : N -> outcome Z.
Variable equals_int : N -> Z -> bool.
Variable near_int : N -> Z -> bool.
Variable time_number : T -> N.
Notation cell := (DictModel.cell N T).

(** _xlcall.hpp:173-238.  Text is a counted array of 16-bit units (its first unit is the count).  A text and an array are in a
    block of memory, whose number is kept so that freeing can be followed.  An array is taken to have as many rows and columns
    as counted by a natural number.  [OOther] is any other tag: references, flow, errors. *)
Inductive oper : Type :=
| ONum (x : N) | OStr (block : nat) (text : list Z) | OBool (b : Z) | OInt (w : Z) | OMissing | ONil | OOther
| OMulti (block : nat) (rows cols : nat) (cells : list oper).

(** _excel.cpp:157-163 IsBlank *)
Definition is_blank (o : oper) : bool := match o with OMissing | ONil | OStr _ [] => true | _ => false end.

(** a char as a 16-bit unit (:380; char is signed, so the upper half is sign-extended) and back (:845) *)
Definition widen (c : ascii) : Z := let z := Z.of_nat (nat_of_ascii c) in (if z <? 128 then z else z + 65280)%Z.
Definition narrow (z : Z) : ascii := ascii_of_nat (Z.to_nat (z mod 256)%Z).
(** String_(buf) of a zero-terminated buffer: the text ends at the first zero *)
Fixpoint until_zero (s : str) : str := match s with [] => [] | c :: r => if (nat_of_ascii c =? 0) then [] else c :: until_zero r end.
(** :841-848 FromPascalString *)
Definition from_pascal (text : list Z) : str := until_zero (map narrow text).
(** :372-382 WriteToOper: at most 65535 units (LIMIT is 1 << 16, char_type is wchar_t of two bytes: _xlcall.hpp:174) *)
Definition max_size : nat := Z.to_nat 65535.
Definition to_pascal (s : str) : list Z := map widen (firstn max_size s).

(** a single cell of an array, by its place *)
Definition cell_at (cells : list oper) (k : nat) : outcome oper := match nth_error cells k with Some o => Ok o | None => UB end.

(** :735-748 ToDouble.  For xltypeInt the code reads val.num although val.w was set: reading the inactive member of a union is
    undefined. *)
Fixpoint to_double (o : oper) : outcome N :=
  match o with
  | ONum x => Ok x
  | OInt _ => UB
  | OMulti _ r c cells => if r * c =? 1 then match cells with [] => UB | x :: _ => to_double x end else Throw
  | _ => Throw
  end.
(** :756-770 ToInt *)
Fixpoint to_int (o : oper) : outcome Z :=
  match o with
  | ONum x => do i <- as_int x; if near_int x i then Ok i else Throw
  | OInt _ => UB
  | OMulti _ r c cells => if r * c =? 1 then match cells with [] => UB | x :: _ => to_int x end else Throw
  | _ => Throw
  end.
(** :779-794 ToBool *)
Fixpoint to_bool (o : oper) : outcome bool :=
  match o with
  | OBool b => Ok (negb (b =? 0)%Z)
  | ONum x => if equals_int x 0 || equals_int x 1 then Ok (negb (equals_int x 0)) else Throw
  | OInt _ => UB
  | OMulti _ r c cells => if r * c =? 1 then match cells with [] => UB | x :: _ => to_bool x end else Throw
  | _ => Throw
  end.
(** :851-868 ToString; the single cell of an array is read as mandatory *)
Fixpoint to_string (o : oper) (optional : bool) : outcome str :=
  match o with
  | OMissing | ONil => if optional then Ok [] else Throw
  | OStr _ t => Ok (from_pascal t)
  | OMulti _ r c cells => if r * c =? 1 then match cells with [] => UB | x :: _ => to_string x false end else Throw
  | _ => Throw
  end.
(** :870-892 ToCell *)
Fixpoint to_cell (o : oper) (optional : bool) : outcome cell :=
  if is_blank o then if optional then Ok (CEmpty) else Throw
  else match o with
       | OStr _ t => Ok (CStr (from_pascal t))
       | ONum x => Ok (CNum x)
       | OInt _ => UB
       | OBool b => Ok (CBool (negb (b =? 0)%Z))
       | OMulti _ r c cells => if r * c =? 1 then match cells with [] => UB | x :: _ => to_cell x false end else Throw
       | _ => Throw
       end.
(** :750-754, :772-777, :796-801: the optional forms of the numbers; only a missing or empty cell gives no value *)
Definition maybe {A} (read : oper -> outcome A) (o : oper) : outcome (option A) :=
  match o with OMissing | ONil => Ok None | _ => do x <- read o; Ok (Some x) end.
(** :803-817 ToDate.  [Cell::IsEmpty] (cell.hpp:70-74) is also true of an empty text.  Date_() is 0. *)
Definition to_date (o : oper) (optional : bool) : outcome Z :=
  do c <- to_cell o optional;
  match c with
  | CEmpty | CStr [] => if optional then Ok 0%Z else Throw
  | CNum x => do i <- as_int x; if equals_int x i then Ok (from_excel i) else Throw
  | CDate d => Ok d
  | _ => Throw
  end.
(** :894-916 ToDictionary *)
Fixpoint read_pairs (cells : list oper) (rows : nat) (k : nat) (d : dict N T) : outcome (dict N T) :=
  match rows with
  | O => Ok d
  | S m =>
      do key <- cell_at cells (2 * k);
      do v <- cell_at cells (2 * k + 1);
      if negb (is_blank v) then
        do ks <- to_string key false;
        do c <- to_cell v false;
        do d' <- DictModel.insert d ks c;
        read_pairs cells m (S k) d'
      else if is_blank key then Ok d
      else read_pairs cells m (S k) d
  end.
Definition to_dictionary (o : oper) : outcome (dict N T) :=
  match o with
  | OMissing | ONil => Ok []
  | OMulti _ r c cells => if c =? 2 then read_pairs cells r 0 [] else Throw
  | _ => Throw
  end.

(** :929-953 ReadVector *)
Section Vector.
Context {A : Type}.
Variable read : oper -> outcome A.
Fixpoint read_items (cells : list oper) (n : nat) (k : nat) : outcome (list A) :=
  match n with
  | O => Ok []
  | S m => do o <- cell_at cells k;
           if is_blank o then Ok [] else do x <- read o; do r <- read_items cells m (S k); Ok (x :: r)
  end.
Definition read_vector (o : oper) (optional : bool) : outcome (list A) :=
  if is_blank o then if optional then Ok [] else Throw
  else match o with
       | OMulti _ r c cells =>
           if (r =? 1) || (c =? 1) then
             do l <- read_items cells (r * c) 0;
             if negb (match l with [] => true | _ => false end) || optional then Ok l else Throw
           else Throw
       | _ => do x <- read o; Ok [x]
       end.
End Vector.

(** :979-1014 NonblankSize *)
Definition blank_at (cells : list oper) (k : nat) : outcome bool := do o <- cell_at cells k; Ok (is_blank o).
(** find_if over [n] cells from [k] on: how many come before the first blank one *)
Fixpoint leading (cells : list oper) (n k : nat) : outcome nat :=
  match n with O => Ok 0 | S m => do b <- blank_at cells k; if b then Ok 0 else do r <- leading cells m (S k); Ok (S r) end.
(** the cells k, k + step, ... ([n] of them) are all blank; the first that is not ends the search *)
Fixpoint all_blank (cells : list oper) (step n k : nat) : outcome bool :=
  match n with O => Ok true | S m => do b <- blank_at cells k; if b then all_blank cells step m (k + step) else Ok false end.
(** :998-1002 with [n] rows left *)
Fixpoint grow_rows (cells : list oper) (nc cols rows n : nat) : outcome nat :=
  match n with
  | O => Ok rows
  | S m => do b <- all_blank cells 1 cols (rows * nc); if b then Ok rows else grow_rows cells nc cols (S rows) m
  end.
(** :1004-1010 with [n] columns left *)
Fixpoint grow_cols (cells : list oper) (nc rows cols n : nat) : outcome nat :=
  match n with
  | O => Ok cols
  | S m => do b <- all_blank cells nc rows cols; if b then Ok cols else grow_cols cells nc rows (S cols) m
  end.
(** :995-1013 *)
Fixpoint grow (fuel : nat) (cells : list oper) (nr nc rows cols : nat) : outcome (nat * nat) :=
  match fuel with
  | O => OutOfFuel
  | S f =>
      do rows' <- grow_rows cells nc cols rows (nr - rows);
      do cols' <- grow_cols cells nc rows' cols (nc - cols);
      if (rows' =? rows) && (cols' =? cols) then Ok (rows', cols') else grow f cells nr nc rows' cols'
  end.
Definition nonblank_size (nr nc : nat) (cells : list oper) : outcome (nat * nat) :=
  if nr * nc =? 0 then Ok (0, 0)
  else if (nr =? 1) || (nc =? 1) then
    do n <- leading cells (nr * nc) 0;
    Ok (if nr =? 1 then (1, n) else (n, 1))
  else
    (* && evaluates left to right (:992) *)
    do b0 <- blank_at cells 0;
    do b <- (if b0 then do b1 <- blank_at cells 1; if b1 then blank_at cells nc else Ok false else Ok false);
    if b then Ok (0, 0) else grow (nr + nc) cells nr nc 1 1.

(** :1016-1044 ToMatrix: the columns and the rows read; an empty matrix has no rows *)
Section Matrix.
Context {A : Type}.
Variable read : oper -> outcome A.
Fixpoint read_row (cells : list oper) (n k : nat) : outcome (list A) :=
  match n with O => Ok [] | S m => do o <- cell_at cells k; do x <- read o; do r <- read_row cells m (S k); Ok (x :: r) end.
Fixpoint read_rows (cells : list oper) (nc cols : nat) (n i : nat) : outcome (list (list A)) :=
  match n with O => Ok [] | S m => do r <- read_row cells cols (i * nc); do l <- read_rows cells nc cols m (S i); Ok (r :: l) end.
Definition to_matrix (o : oper) (optional greedy : bool) : outcome (list (list A)) :=
  match o with
  | OMissing | ONil => if optional then Ok [] else Throw
  | OMulti _ nr nc cells =>
      do size <- (if greedy then Ok (nr, nc) else nonblank_size nr nc cells);
      let (r, c) := size in
      if r * c =? 0 then if optional then Ok [] else Throw
      else read_rows cells nc c r 0
  | _ => do x <- read o; Ok [[x]]
  end.
End Matrix.
(** :1046-1047, :1062-1077 *)
Definition to_double_matrix (o : oper) (optional : bool) := to_matrix to_double o optional false.
Definition to_int_matrix (o : oper) (optional : bool) := to_matrix to_int o optional false.
Definition to_string_matrix (o : oper) (optional : bool) := to_matrix (fun x => to_string x true) o optional false.
Definition to_cell_matrix (o : oper) (optional greedy : bool) := to_matrix (fun x => to_cell x true) o optional greedy.

(** Results.  _excel.hpp:145-170 Retval_: values_ in order of loading, with the places of the scalars, the vectors and the
    matrices; here one list, each result with its kind.  A matrix is its number of columns and its rows. *)
Inductive result := RScalar (c : cell) | RVector (v : list cell) | RMatrix (cols : nat) (rows : list (list cell)).
Definition scalars (l : list result) : list cell := flat_map (fun r => match r with RScalar c => [c] | _ => [] end) l.
Definition vectors (l : list result) : list (list cell) := flat_map (fun r => match r with RVector v => [v] | _ => [] end) l.
Definition matrices (l : list result) : list (nat * list (list cell)) := flat_map (fun r => match r with RMatrix c m => [(c, m)] | _ => [] end) l.

(** :1164-1196 WriteExcelCell_, with the number of the next block of memory *)
Definition write_cell (c : cell) (next : nat) : oper * nat :=
  match c with
  | CStr s => (OStr next (to_pascal s), S next)
  | CNum x => (ONum x, next)
  | CBool b => (OBool (if b then 1 else 0)%Z, next)
  | CDate d => (ONum (of_int (to_excel d)), next)
  | CTime t => (ONum (time_number t), next)
  | CEmpty => (OStr next [], S next)
  end.
Fixpoint put (cells : list oper) (k : nat) (o : oper) : outcome (list oper) :=
  match cells, k with
  | [], _ => UB
  | _ :: r, O => Ok (o :: r)
  | x :: r, S j => do r' <- put r j o; Ok (x :: r')
  end.
(** The writes of :1308-1326 in order: row, column and cell; the place in the array is column + row * nCols *)
Fixpoint column_writes (col row : nat) (v : list cell) : list (nat * nat * cell) :=
  match v with [] => [] | c :: r => (row, col, c) :: column_writes col (S row) r end.
Fixpoint row_writes (row col : nat) (v : list cell) : list (nat * nat * cell) :=
  match v with [] => [] | c :: r => (row, col, c) :: row_writes row (S col) r end.
Fixpoint vector_writes (offset : nat) (vs : list (list cell)) : list (nat * nat * cell) :=
  match vs with [] => [] | v :: r => column_writes offset 0 v ++ vector_writes (S offset) r end.
Fixpoint rows_writes (offset row : nat) (m : list (list cell)) : list (nat * nat * cell) :=
  match m with [] => [] | v :: r => row_writes row offset v ++ rows_writes offset (S row) r end.
Fixpoint matrix_writes (offset : nat) (ms : list (nat * list (list cell))) : list (nat * nat * cell) :=
  match ms with [] => [] | (c, m) :: r => rows_writes offset 0 m ++ matrix_writes (offset + c) r end.
Definition first_offset (l : list result) : nat := match scalars l with [] => 0 | _ => 1 end.
Definition writes (l : list result) : list (nat * nat * cell) :=
  column_writes 0 0 (scalars l) ++ vector_writes (first_offset l) (vectors l)
  ++ matrix_writes (first_offset l + length (vectors l)) (matrices l).
Fixpoint run_writes (ncols : nat) (ws : list (nat * nat * cell)) (cells : list oper) (next : nat) : outcome (list oper * nat) :=
  match ws with
  | [] => Ok (cells, next)
  | (i, j, c) :: r =>
      let '(o, next') := write_cell c next in
      do cells' <- put cells (j + i * ncols) o;
      run_writes ncols r cells' next'
  end.
(** :1293-1300 *)
Definition n_rows (l : list result) : nat :=
  fold_left (fun n m => Nat.max n (length (snd m))) (matrices l) (fold_left (fun n v => Nat.max n (length v)) (vectors l) (length (scalars l))).
Definition n_cols (l : list result) : nat :=
  fold_left (fun n m => n + fst m) (matrices l) (first_offset l + length (vectors l)).
(** :1290-1329 ToXloper: the value returned, in block 0, and the number of blocks allocated.  The array, in block 1, has
    nRows * nCols cells (:1303) but is said to have at least one row (:1301). *)
Definition to_xloper (l : list result) : outcome (oper * nat) :=
  do r <- run_writes (n_cols l) (writes l) (repeat OMissing (n_rows l * n_cols l)) 2;
  let '(cells, next) := r in
  Ok (OMulti 1 (Nat.max (n_rows l) 1) (n_cols l) cells, next).

(** :144-155 FreeContents with force_free: the blocks freed, in order *)
Fixpoint free_contents (o : oper) : outcome (list nat) :=
  match o with
  | OMulti b r c cells =>
      do l <- (fix go (cs : list oper) (n : nat) : outcome (list nat) :=
                 match cs, n with
                 | _, O => Ok []
                 | [], S m => UB
                 | x :: rest, S m => do a <- free_contents x; do z <- go rest m; Ok (a ++ z)
                 end) cells (r * c);
      Ok (l ++ [b])
  | OStr b _ => Ok [b]
  | _ => Ok []
  end.
(** :184-188 xlAutoFree12: the contents, then the value itself, in block 0 *)
Definition auto_free (o : oper) : outcome (list nat) := do l <- free_contents o; Ok (l ++ [0]).
End Excel.
Arguments ONum {N}. Arguments OStr {N}. Arguments OBool {N}. Arguments OInt {N}. Arguments OMissing {N}. Arguments ONil {N}.
Arguments OOther {N}. Arguments OMulti {N}. Arguments RScalar {N T}. Arguments RVector {N T}. Arguments RMatrix {N T}.
Arguments is_blank {N}. Arguments cell_at {N}. Arguments blank_at {N}. Arguments leading {N}. Arguments all_blank {N}.
Arguments grow_rows {N}. Arguments grow_cols {N}. Arguments grow {N}. Arguments nonblank_size {N}. Arguments read_items {N A}.
Arguments read_vector {N A}. Arguments read_row {N A}. Arguments read_rows {N A}. Arguments to_matrix {N A}. Arguments put {N}.
Arguments scalars {N T}. Arguments vectors {N T}. Arguments matrices {N T}. Arguments n_rows {N T}. Arguments n_cols {N T}.
Arguments writes {N T}. Arguments column_writes {N T}. Arguments row_writes {N T}. Arguments vector_writes {N T}. Arguments rows_writes {N T}.
Arguments matrix_writes {N T}. Arguments first_offset {N T}. Arguments free_contents {N}. Arguments auto_free {N}.
Arguments to_double {N}. Arguments to_string {N}. Arguments to_cell {N T}. Arguments maybe {N A}. Arguments to_dictionary {N T}. Arguments read_pairs {N T}.
Arguments to_int {N}. Arguments to_bool {N}. Arguments to_double_matrix {N}. Arguments to_int_matrix {N}. Arguments to_string_matrix {N}.
Arguments to_cell_matrix {N T}. Arguments write_cell {N T}. Arguments run_writes {N T}. Arguments to_xloper {N T}.
