(** dal/storage/splat.cpp: an object tree laid out on a rectangle of cells, and the views that read it back. *)
From Coq Require Import String Ascii ZArith List Bool Lia.
From Verif Require Import Base DateModel StringModel OMap DictModel.
Import ListNotations.
Open Scope Z_scope.

Section Splat.
Variables N T : Type.
Variable to_double : str -> option N.
Notation cell := (DictModel.cell N T).

(** splat.cpp:29-37 XSplat_: either a table of values (val_), or an object with a tag, a type and named children (children_ is
    a std::map, here the list of its entries in key order).  A table carries its column count. *)
Inductive node : Type :=
| Leaf (w : Z) (m : list (list cell))
| Obj (tag type : str) (children : list (str * node)).

Definition is_nil {A} (l : list A) : bool := match l with [] => true | _ => false end.
Definition zlen {A} (l : list A) : Z := Z.of_nat (length l).
(** matrixs.hpp:36 Matrix_::Empty *)
Definition no_cells (w : Z) (m : list (list cell)) : bool := w * zlen m =? 0.
(** cell.hpp:70-74 IsEmpty *)
Definition is_empty (c : cell) : bool := match c with CStr [] | CEmpty => true | _ => false end.

(** splat.cpp:39-49 Rows; an empty table falls through to the (empty) children *)
Fixpoint rows (t : node) : outcome Z :=
  match t with
  | Leaf w m => if no_cells w m then Ok 0 else Ok (zlen m)
  | Obj _ type ch =>
      if Bool.eqb (is_nil type) (is_nil ch) then
        (fix sum (l : list (str * node)) : outcome Z :=
           match l with [] => Ok 0 | (_, c) :: r => do a <- rows c; do b <- sum r; Ok (a + b) end) ch
      else Throw
  end.
(** 32-bit signed arithmetic: leaving the range is undefined *)
Definition int32 (z : Z) : outcome Z := if (-2147483648 <=? z) && (z <=? 2147483647) then Ok z else UB.
(** splat.cpp:51-58 Cols; the running total grows by the larger of itself and the child's width *)
Fixpoint cols (t : node) : outcome Z :=
  match t with
  | Leaf w m => if no_cells w m then Ok 2 else Ok w
  | Obj _ _ ch =>
      do s <- (fix sum (acc : Z) (l : list (str * node)) : outcome Z :=
                 match l with
                 | [] => Ok acc
                 | (_, c) :: r => do a <- cols c; do acc' <- int32 (acc + Z.max acc a); sum acc' r
                 end) 0 ch;
      int32 (2 + s)
  end.

(** matrixs.hpp: the cells are stored row after row, with one spare row at the end; operator() (:47-48) takes the start of the
    row from hooks_, which has one entry for each row, and steps [c] cells from there *)
Record grid := Grid { g_rows : Z; g_cols : Z; g_at : Z -> cell }.
Definition in_storage (g : grid) (r c : Z) : bool :=
  (0 <=? r) && (r <? g_rows g) && (0 <=? r * g_cols g + c) && (r * g_cols g + c <? (g_rows g + 1) * g_cols g).
Definition get (g : grid) (r c : Z) : outcome cell :=
  if in_storage g r c then Ok (g_at g (r * g_cols g + c)) else UB.
Definition put (g : grid) (r c : Z) (v : cell) : outcome grid :=
  if in_storage g r c
  then Ok (Grid (g_rows g) (g_cols g) (fun k => if k =? r * g_cols g + c then v else g_at g k))
  else UB.
(** matrixs.hpp:27-31: (rows + 1) * cols is computed in int *)
Definition new_grid (r c : Z) : outcome grid := do _ <- int32 ((r + 1) * c); Ok (Grid r c (fun _ => CEmpty)).

(** splat.cpp:60-72 Write *)
Fixpoint put_row (g : grid) (r c : Z) (l : list cell) : outcome grid :=
  match l with [] => Ok g | v :: l' => do g1 <- put g r c v; put_row g1 r (c + 1) l' end.
Fixpoint put_rows (g : grid) (r c : Z) (m : list (list cell)) : outcome grid :=
  match m with [] => Ok g | l :: m' => do g1 <- put_row g r c l; put_rows g1 (r + 1) c m' end.
Definition header (tag type : str) : str := tag ++ ["~"%char] ++ type.
Fixpoint write (t : node) (g : grid) (r c : Z) : outcome grid :=
  match t with
  | Leaf w m => if no_cells w m then put g r c (CStr (header [] [])) else put_rows g r c m
  | Obj tag type ch =>
      do g1 <- put g r c (CStr (header tag type));
      (fix each (l : list (str * node)) (g : grid) (r : Z) : outcome grid :=
         match l with
         | [] => Ok g
         | (n, k) :: l' =>
             do g2 <- put g r (1 + c) (CStr n);
             do g3 <- write k g2 r (2 + c);
             do h <- rows k;
             each l' g3 (r + h)
         end) ch g1 r
  end.
(** splat.cpp:401-408 Splat, from the tree on *)
Definition splat (t : node) : outcome grid :=
  do r <- rows t; do c <- cols t; do g <- new_grid r c; write t g 0 0.

(** splat.cpp:217-226 XUnSplat_: the rows [lo, hi) from column [col] on *)
Record view := View { lo : Z; hi : Z; col : Z }.
(** splat.cpp:228-234 Type: the text after the first "~" *)
Definition type_of (g : grid) (v : view) : outcome str :=
  do c <- get g (lo v) (col v);
  Ok (match c with CStr s => match cut "~" s with (_, Some r) => r | _ => [] end | _ => [] end).
(** splat.cpp:236-241 Tag: the text before the first "~", if it starts with "$" *)
Definition tag_of (g : grid) (v : view) : outcome str :=
  do c <- get g (lo v) (col v);
  Ok (match c with
      | CStr (x :: s) => if Ascii.eqb x "$" then fst (cut "~" (x :: s)) else []
      | _ => []
      end).
(** cell.cpp:105-109: a cell equals a text when it holds it, up to case *)
Definition cell_is (c : cell) (s : str) : bool := match c with CStr t => ci_eqb t s | _ => false end.
(** the first row in [r, r + n) whose cell in column [c] satisfies [p] *)
Fixpoint first_row (p : cell -> bool) (g : grid) (c r : Z) (n : nat) : outcome (option Z) :=
  match n with
  | O => Ok None
  | S k => do x <- get g r c; if p x then Ok (Some r) else first_row p g c (r + 1) k
  end.
Definition child_start (g : grid) (v : view) (name : str) : outcome (option Z) :=
  do ty <- type_of g v;
  if is_nil ty then Throw
  else if col v + 1 <? g_cols g
       then first_row (fun x => cell_is x name) g (col v + 1) (lo v) (Z.to_nat (hi v - lo v))
       else Throw.
(** splat.cpp:243-257 Child *)
Definition child (g : grid) (v : view) (name : str) : outcome view :=
  do s <- child_start g v name;
  match s with
  | None => Throw
  | Some ir =>
      do e <- first_row (fun x => negb (is_empty x)) g (col v + 1) (ir + 1) (Z.to_nat (hi v - (ir + 1)));
      Ok (View ir (match e with Some jr => jr | None => hi v end) (col v + 2))
  end.
(** splat.cpp:259-269 HasChild *)
Definition has_child (g : grid) (v : view) (name : str) : outcome bool :=
  do s <- child_start g v name; Ok (match s with Some _ => true | None => false end).

(** splat.cpp:275-280 GetScalar *)
Definition get_scalar (g : grid) (v : view) : outcome cell :=
  if hi v =? lo v + 1 then
    if col v =? g_cols g - 1 then get g (lo v) (col v)
    else do x <- get g (lo v) (col v + 1); if is_empty x then get g (lo v) (col v) else Throw
  else Throw.
(** splat.cpp:294-300 VectorRange *)
Fixpoint row_cells (g : grid) (r c : Z) (n : nat) : outcome (list cell) :=
  match n with O => Ok [] | S k => do x <- get g r c; do l <- row_cells g r (c + 1) k; Ok (x :: l) end.
Fixpoint vector_stop (g : grid) (r c : Z) (n : nat) : outcome Z :=
  match n with
  | O => Ok c
  | S k => do x <- get g r c; if is_empty x then Ok c else vector_stop g r (c + 1) k
  end.
Definition vector_range (g : grid) (v : view) : outcome (list cell) :=
  if hi v =? lo v + 1 then
    do stop <- vector_stop g (lo v) (col v + 1) (Z.to_nat (g_cols g - (col v + 1)));
    row_cells g (lo v) (col v) (Z.to_nat (stop - col v))
  else Throw.
(** splat.cpp:312-323 MatrixStop: the bound is tested only after the column has been read *)
Fixpoint matrix_stop_from (g : grid) (v : view) (c : Z) (n : nat) : outcome Z :=
  match n with
  | O => OutOfFuel
  | S k =>
      do x <- first_row (fun x => negb (is_empty x)) g c (lo v) (Z.to_nat (hi v - lo v));
      match x with
      | None => Ok c
      | Some _ => if c + 1 =? g_cols g then Ok (c + 1) else matrix_stop_from g v (c + 1) k
      end
  end.
Definition matrix_stop (g : grid) (v : view) : outcome Z :=
  matrix_stop_from g v (col v + 1) (Z.to_nat (2 + (g_rows g + 1) * g_cols g)).
(** splat.cpp:324-331 TranslateMatrix, before translation *)
Fixpoint block (g : grid) (r c : Z) (w h : nat) : outcome (list (list cell)) :=
  match h with O => Ok [] | S k => do x <- row_cells g r c w; do l <- block g (r + 1) c w k; Ok (x :: l) end.
Definition matrix_range (g : grid) (v : view) : outcome (list (list cell)) :=
  do stop <- matrix_stop g v; block g (lo v) (col v) (Z.to_nat (stop - col v)) (Z.to_nat (hi v - lo v)).

(** splat.cpp:143-156 ExtractDouble *)
Definition extract_double (c : cell) : outcome N :=
  match c with CNum x => Ok x | CStr s => match to_double s with Some x => Ok x | None => Throw end | _ => Throw end.
(** splat.cpp:176-186 ExtractString *)
Definition extract_string (c : cell) : outcome str :=
  match c with CStr s => Ok s | CEmpty => Ok [] | _ => Throw end.
(** splat.cpp:188-197 ExtractDate; a default Date_ has serial 0 *)
Definition extract_date (c : cell) : outcome Z :=
  match c with
  | CDate d => Ok d
  | CStr s => DateModel.from_string (string_of_list_ascii s)
  | CEmpty => Ok 0
  | _ => Throw
  end.
(** splat.cpp:211-215 TranslateRange *)
Fixpoint translate {A} (f : cell -> outcome A) (l : list cell) : outcome (list A) :=
  match l with [] => Ok [] | c :: r => do x <- f c; do y <- translate f r; Ok (x :: y) end.
Fixpoint translate_rows {A} (f : cell -> outcome A) (m : list (list cell)) : outcome (list (list A)) :=
  match m with [] => Ok [] | l :: r => do x <- translate f l; do y <- translate_rows f r; Ok (x :: y) end.
(** splat.cpp:289-310, 333-337: the As... readers *)
Definition as_scalar {A} (f : cell -> outcome A) (g : grid) (v : view) : outcome A := do c <- get_scalar g v; f c.
Definition as_vector {A} (f : cell -> outcome A) (g : grid) (v : view) : outcome (list A) := do l <- vector_range g v; translate f l.
Definition as_matrix {A} (f : cell -> outcome A) (g : grid) (v : view) : outcome (list (list A)) :=
  do m <- matrix_range g v; translate_rows f m.
(** splat.cpp:339-346 AsDictionary *)
Fixpoint insert_rows (d : dict N T) (g : grid) (r c : Z) (n : nat) : outcome (dict N T) :=
  match n with
  | O => Ok d
  | S k => do x <- get g r c; do s <- extract_string x; do y <- get g r (c + 1);
           do d1 <- insert d s y; insert_rows d1 g (r + 1) c k
  end.
Definition as_dictionary (g : grid) (v : view) : outcome (dict N T) :=
  do s <- matrix_stop g v;
  if s =? col v + 2 then insert_rows [] g (lo v) (col v) (Z.to_nat (hi v - lo v)) else Throw.
End Splat.
Arguments Leaf {N T}. Arguments Obj {N T}. Arguments is_empty {N T}. Arguments rows {N T}. Arguments cols {N T}.
Arguments g_rows {N T}. Arguments g_cols {N T}. Arguments g_at {N T}. Arguments Grid {N T}. Arguments in_storage {N T}.
Arguments get {N T}. Arguments put {N T}. Arguments new_grid {N T}. Arguments put_row {N T}. Arguments put_rows {N T}.
Arguments write {N T}. Arguments splat {N T}. Arguments type_of {N T}. Arguments tag_of {N T}. Arguments cell_is {N T}.
Arguments first_row {N T}. Arguments child_start {N T}. Arguments child {N T}. Arguments has_child {N T}.
Arguments get_scalar {N T}. Arguments row_cells {N T}. Arguments vector_stop {N T}. Arguments vector_range {N T}.
Arguments matrix_stop_from {N T}. Arguments matrix_stop {N T}. Arguments block {N T}. Arguments matrix_range {N T}.
Arguments extract_double {N T}. Arguments extract_string {N T}. Arguments extract_date {N T}. Arguments translate {N T A}.
Arguments translate_rows {N T A}. Arguments as_scalar {N T A}. Arguments as_vector {N T A}. Arguments as_matrix {N T A}.
Arguments insert_rows {N T}. Arguments as_dictionary {N T}. Arguments no_cells {N T}.
