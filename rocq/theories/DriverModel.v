(** The driver that shows charts and tables in Excel: dal/excel/exceldriverlite.hpp, exceldriverlite.cpp.  Excel, behind COM, is
    a book of sheets of cells and of charts. *)
From Coq Require Import List ZArith Bool Ascii String Lia.
From Verif Require Import Base StringModel SplatFileModel.
Import ListNotations.
Open Scope Z_scope.

Section Driver.
Context {D : Type}.
(** what Excel takes for a sheet's name, and the form in which it compares names (it ignores case) *)
Variable legal : str -> bool.
Variable key : str -> str.
Definition same (a b : str) : bool := if list_eq_dec ascii_dec a b then true else false.
(** the rows and columns of a sheet are numbered from one *)
Variables max_row max_col : Z.

(** a cell that has been written.  Excel's reading of a text that looks like a formula or a number,
    or of an empty one as a blank, is left out *)
Inductive content := Text (s : str) | Real (x : D).
(** the cells written, the last first; [None] is the name Excel gives, taken to be different from all others *)
Record sheet := Sheet { s_name : option str; s_cells : list (Z * Z * content) }.
Record chart := Chart { c_name : option str; c_begin : Z * Z; c_end : Z * Z; c_title : str; c_x : str; c_y : str }.
(** exceldriverlite.hpp:29-34 ExcelDriver_: the book and curDataColumn_ *)
Record book := Book { sheets : list sheet; charts : list chart; column : Z }.

(** a call ends, or throws (a _com_error, or in CreateChart a Dal exception with its text) and leaves a book, or is undefined *)
Inductive result := Done (b : book) | Thrown (b : book) | Undefined.
Definition after (r : result) (f : book -> result) : result := match r with Done b => f b | Thrown b => Thrown b | Undefined => Undefined end.

Fixpoint look (l : list (Z * Z * content)) (r c : Z) : option content :=
  match l with [] => None | (r0, c0, v) :: l' => if (r =? r0) && (c =? c0) then Some v else look l' r c end.
Fixpoint change {X} (f : X -> X) (l : list X) (k : nat) : list X :=
  match l, k with [], _ => [] | x :: l', O => f x :: l' | x :: l', Datatypes.S k' => x :: change f l' k' end.
(** pRange->Item[row][col] = v *)
Definition put (k : nat) (r c : Z) (v : content) (b : book) : result :=
  if (1 <=? r) && (r <=? max_row) && (1 <=? c) && (c <=? max_col)
  then Done (Book (change (fun s => Sheet (s_name s) ((r, c, v) :: s_cells s)) (sheets b) k) (charts b) (column b)) else Thrown b.
(** Worksheets->Add() *)
Definition add_sheet (b : book) : book := Book (sheets b ++ [Sheet None []]) (charts b) (column b).
Definition names (b : book) : list (option str) := map s_name (sheets b) ++ map c_name (charts b).
Definition taken (n : str) (b : book) : bool :=
  existsb (fun o => match o with Some m => same (key m) (key n) | None => false end) (names b).
(** pSheet->Name = name, for the sheet just added *)
Definition name_sheet (k : nat) (n : str) (b : book) : result :=
  if legal n && negb (taken n b) then Done (Book (change (fun s => Sheet (Some n) (s_cells s)) (sheets b) k) (charts b) (column b)) else Thrown b.
Definition name_chart (k : nat) (n : str) (b : book) : result :=
  if legal n && negb (taken n b)
  then Done (Book (sheets b) (change (fun c => Chart (Some n) (c_begin c) (c_end c) (c_title c) (c_x c) (c_y c)) (charts b) k) (column b)) else Thrown b.
(** Worksheets->GetItem(name) *)
Fixpoint find_sheet (l : list sheet) (n : str) (k : nat) : option nat :=
  match l with [] => None | s :: l' => match s_name s with Some m => if same (key m) (key n) then Some k else find_sheet l' n (Datatypes.S k) | None => find_sheet l' n (Datatypes.S k) end end.

Definition chart_data : str := lit "Chart Data".
(** exceldriverlite.cpp:78-94 the constructor *)
Definition new_driver (current : Z) : book := Book [Sheet (Some chart_data) []] [] current.

(** :29-37, 55-63 the loops of ToSheetHorizontal and ToSheetVertical *)
Fixpoint across (k : nat) (r c : Z) (xs : list D) (b : book) : result :=
  match xs with [] => Done b | x :: l => after (put k r c (Real x) b) (across k r (c + 1) l) end.
Fixpoint down (k : nat) (r c : Z) (xs : list D) (b : book) : result :=
  match xs with [] => Done b | x :: l => after (put k r c (Real x) b) (down k (r + 1) c l) end.
(** :16-38 ToSheetHorizontal *)
Definition to_horizontal (k : nat) (r c : Z) (label : str) (xs : list D) (b : book) : result :=
  after (put k r c (Text (c_str label)) b) (across k r (c + 1) xs).
(** :42-64 ToSheetVertical *)
Definition to_vertical (k : nat) (r c : Z) (label : str) (xs : list D) (b : book) : result :=
  after (put k r c (Text (c_str label)) b) (down k (r + 1) c xs).

Definition next_column (b : book) : book := Book (sheets b) (charts b) (column b + 1).
(** :140-151 the outputs of a chart, each with its label *)
Fixpoint outputs (k : nat) (labels : list str) (vs : list (list D)) (b : book) : result :=
  match vs with
  | [] => Done b
  | v :: vs' => match labels with
                | [] => Undefined
                | l :: ls => after (to_vertical k 1 (column b) l v b) (fun b1 => outputs k ls vs' (next_column b1))
                end
  end.
(** :117-182 CreateChart *)
Definition create_chart (x : list D) (labels : list str) (vs : list (list D)) (title xt yt : str) (b : book) : result :=
  match find_sheet (sheets b) chart_data 0 with
  | None => Thrown b
  | Some k =>
      let first := column b in
      let last_row := Z.of_nat (Datatypes.length x) + 1 in
      let last_column := first + Z.of_nat (Datatypes.length vs) in
      after (to_vertical k 1 (column b) xt x b) (fun b1 =>
      after (outputs k labels vs (next_column b1)) (fun b2 =>
      let n := Datatypes.length (charts b2) in
      let b3 := Book (sheets b2) (charts b2 ++ [Chart None (1, first) (last_row, last_column) (c_str title) (c_str xt) (c_str yt)]) (column b2) in
      if (1 <=? last_row) && (last_row <=? max_row) && (1 <=? last_column) && (last_column <=? max_col)
      then after (name_chart n (c_str title) b3) (fun b4 => Done (next_column b4)) else Thrown b2))
  end.
(** :190-200 CreateChart of one function *)
Definition create_chart_one (x y : list D) (title xt yt : str) (b : book) : result := create_chart x [title] [y] title xt yt b.

(** :232-237, 255-260 the rows of a table, each with its label.  A matrix is the list of its rows (C43) *)
Fixpoint table (k : nat) (r c : Z) (m : list (list D)) (labels : list str) (b : book) : result :=
  match m with
  | [] => Done b
  | xs :: m' => match labels with [] => Undefined | l :: ls => after (to_horizontal k r c l xs b) (table k (r + 1) c m' ls) end
  end.
(** :224-227 *)
Fixpoint head_row (k : nat) (r c : Z) (labels : list str) (b : book) : result :=
  match labels with [] => Done b | l :: ls => after (put k r c (Text (c_str l)) b) (head_row k r (c + 1) ls) end.
(** :209-238 AddMatrix with labels *)
Definition add_matrix (m : list (list D)) (name : str) (rl cl : list str) (r c : Z) (b : book) : result :=
  let k := Datatypes.length (sheets b) in
  after (name_sheet k (c_str name) (add_sheet b)) (fun b1 => after (head_row k r (c + 1) cl b1) (table k (r + 1) c m rl)).
(** :240-261 AddMatrix without *)
Definition add_plain (m : list (list D)) (name : str) (r c : Z) (b : book) : result :=
  let k := Datatypes.length (sheets b) in
  after (name_sheet k (c_str name) (add_sheet b)) (table k r c m (map (fun _ => []) m)).
(** :264-280 AddVector: a matrix of one row *)
Definition add_vector (v : list D) (name : str) (r c : Z) : book -> result := add_plain [v] name r c.
Definition add_labelled (v : list D) (name label : str) (cl : list str) (r c : Z) : book -> result := add_matrix [v] name [label] cl r c.
(** :284-306 PrintStringInExcel *)
Fixpoint text_down (k : nat) (r c : Z) (l : list str) (b : book) : result :=
  match l with [] => Done b | s :: l' => after (put k r c (Text (c_str s)) b) (text_down k (r + 1) c l') end.
Definition print_strings (l : list str) (r c : Z) (b : book) : result := text_down (Datatypes.length (sheets b)) r c l (add_sheet b).

(** * Sessions: the calls made; one that throws is caught by the caller *)
Inductive call :=
| MakeChart (x : list D) (labels : list str) (vs : list (list D)) (title xt yt : str)
| MakeTable (m : list (list D)) (name : str) (rl cl : list str) (r c : Z)
| MakePlain (m : list (list D)) (name : str) (r c : Z)
| Print (l : list str) (r c : Z).
Definition step (o : call) (b : book) : result :=
  match o with
  | MakeChart x labels vs title xt yt => create_chart x labels vs title xt yt b
  | MakeTable m name rl cl r c => add_matrix m name rl cl r c b
  | MakePlain m name r c => add_plain m name r c b
  | Print l r c => print_strings l r c b
  end.
Fixpoint session (l : list call) (b : book) : option book :=
  match l with [] => Some b | o :: l' => match step o b with Done b1 | Thrown b1 => session l' b1 | Undefined => None end end.
End Driver.
Arguments content D : clear implicits.
Arguments sheet D : clear implicits.
Arguments book D : clear implicits.
Arguments result D : clear implicits.
Arguments call D : clear implicits.
