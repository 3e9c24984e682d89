(** What the sheets and charts should show. *)
From Coq Require Import List ZArith Bool Ascii String.
From Verif Require Import Base StringModel SplatFileModel DriverModel.
Import ListNotations.
Open Scope Z_scope.

(** element [z] of a list, counted from zero *)
Definition nthZ {X} (l : list X) (z : Z) : option X := if z <? 0 then None else nth_error l (Z.to_nat z).
Definition zseq (n : Z) : list Z := map Z.of_nat (seq 0 (Z.to_nat n)).

Section Spec.
Context {D : Type}.
Variable key : str -> str.
(** what a cell of the sheet with this name has *)
Definition cell_of (b : book D) (name : str) (r c : Z) : option (content D) :=
  match find_sheet key (sheets b) name 0 with Some k => match nth_error (sheets b) k with Some s => look (s_cells s) r c | None => None end | None => None end.
(** what a chart shows: the cells of its range, column by column *)
Definition shown (b : book D) (ch : chart) : list (list (option (content D))) :=
  map (fun j => map (fun i => cell_of b chart_data (fst (c_begin ch) + i) (snd (c_begin ch) + j)) (zseq (fst (c_end ch) - fst (c_begin ch) + 1)))
      (zseq (snd (c_end ch) - snd (c_begin ch) + 1)).
(** a column: a heading with numbers under it *)
Definition headed (label : str) (xs : list D) : list (content D) := Text (c_str label) :: map Real xs.

(** a table with its first row of numbers at row [r]; the labels of the rows are in column [c] *)
Definition row_cell (c : Z) (label : str) (xs : list D) (j : Z) : option (content D) :=
  if j =? c then Some (Text (c_str label)) else option_map Real (nthZ xs (j - c - 1)).
Definition rows_cell (r c : Z) (labels : list str) (m : list (list D)) (i j : Z) : option (content D) :=
  match nthZ labels (i - r), nthZ m (i - r) with Some l, Some xs => row_cell c l xs j | _, _ => None end.
(** with labels of the columns above *)
Definition labelled (r c : Z) (rl cl : list str) (m : list (list D)) (i j : Z) : option (content D) :=
  if i =? r then option_map (fun l => Text (c_str l)) (nthZ cl (j - c - 1)) else rows_cell (r + 1) c rl m i j.
(** every sheet and chart with a name has its own *)
Definition named (b : book D) : list str := flat_map (fun o => match o with Some n => [key n] | None => [] end) (names b).
Definition widest (m : list (list D)) : Z := Z.of_nat (list_max (map (@List.length D) m)).
End Spec.
