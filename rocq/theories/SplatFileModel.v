(** dal/storage/splat.cpp:351-427, dal/math/cellutils.cpp:50-58 and dal/utilities/file.cpp: the sheet of an archived object saved
    as lines of text in a file, and loaded from there. *)
From Coq Require Import String Ascii ZArith List Bool Lia.
From Verif Require Import Base DateModel StringModel OMap DictModel SplatModel.
Import ListNotations.
Open Scope Z_scope.

Definition newline : ascii := "010"%char.
Definition nul : ascii := "000"%char.
Definition quote : ascii := """"%char.
Definition comma : ascii := ","%char.

(** a char array up to its terminating zero: strings.hpp:89-92 operator<< prints c_str(); file.cpp:18 builds a String_ from a buffer *)
Fixpoint c_str (s : str) : str := match s with [] => [] | c :: r => if Ascii.eqb c nul then [] else c :: c_str r end.

(** file.cpp:22-27 Write: the bytes of the file *)
Definition file_bytes (lines : list str) : str := flat_map (fun l => c_str l ++ [newline]) lines.

(** file.cpp:14-20 Read, with a buffer of 2048: std::istream::getline stores up to 2047 characters.  It fails, and the loop ends,
    at the end of the file, and when the buffer is full before the end of the line. *)
Definition line_room : nat := Z.to_nat 2047.
Fixpoint read_from (taken : str) (room : nat) (s : str) : list str :=
  match s with
  | [] => match taken with [] => [] | _ => [c_str (rev taken)] end
  | c :: r =>
      if Ascii.eqb c newline then c_str (rev taken) :: read_from [] line_room r
      else match room with O => [] | S k => read_from (c :: taken) k r end
  end.
Definition read_lines (s : str) : list str := read_from [] line_room s.

(** splat.cpp:369-385 SplitLine: the texts between commas outside quotes; the quotes stay; nothing follows a final comma *)
Fixpoint fields (taken : str) (quoted : bool) (s : str) : list str :=
  match s with
  | [] => [rev taken]
  | c :: r =>
      if negb quoted && Ascii.eqb c comma then rev taken :: match r with [] => [] | _ => fields [] false r end
      else fields (c :: taken) (if Ascii.eqb c quote then negb quoted else quoted) r
  end.
Definition split_line (s : str) : list str := match s with [] => [] | _ => fields [] false s end.

(** splat.cpp:360 find_first_not_of: String_ looks characters up without regard to case *)
Definition number_char (c : ascii) : bool :=
  existsb (fun d => ci_eqb [c] [d]) (lit "0123456789.eE+-").
(** std::strtod on text made of those characters reads an optional sign, digits with at most one point among them (at least one
    digit), and an optional exponent (e or E, optional sign, at least one digit): does it read all of it? *)
Definition digit (c : ascii) : bool := let n := nat_of_ascii c in Nat.leb 48 n && Nat.leb n 57.
Definition sign (c : ascii) : bool := Ascii.eqb c "+" || Ascii.eqb c "-".
Definition skip_sign (s : str) : str := match s with c :: r => if sign c then r else s | [] => [] end.
Fixpoint skip_digits (s : str) : nat * str :=
  match s with
  | c :: r => if digit c then (let '(n, q) := skip_digits r in (S n, q)) else (O, s)
  | [] => (O, [])
  end.
Definition exponent (s : str) : bool :=
  match s with
  | [] => true
  | c :: r => (Ascii.eqb c "e" || Ascii.eqb c "E") &&
              match skip_digits (skip_sign r) with (S _, []) => true | _ => false end
  end.
Definition number_syntax (s : str) : bool :=
  let '(n, r) := skip_digits (skip_sign s) in
  let '(k, q) := match r with c :: r' => if Ascii.eqb c "." then skip_digits r' else (O, r) | [] => (O, []) end in
  match (n + k)%nat with O => false | S _ => exponent q end.

Section File.
Variables N T : Type.
(** the double strtod gives for a number; the conversions to text of DictModel *)
Variable value_of : str -> N.
Variable as_int : N -> outcome (option Z).
Variable show_double : N -> str.
Variable show_time : T -> str.
Notation cell := (DictModel.cell N T).
Notation grid := (SplatModel.grid N T).

(** splat.cpp:351-367 AsCell; TRUE and FALSE in any case *)
Definition as_cell (s : str) : cell :=
  match s with
  | [] => CEmpty
  | c :: r =>
      if Ascii.eqb c "=" && Ascii.eqb (last s c) "=" then CStr (removelast r)
      else if ci_eqb s (lit "TRUE") then CBool true
      else if ci_eqb s (lit "FALSE") then CBool false
      else if forallb number_char s && number_syntax s then CNum (value_of s)
      else CStr s
  end.

(** a row of the sheet *)
Definition sheet_row (g : grid) (r : Z) : outcome (list cell) := row_cells g r 0 (Z.to_nat (g_cols g)).
Fixpoint texts (l : list cell) : outcome (list str) :=
  match l with [] => Ok [] | c :: r => do s <- coerce_to_string as_int show_double show_time c; do q <- texts r; Ok (s :: q) end.
(** cellutils.cpp:50-58 ToStringLines *)
Fixpoint lines_from (g : grid) (r : Z) (n : nat) : outcome (list str) :=
  match n with
  | O => Ok []
  | S k => do l <- sheet_row g r; do q <- texts l; do rest <- lines_from g (r + 1) k; Ok (accumulate q [comma] false :: rest)
  end.
Definition to_string_lines (g : grid) : outcome (list str) := lines_from g 0 (Z.to_nat (g_rows g)).
(** splat.cpp:410-415 SplatFile, from the sheet on: what the file holds *)
Definition save (g : grid) : outcome str := do l <- to_string_lines g; Ok (file_bytes l).

(** splat.cpp:387-398 FileTable; a file that cannot be opened has no lines *)
Definition table_of (data : list (list cell)) : outcome grid :=
  let w := fold_left (fun m d => Z.max m (zlen d)) data 0 in
  do g <- @new_grid N T (zlen data) w;
  Ok (Grid (g_rows g) (g_cols g) (fun k => nth (Z.to_nat (k mod w)) (nth (Z.to_nat (k / w)) data []) CEmpty)).
Definition file_table (bytes : option str) : outcome grid :=
  table_of (map (fun l => map as_cell (split_line l)) (match bytes with Some s => read_lines s | None => [] end)).
End File.
Arguments as_cell {N T}. Arguments sheet_row {N T}. Arguments texts {N T}. Arguments lines_from {N T}. Arguments to_string_lines {N T}.
Arguments save {N T}. Arguments table_of {N T}. Arguments file_table {N T}.
