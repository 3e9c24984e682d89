(** Which sheets come back from a file as they were, and what they come back as. *)
From Coq Require Import String Ascii ZArith List Bool Lia.
From Verif Require Import Base DateModel StringModel StringSpec OMap DictModel DictSpec SplatModel SplatSpec ShareModel ShareSpec SplatFileModel.
Import ListNotations.
Open Scope Z_scope.

(** Text that a line of comma-separated values can hold as it is. *)
Definition plain (s : str) : Prop := ~ In comma s /\ ~ In quote s /\ ~ In newline s /\ ~ In nul s.

Section Spec.
Variables N T : Type.
Variable value_of : str -> N.
Variable as_int : N -> outcome (option Z).
Variable show_double : N -> str.
Variable show_time : T -> str.
Notation cell := (DictModel.cell N T).
Notation print := (coerce_to_string as_int show_double show_time).

(** What a cell comes back as: dates and times as their texts, the empty text as an empty cell, everything else as it was. *)
Definition as_loaded (c : cell) : cell :=
  match c with
  | CDate d => CStr (list_ascii_of_string (DateModel.to_string d))
  | CTime t => CStr (show_time t)
  | CStr [] => CEmpty
  | x => x
  end.
(** A cell whose text is plain and is understood. *)
Definition survives (c : cell) : Prop := exists s, print c = Ok s /\ plain s /\ as_cell value_of s = as_loaded c.
(** The characters its text takes on a line. *)
Definition width (c : cell) : Z := match print c with Ok s => zlen s | _ => 0 end.
(** A line of a sheet fits the buffer: the texts and the commas between them have at most 2047 characters. *)
Definition line_fits (l : list cell) : Prop := fold_right Z.add 0 (map width l) + zlen l - 1 <= 2047.

(** A tree with every cell as it is loaded. *)
Fixpoint tree_loaded (t : node N T) : node N T :=
  match t with
  | Leaf w m => Leaf w (map (map as_loaded) m)
  | Obj tag type ch => Obj tag type (map (fun p => (fst p, tree_loaded (snd p))) ch)
  end.
(** Some cell in the last column of a table is not blank. *)
Definition last_column_used (w : Z) (m : list (list cell)) : Prop :=
  exists l x, In l m /\ nth_error l (Z.to_nat (w - 1)) = Some x /\ ~ blank x.
(** A tree that can go through a file: all its cells and names survive, and its tables use their last columns. *)
Inductive storable : node N T -> Prop :=
| storable_leaf w m : Forall (Forall survives) m -> last_column_used w m -> storable (Leaf w m)
| storable_obj tag type ch : plain tag -> plain type -> Forall (fun p => survives (CStr (fst p)) /\ storable (snd p)) ch -> storable (Obj tag type ch).

(** The same for objects. *)
Definition member_loaded (m : member N T) : member N T :=
  match m with
  | MScalar c => MScalar (as_loaded c)
  | MVector c l => MVector (as_loaded c) (map as_loaded l)
  | MMatrix m => MMatrix (map (map as_loaded) m)
  | MRef a => MRef a
  end.
Definition loaded (heap : nat -> object N T) (a : nat) : object N T :=
  Object (otype (heap a)) (map (fun p => (fst p, member_loaded (snd p))) (members (heap a))).
Definition member_storable (m : member N T) : Prop :=
  match m with
  | MScalar c => survives c /\ ~ blank c
  | MVector c l => Forall survives (c :: l) /\ ~ blank (last l c)
  | MMatrix m => Forall (Forall survives) m /\ exists l, In l m /\ ~ blank (last l CEmpty)
  | MRef _ => True
  end.
Definition object_storable (o : object N T) : Prop :=
  plain (otype o) /\ Forall (fun p => survives (CStr (fst p)) /\ member_storable (snd p)) (members o).
End Spec.
Arguments as_loaded {N T}. Arguments survives {N T}. Arguments width {N T}. Arguments line_fits {N T}. Arguments tree_loaded {N T}.
Arguments last_column_used {N T}. Arguments storable {N T}. Arguments member_loaded {N T}. Arguments loaded {N T}.
Arguments member_storable {N T}. Arguments object_storable {N T}.
(** Every line of a sheet fits the buffer it will be read with. *)
Definition sheet_fits {N T} as_int show_double show_time (g : grid N T) : Prop :=
  forall r l, 0 <= r < g_rows g -> sheet_row g r = Ok l -> line_fits as_int show_double show_time l.
(** Text that a file gives back as text. *)
Definition kept_text (s : str) : Prop :=
  plain s /\ ~ (hd_error s = Some "="%char /\ last s "."%char = "="%char) /\
  ~ same_up_to_case s (lit "TRUE") /\ ~ same_up_to_case s (lit "FALSE") /\ (forallb number_char s && number_syntax s = false).
