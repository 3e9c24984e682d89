(** Words of the layout property: what each layout means, as a table given by its size and its cells. *)
From Coq Require Import List Arith Bool Ascii String.
From Verif Require Import Base StringModel MatrixModel FormatModel.
Import ListNotations.
Open Scope nat_scope.
Section Spec.
Context {A : Type}.
Variable dflt : A.
(** a table: its size and its cells; a place nobody wrote has none *)
Record table := Table { trows : nat; tcols : nat; tcell : nat -> nat -> option A }.
Definition of_matrix (m : mat A) : table := Table (rows m) (cols m) (fun i j => match at_ m i j with Ok x => Some x | _ => None end).
Definition transposed (t : table) : table := Table (tcols t) (trows t) (fun i j => tcell t j i).
(** rows and columns in the opposite order *)
Definition inverted (t : table) : table := Table (trows t) (tcols t) (fun i j => tcell t (trows t - 1 - i) (tcols t - 1 - j)).
(** the rows one after the other in one row *)
Definition flattened (t : table) : table := Table 1 (trows t * tcols t) (fun _ k => tcell t (k / tcols t) (k mod tcols t)).
Definition highest (ts : list table) : nat := fold_right Nat.max 0 (map trows ts).
Definition widest (ts : list table) : nat := fold_right Nat.max 0 (map tcols ts).
(** tables side by side, at the top or at the bottom of a strip of the given height *)
Fixpoint beside (bottom : bool) (height : nat) (ts : list table) (i j : nat) : option A :=
  match ts with
  | [] => None
  | t :: r => if j <? tcols t then
                let top := if bottom then height - trows t else 0 in
                if (top <=? i) && (i <? top + trows t) then tcell t (i - top) j else None
              else beside bottom height r i (j - tcols t)
  end.
Definition horizontal (bottom : bool) (ts : list table) : table := Table (highest ts) (fold_right Nat.add 0 (map tcols ts)) (beside bottom (highest ts) ts).
(** one below the other, at the left or at the right *)
Fixpoint below (at_right : bool) (width : nat) (ts : list table) (i j : nat) : option A :=
  match ts with
  | [] => None
  | t :: r => if i <? trows t then
                let left := if at_right then width - tcols t else 0 in
                if (left <=? j) && (j <? left + tcols t) then tcell t i (j - left) else None
              else below at_right width r (i - trows t) j
  end.
Definition vertical (at_right : bool) (ts : list table) : table := Table (fold_right Nat.add 0 (map trows ts)) (widest ts) (below at_right (widest ts) ts).
Variable args : list (mat A).
Fixpoint layout (w : writer) : table :=
  match w with
  | WTransposed b => transposed (layout b)
  | WInverted b => inverted (layout b)
  | WLinear b => flattened (layout b)
  | WHorizontal bottom es => horizontal bottom (map layout es)
  | WVertical at_right es => vertical at_right (map layout es)
  | WEmpty => Table 1 1 (fun _ _ => Some dflt)
  | WArg k => match nth_error args k with Some m => of_matrix m | None => Table 0 0 (fun _ _ => None) end
  end.
End Spec.
(** a way to write every layout down, each part in parentheses *)
Fixpoint join_parts (sep : ascii) (ps : list str) : str :=
  match ps with [] => [] | [p] => p | p :: r => p ++ sep :: join_parts sep r end.
Definition wrap (s : str) : str := "("%char :: s ++ [")"%char].
Fixpoint text (w : writer) : str :=
  match w with
  | WTransposed b => wrap (text b) ++ lit "T"
  | WInverted b => wrap (text b) ++ lit "I"
  | WLinear b => wrap (text b) ++ lit "*"
  | WHorizontal bottom es => join_parts (if bottom then "." else ",")%char (map (fun e => wrap (text e)) es)
  | WVertical at_right es => join_parts (if at_right then ":" else ";")%char (map (fun e => wrap (text e)) es)
  | WEmpty => lit "0"
  | WArg k => [ascii_of_nat (49 + k)]
  end.
(** the layouts that can be written: at most nine arguments, at least two parts *)
Fixpoint writable (w : writer) : Prop :=
  match w with
  | WTransposed b | WInverted b | WLinear b => writable b
  | WHorizontal _ es | WVertical _ es => 2 <= List.length es /\ fold_right and True (map writable es)
  | WEmpty => True
  | WArg k => k < 9
  end.
