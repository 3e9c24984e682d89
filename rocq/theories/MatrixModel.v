(** dal/math/matrix/matrixs.hpp Matrix_ and dal/math/matrix/matrixutils.hpp.  The elements are of any type.  The hooks are
    iterators: a pair of the storage block they point into and an offset; using one into a block other than the current one is
    undefined behaviour.  Row and column numbers are natural numbers (negative ones are left out). *)
From Coq Require Import List Arith Bool.
From Verif Require Import Base Vec.
Import ListNotations.

Section Matrix.
Context {A : Type}.
Variable dflt : A. (* E_() *)

(** matrixs.hpp:19-22.  A default constructed iterator points into no block. *)
Record mat := Mat { blk : nat; vals : list A; cols : nat; hooks : list (option nat * nat) }.
(** matrixs.hpp:34-35 Rows and Cols *)
Definition rows (m : mat) : nat := length (hooks m).
(** matrixs.hpp:36 Empty *)
Definition is_empty (m : mat) : bool := length (vals m) - cols m =? 0.
(** matrixs.hpp:244-247 SetHook, from an index on *)
Definition hooks_from (b c from n : nat) : list (option nat * nat) := map (fun i => (Some b, i * c)) (seq from (n - from)).
Definition set_hook (from : nat) (m : mat) : mat := Mat (blk m) (vals m) (cols m) (firstn from (hooks m) ++ hooks_from (blk m) (cols m) from (length (hooks m))).
(** matrixs.hpp:26 and 27-31, the constructors *)
Definition no_matrix : mat := Mat 0 [] 0 [].
Definition new_mat (r c : nat) (v : A) : mat := set_hook 0 (Mat 0 (repeat v ((r + 1) * c)) c (repeat (None, 0) r)).
(** matrixs.hpp:47-48 operator(): hooks_[row][col] *)
Definition hook (m : mat) (i : nat) : outcome nat :=
  do h <- get (hooks m) i; match fst h with Some b => if b =? blk m then Ok (snd h) else UB | None => UB end.
Definition at_ (m : mat) (i j : nat) : outcome A := do h <- hook m i; get (vals m) (h + j).
Definition put_at (m : mat) (i j : nat) (x : A) : outcome mat := do h <- hook m i; do v <- put (vals m) (h + j) x; Ok (Mat (blk m) v (cols m) (hooks m)).
(** reading and writing a row (step 1) or a column (step cols_) from a place on: std::copy over matrixs.hpp:78-99 ConstRow_ and 123-208 ConstCol_, Col_ *)
Fixpoint read_run (v : list A) (pos step n : nat) : outcome (list A) :=
  match n with O => Ok [] | S k => do x <- get v pos; do r <- read_run v (pos + step) step k; Ok (x :: r) end.
Fixpoint write_run (v : list A) (pos step : nat) (xs : list A) : outcome (list A) :=
  match xs with [] => Ok v | x :: r => do v' <- put v pos x; write_run v' (pos + step) step r end.
(** std::vector resize *)
Definition vresize {B} (d : B) (v : list B) (n : nat) : list B := firstn n v ++ repeat d (n - length v).
(** the loop of matrixs.hpp:234-236 *)
Fixpoint copy_rows (m : mat) (new_cols n_copy : nat) (ir n : nat) (new_vals : list A) : outcome (list A) :=
  match n with
  | O => Ok new_vals
  | S k => do h <- hook m ir; do xs <- read_run (vals m) h 1 n_copy; do v <- write_run new_vals (ir * new_cols) 1 xs; copy_rows m new_cols n_copy (S ir) k v
  end.
(** matrixs.hpp:224-241 Resize.  Whether growing the vector in place moves its storage is up to the library: [moved]. *)
Definition resize (moved : bool) (m : mat) (r c : nat) : outcome mat :=
  let old_rows := length (hooks m) in
  if (c =? cols m) && (0 <? r * old_rows) then
    let m' := Mat (if moved then S (blk m) else blk m) (vresize dflt (vals m) ((r + 1) * c)) c (vresize (None, 0) (hooks m) r) in
    do h <- get (hooks m') 0;
    let same := match h with (Some b, 0) => b =? blk m' | _ => false end in
    Ok (set_hook (if same then old_rows else 0) m')
  else
    do v <- copy_rows m c (Nat.min c (cols m)) 0 (Nat.min r old_rows) (repeat dflt ((r + 1) * c));
    Ok (set_hook 0 (Mat (S (blk m)) v c (vresize (None, 0) (hooks m) r))).
(** matrixs.hpp:32, 67-75 copy construction and copy assignment: the hooks are set again *)
Definition copy_of (m : mat) : mat := set_hook 0 (Mat (S (blk m)) (vals m) (cols m) (repeat (None, 0) (length (hooks m)))).
(** matrixs.hpp:101 and 119 Row, as the copy of its elements *)
Definition row (m : mat) (i : nat) : outcome (list A) := do h <- hook m i; read_run (vals m) h 1 (cols m).
(** matrixs.hpp:192 and 209 Col: begins at hooks_[0] + col *)
Definition col (m : mat) (j : nat) : outcome (list A) := do h <- hook m 0; read_run (vals m) (h + j) (cols m) (length (hooks m)).
(** algorithms.hpp:47-50 Copy into a row or a column: the sizes must agree *)
Definition set_row (m : mat) (i : nat) (xs : list A) : outcome mat :=
  do h <- hook m i; if length xs =? cols m then do v <- write_run (vals m) h 1 xs; Ok (Mat (blk m) v (cols m) (hooks m)) else Throw.
Definition set_col (m : mat) (j : nat) (xs : list A) : outcome mat :=
  do h <- hook m 0; if length xs =? length (hooks m) then do v <- write_run (vals m) (h + j) (cols m) xs; Ok (Mat (blk m) v (cols m) (hooks m)) else Throw.
(** matrixutils.hpp:15-22 MakeTranspose *)
Fixpoint transpose_loop (src dst : mat) (ir n : nat) : outcome mat :=
  match n with O => Ok dst | S k => do xs <- row src ir; do dst' <- set_col dst ir xs; transpose_loop src dst' (S ir) k end.
Definition make_transpose (src : mat) : outcome mat := transpose_loop src (new_mat (cols src) (rows src) dflt) 0 (rows src).
(** matrixutils.hpp:24-33 Append *)
Fixpoint append_loop (above below : mat) (offset ir n : nat) : outcome mat :=
  match n with O => Ok above | S k => do xs <- row below ir; do above' <- set_row above (ir + offset) xs; append_loop above' below offset (S ir) k end.
Definition append (moved : bool) (above below : mat) : outcome mat :=
  let offset := rows above in
  do a <- resize moved above (offset + rows below) (Nat.max (cols above) (cols below)); append_loop a below offset 0 (rows below).
(** matrixutils.hpp:87-104 FromVectors: std::copy does not look at the size of the row it writes *)
Fixpoint from_loop (vv : list (list A)) (by_cols quiet ragged : bool) (size2 ii : nat) (m : mat) : outcome mat :=
  match vv with
  | [] => Ok m
  | v :: r =>
    if quiet || ragged || (length v =? size2) then
      do h <- hook m (if by_cols then 0 else ii);
      do w <- (if by_cols then write_run (vals m) (h + ii) (cols m) v else write_run (vals m) h 1 v);
      from_loop r by_cols quiet ragged size2 (S ii) (Mat (blk m) w (cols m) (hooks m))
    else Throw
  end.
Definition from_vectors (vv : list (list A)) (by_cols quiet ragged : bool) : outcome mat :=
  match vv with
  | [] => Ok no_matrix
  | v0 :: _ =>
    let size2 := if ragged then list_max (map (@length A) vv) else length v0 in
    from_loop vv by_cols quiet ragged size2 0 (if by_cols then new_mat size2 (length vv) dflt else new_mat (length vv) size2 dflt)
  end.
(** matrixutils.hpp:105-111 ToVectors *)
Fixpoint to_loop (m : mat) (by_cols : bool) (ii n : nat) : outcome (list (list A)) :=
  match n with O => Ok [] | S k => do v <- (if by_cols then col m ii else row m ii); do r <- to_loop m by_cols (S ii) k; Ok (v :: r) end.
Definition to_vectors (m : mat) (by_cols : bool) : outcome (list (list A)) := to_loop m by_cols 0 (if by_cols then cols m else rows m).
(** matrixutils.hpp:46-54, 66-69, 81-85: Apply of an operation to every element, through the iterators of the first and the last row *)
Definition apply (op : A -> A) (m : mat) : outcome mat :=
  do b <- hook m 0; do e <- hook m (if is_empty m then 0 else rows m - 1);
  let out := new_mat (rows m) (cols m) dflt in
  do xs <- read_run (vals m) b 1 (e + cols m - b);
  do o <- hook out 0;
  do v <- write_run (vals out) o 1 (map op xs); Ok (Mat (blk out) v (cols out) (hooks out)).
End Matrix.
Arguments mat A : clear implicits.
Arguments no_matrix {A}.
