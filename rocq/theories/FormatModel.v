(** dal/math/matrix/matrixutils.cpp: the language for laying tables out. *)
From Coq Require Import List Arith ZArith Bool Ascii.
From Verif Require Import Base Vec StringModel MatrixModel.
Import ListNotations.

(** matrixutils.cpp:15-22 WriterView_: an affine map from input coordinates to coordinates of the output *)
Record view := View { row_off : Z; col_off : Z; r2r : Z; r2c : Z; c2r : Z; c2c : Z }.
Definition plain_view : view := View 0 0 1 0 0 1.
Local Open Scope Z_scope.
(** matrixutils.cpp:30-35 Transpose *)
Definition v_transpose (v : view) : view := View (row_off v) (col_off v) (c2r v) (c2c v) (r2r v) (r2c v).
(** matrixutils.cpp:36-45 Invert *)
Definition v_invert (v : view) (n_rows n_cols : Z) : view :=
  View (row_off v + (r2r v * (n_rows - 1) + c2r v * (n_cols - 1))) (col_off v + (r2c v * (n_rows - 1) + c2c v * (n_cols - 1)))
       (- r2r v) (- r2c v) (- c2r v) (- c2c v).
(** matrixutils.cpp:46-51 Shift *)
Definition v_shift (v : view) (dr dc : Z) : view :=
  View (row_off v + (r2r v * dr + c2r v * dc)) (col_off v + (r2c v * dr + c2c v * dc)) (r2r v) (r2c v) (c2r v) (c2c v).
(** matrixutils.cpp:52-57 Flatten *)
Definition v_flatten (v : view) (n_cols : Z) : view := View (row_off v) (col_off v) (n_cols * c2r v) (n_cols * c2c v) (c2r v) (c2c v).
(** matrixutils.cpp:67-183: the kinds of Writer_ *)
Inductive writer :=
| WTransposed (base : writer) | WInverted (base : writer) | WLinear (base : writer)
| WHorizontal (justify_bottom : bool) (elements : list writer) | WVertical (justify_right : bool) (elements : list writer)
| WEmpty | WArg (which : nat).

Section Format.
Context {A : Type}.
Variable dflt : A. (* Cell_() *)
(** matrixutils.cpp:24-28 Write *)
Definition v_write (v : view) (m : mat A) (i j : Z) (x : A) : outcome (mat A) :=
  let r := row_off v + r2r v * i + c2r v * j in
  let c := col_off v + r2c v * i + c2c v * j in
  if (r <? 0) || (c <? 0) then UB else put_at m (Z.to_nat r) (Z.to_nat c) x.
Variable args : list (mat A).
(** Rows and Cols of every Writer_ (matrixutils.cpp:70-71, 80-81, 91-92, 105-116, 136-147, 161-162, 169-174) *)
Fixpoint dims (w : writer) : nat * nat :=
  match w with
  | WTransposed b => (snd (dims b), fst (dims b))
  | WInverted b => dims b
  | WLinear b => (1, fst (dims b) * snd (dims b))%nat
  | WHorizontal _ es => (fold_right Nat.max 0%nat (map (fun e => fst (dims e)) es), fold_right Nat.add 0%nat (map (fun e => snd (dims e)) es))
  | WVertical _ es => (fold_right Nat.add 0%nat (map (fun e => fst (dims e)) es), fold_right Nat.max 0%nat (map (fun e => snd (dims e)) es))
  | WEmpty => (1, 1)%nat
  | WArg k => match nth_error args k with Some t => (rows t, cols t) | None => (0, 0)%nat end
  end.
(** matrixutils.cpp:179-181, the loops of ArgWriter_::Write *)
Fixpoint write_cells (v : view) (src : mat A) (ir ic n : nat) (m : mat A) : outcome (mat A) :=
  match n with O => Ok m | S k => do x <- at_ src ir ic; do m' <- v_write v m (Z.of_nat ir) (Z.of_nat ic) x; write_cells v src ir (S ic) k m' end.
Fixpoint write_rows (v : view) (src : mat A) (ir n : nat) (m : mat A) : outcome (mat A) :=
  match n with O => Ok m | S k => do m' <- write_cells v src ir 0 (cols src) m; write_rows v src (S ir) k m' end.
(** Write of every Writer_ (matrixutils.cpp:72-74, 82-84, 93-95, 117-126, 148-157, 163, 175-182) *)
Fixpoint write (w : writer) (v : view) (m : mat A) : outcome (mat A) :=
  match w with
  | WTransposed b => write b (v_transpose v) m
  | WInverted b => write b (v_invert v (Z.of_nat (fst (dims b))) (Z.of_nat (snd (dims b)))) m
  | WLinear b => write b (v_flatten v (Z.of_nat (snd (dims b)))) m
  | WHorizontal bottom es =>
    let height := if bottom then Z.of_nat (fst (dims (WHorizontal bottom es))) else 0 in
    (fix go es temp m := match es with
       | [] => Ok m
       | e :: r => let sh := if bottom then height - Z.of_nat (fst (dims e)) else 0 in
                   let temp1 := v_shift temp sh 0 in
                   do m' <- write e temp1 m; go r (v_shift temp1 (- sh) (Z.of_nat (snd (dims e)))) m'
       end) es v m
  | WVertical jr es =>
    let width := if jr then Z.of_nat (snd (dims (WVertical jr es))) else 0 in
    (fix go es temp m := match es with
       | [] => Ok m
       | e :: r => let sh := if jr then width - Z.of_nat (snd (dims e)) else 0 in
                   let temp1 := v_shift temp 0 sh in
                   do m' <- write e temp1 m; go r (v_shift temp1 (Z.of_nat (fst (dims e))) (- sh)) m'
       end) es v m
  | WEmpty => v_write v m 0 0 dflt
  | WArg k => match nth_error args k with None => Ok m | Some src => write_rows v src 0 (rows src) m end
  end.
(** matrixutils.cpp:260-266 Format, after parsing *)
Definition format_writer (w : writer) : outcome (mat A) :=
  let out := new_mat (fst (dims w)) (snd (dims w)) dflt in
  if (0 <? rows out * cols out)%nat then write w plain_view out else Throw.
End Format.

(** matrixutils.cpp:185-200 Split *)
Definition deeper (c : ascii) (depth : Z) : Z := if Ascii.eqb c "(" then depth + 1 else if Ascii.eqb c ")" then depth - 1 else depth.
Fixpoint split_top (sep : ascii) (depth : Z) (s : str) : list str :=
  match s with
  | [] => [[]]
  | c :: r => if Ascii.eqb c sep && (depth =? 0) then [] :: split_top sep depth r
              else match split_top sep (deeper c depth) r with p :: ps => (c :: p) :: ps | [] => [[c]] end
  end.
(** matrixutils.cpp:204-212, the loop of Strip: how far it goes *)
Fixpoint close_pos (depth : Z) (s : str) : nat :=
  match s with [] => 0%nat | c :: r => if deeper c depth =? 0 then 0%nat else S (close_pos (deeper c depth) r) end.
(** matrixutils.cpp:202-216 Strip *)
Fixpoint strip (fuel : nat) (s : str) : str :=
  match fuel with
  | O => s
  | S f => match s with
           | [] => []
           | _ => if (close_pos 0 s =? length s - 1)%nat && Ascii.eqb (last s " "%char) ")" then strip f (removelast (tl s)) else s
           end
  end.
(** matrixutils.cpp:219-257 MultipleWriter, XNewWriter, NewWriter *)
Fixpoint new_writer (fuel : nat) (s0 : str) : outcome writer :=
  match fuel with
  | O => OutOfFuel
  | S f =>
    let s := strip (length s0) s0 in
    let all := (fix all (ps : list str) : outcome (list writer) := match ps with [] => Ok [] | p :: r => do w <- new_writer f p; do ws <- all r; Ok (w :: ws) end) in
    let multiple sep := match split_top sep 0 s with p :: q :: r => Some (p :: q :: r) | _ => None end in
    match multiple ":"%char with Some ps => do ws <- all ps; Ok (WVertical true ws) | None =>
    match multiple ";"%char with Some ps => do ws <- all ps; Ok (WVertical false ws) | None =>
    match multiple "."%char with Some ps => do ws <- all ps; Ok (WHorizontal true ws) | None =>
    match multiple ","%char with Some ps => do ws <- all ps; Ok (WHorizontal false ws) | None =>
      match s with
      | [] => UB (* back() of an empty string *)
      | _ => let c := last s " "%char in
        if Ascii.eqb (toupper c) "T" then do w <- new_writer f (removelast s); Ok (WTransposed w)
        else if Ascii.eqb (toupper c) "I" then do w <- new_writer f (removelast s); Ok (WInverted w)
        else if Ascii.eqb c "*" then do w <- new_writer f (removelast s); Ok (WLinear w)
        else if (length s =? 1)%nat && (48 <=? code c) && (code c <=? 57) then Ok (if code c =? 48 then WEmpty else WArg (Z.to_nat (code c - 49)))
        else Throw
      end
    end end end end
  end.
Definition parse_format (s : str) : outcome writer := new_writer (S (length s)) s.
Definition format {A} (dflt : A) (args : list (mat A)) (s : str) : outcome (mat A) := do w <- parse_format s; format_writer dflt args w.
