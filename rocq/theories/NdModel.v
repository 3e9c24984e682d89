(** dal/math/ndarray.hpp, ndarray.cpp: n-dimensional arrays; dal/risk/report.hpp, report.cpp: risk reports.  Sizes and
    coordinates are natural numbers: negative ones and int overflow are left out.  The header tables of a report are in HeaderModel. *)
From Coq Require Import List Arith Bool.
From Verif Require Import Base Vec OMap StringModel MatrixModel.
Import ListNotations.

(** ndarray.cpp:11-16 Strides, from the last axis to the first *)
Fixpoint strides (sizes : list nat) : list nat :=
  match sizes with
  | [] => []
  | _ :: r => let t := strides r in match t, r with s :: _, m :: _ => s * m :: t | _, _ => 1 :: t end
  end.
(** numerics.hpp:28-31 InnerProduct: runs over the first range *)
Fixpoint inner (loc st : list nat) : outcome nat :=
  match loc, st with
  | [], _ => Ok 0
  | x :: l, s :: t => do r <- inner l t; Ok (x * s + r)
  | _ :: _, [] => UB
  end.

Section Array.
Context {A : Type}.
Variable dflt : A. (* E_() *)
(** ndarray.hpp:20-22 *)
Record arr := Arr { asizes : list nat; astrides : list nat; avals : list A }.
(** ndarray.hpp:25-26, the constructor *)
Definition new_array (sizes : list nat) (fill : A) : outcome arr :=
  let st := strides sizes in
  do s0 <- get st 0; do n0 <- get sizes 0; Ok (Arr sizes st (repeat fill (s0 * n0))).
(** ndarray.hpp:28-29 operator[] *)
Definition arr_at (a : arr) (loc : list nat) : outcome A := do k <- inner loc (astrides a); get (avals a) k.
Definition arr_put (a : arr) (loc : list nat) (x : A) : outcome arr := do k <- inner loc (astrides a); do v <- put (avals a) k x; Ok (Arr (asizes a) (astrides a) v).
(** ndarray.cpp:27-34: the next location, first axis first; none when every axis is back at zero *)
Fixpoint advance (loc mins : list nat) : option (list nat) :=
  match loc, mins with
  | x :: l, m :: ms => if S x <? m then Some (S x :: l) else option_map (cons 0) (advance l ms)
  | _, _ => None
  end.
(** ndarray.cpp:26-36, the loop of Moves *)
Fixpoint moves_loop (fuel : nat) (mins old_st new_st loc : list nat) : outcome (list (nat * nat)) :=
  match fuel with
  | O => OutOfFuel
  | S f => match advance loc mins with
           | None => Ok []
           | Some loc' => do a <- inner loc' old_st; do b <- inner loc' new_st; do r <- moves_loop f mins old_st new_st loc'; Ok ((a, b) :: r)
           end
  end.
(** ndarray.cpp:18-38 Moves *)
Definition mins_of (old new : list nat) : list nat := map (fun p => Nat.min (fst p) (snd p)) (combine old new).
Definition moves (old new : list nat) : outcome (list (nat * nat)) :=
  if length new =? length old then
    let mins := mins_of old new in
    moves_loop (S (fold_right Nat.mul 1 (map (Nat.max 1) mins))) mins (strides old) (strides new) (repeat 0 (length old))
  else Throw.
(** ndarray.hpp:58-59 *)
Fixpoint move_all (src : list A) (ms : list (nat * nat)) (dst : list A) : outcome (list A) :=
  match ms with [] => Ok dst | (a, b) :: r => do x <- get src a; do d <- put dst b x; move_all src r d end.
(** ndarray.hpp:53-61 Resize *)
Definition arr_resize (a : arr) (new_sizes : list nat) : outcome arr :=
  do ms <- moves (asizes a) new_sizes;
  do n0 <- get (asizes a) 0; do s0 <- get (astrides a) 0;
  do v <- move_all (avals a) ms (repeat dflt (n0 * s0));
  Ok (Arr new_sizes (strides new_sizes) v).
(** ndarray.hpp:64-80, 90-95 Cube_::operator() through Goto: all three strides must be used *)
Definition cube_at (a : arr) (i j k : nat) : outcome A :=
  do s0 <- get (astrides a) 0; do s1 <- get (astrides a) 1; do s2 <- get (astrides a) 2;
  if length (astrides a) =? 3 then get (avals a) (i * s0 + j * s1 + k * s2) else Throw.
(** ndarray.hpp:97-107 SliceBegin, SliceEnd: the elements between *)
Definition cube_slice (a : arr) (i j : nat) : outcome (list A) :=
  do _ <- cube_at a i j 0;
  do s0 <- get (astrides a) 0; do s1 <- get (astrides a) 1; read_run (avals a) (i * s0 + j * s1) 1 s1.
End Array.
Arguments arr : clear implicits.

Section Report.
Context {A : Type}.
Variable zero : A. (* double() *)
(** report.hpp:38-40 *)
Record report := Report { axes : list (str * nat); rstrides : list nat; rvals : list A }.
(** report.cpp:59-69 the loop of the constructor *)
Fixpoint add_axes (given : list (str * nat)) (ax : list (str * nat)) (st : list nat) : outcome (list (str * nat) * list nat) :=
  match given with
  | [] => Ok (ax, st)
  | (name, size) :: r => let which := length ax in
                         if (0 <? size) || (which =? 0) then add_axes r (massign ci_compare ax name which) (map (fun s => s * size) st ++ [1]) else Throw
  end.
(** report.cpp:56-71, the constructor *)
Definition new_report (given : list (str * nat)) : outcome report :=
  match given with
  | [] => Throw
  | (_, n0) :: _ => do (ax, st) <- add_axes given [] []; do s0 <- get st 0; Ok (Report ax st (repeat zero (n0 * s0)))
  end.
(** report.cpp:88-92 Size *)
Definition size_of (r : report) (axis : str) : outcome nat :=
  match mfind ci_compare (axes r) axis with
  | None => Throw
  | Some which => do s <- get (rstrides r) which;
                  do n <- match which with O => Ok (length (rvals r)) | S w => get (rstrides r) w end;
                  match s with O => UB | _ => Ok (n / s) end
  end.
(** report.cpp:129 MakeAddress, report.hpp:21 *)
Definition make_address (r : report) : list nat := repeat 0 (length (axes r)).
(** report.cpp:118-127 Address_::operator[], assigned to *)
Definition set_axis (r : report) (loc : list nat) (axis : str) (x : nat) : outcome (list nat) :=
  match mfind ci_compare (axes r) axis with None => Throw | Some which => put loc which x end.
(** report.cpp:94-102 operator[]: the report afterwards, and the cell *)
Definition place (r : report) (loc : list nat) : report * outcome nat :=
  match inner loc (rstrides r) with
  | Ok which =>
    if which <? length (rvals r) then (r, Ok which)
    else match loc, rstrides r with
         | x0 :: _, s0 :: _ => let r' := Report (axes r) (rstrides r) (vresize zero (rvals r) ((x0 + 1) * s0)) in
                               (r', if which <? length (rvals r') then Ok which else Throw)
         | _, _ => (r, UB)
         end
  | Throw => (r, Throw) | UB => (r, UB) | OutOfFuel => (r, OutOfFuel)
  end.
Definition write_cell (r : report) (loc : list nat) (x : A) : report * outcome unit :=
  match place r loc with
  | (r', Ok k) => (Report (axes r') (rstrides r') (set_nth (rvals r') k x), Ok tt)
  | (r', Throw) => (r', Throw) | (r', UB) => (r', UB) | (r', OutOfFuel) => (r', OutOfFuel)
  end.
(** report.cpp:104-109 operator[] const *)
Definition read_cell (r : report) (loc : list nat) : outcome A :=
  do which <- inner loc (rstrides r); if which <? length (rvals r) then get (rvals r) which else Throw.
(** report.cpp:111-116 SetAll *)
Definition set_all (r : report) (vals : list A) : outcome report :=
  match rstrides r with
  | [] => Throw
  | O :: _ => UB
  | s0 :: _ => if (length vals mod s0 =? 0) && (length (rvals r) <=? length vals) then Ok (Report (axes r) (rstrides r) vals) else Throw
  end.
(** report.cpp:73-86 Write: names, sizes and values as stored *)
Fixpoint store_axes (r : report) (ax : list (str * nat)) (out : list (str * nat)) : outcome (list (str * nat)) :=
  match ax with
  | [] => Ok out
  | (name, which) :: rest =>
    do s <- get (rstrides r) which;
    do n <- match which with O => Ok (length (rvals r)) | S w => get (rstrides r) w end;
    match s with O => UB | _ => do o <- put out which (name, n / s); store_axes r rest o end
  end.
Definition store (r : report) : outcome (list (str * nat) * list A) :=
  do ax <- store_axes r (axes r) (repeat ([], 0) (length (axes r))); Ok (ax, rvals r).
(** report.cpp:31-53 Build *)
Definition build (st : list (str * nat) * list A) : outcome report := do r <- new_report (fst st); set_all r (snd st).
End Report.
Arguments report : clear implicits.
