(** dal/risk/report.hpp, report.cpp: the header tables of a report, beside its values (NdModel.v).  A table is the list of its
    rows; that Matrix_ behaves like that is C43. *)
From Coq Require Import ZArith List Arith Bool.
From Verif Require Import Base Vec OMap StringModel NdModel.
Import ListNotations.
Local Open Scope nat_scope.
Section Header.
Context {A C : Type}.
Variable zero : A.
Variable blank : C. (* Cell_() *)
(** report.hpp:25-28 *)
Record header := Header { labels : list str; table : list (list C) }.
Record full := Full { body : report A; heads : list header }.
Definition blank_row (h : header) : list C := repeat blank (length (labels h)).
(** Matrix_::Resize to more rows of the header's width *)
Definition grow (h : header) (n : nat) : header := Header (labels h) (table h ++ repeat (blank_row h) (n - length (table h))).
(** the lines of report.cpp:59-69 about headers; an axis takes the number of names seen before it *)
Fixpoint add_headers (given : list (str * nat * list str)) (ax : list (str * nat)) (hs : list header) : outcome (list header) :=
  match given with
  | [] => Ok hs
  | (name, size, ls) :: r =>
    let which := length ax in
    do hs' <- put hs which (grow (Header ls []) size);
    add_headers r (massign ci_compare ax name which) hs'
  end.
(** report.cpp:56-71, the constructor *)
Definition new_full (given : list (str * nat * list str)) : outcome full :=
  do b <- new_report zero (map fst given);
  do hs <- add_headers given [] (repeat (Header [] []) (length given));
  Ok (Full b hs).
(** report.cpp:131-140 AddHeaderRow.  If the sizes differ the REQUIRE composes a message from a note about a temporary that is
    gone (C63_temporary_refuted); a negative offset reaches before the first row *)
Definition add_header_row (f : full) (axis : str) (offset : Z) (values : list C) : outcome full :=
  match mfind ci_compare (axes (body f)) axis with
  | None => Throw
  | Some which =>
    do h <- get (heads f) which;
    if length values =? length (labels h) then
      if (offset <? 0)%Z then UB
      else let k := Z.to_nat offset in
           let h1 := if length (table h) <=? k then grow h (k + 1) else h in
           do t <- put (table h1) k values;
           do hs <- put (heads f) which (Header (labels h1) t);
           Ok (Full (body f) hs)
    else UB
  end.
(** report.cpp:142 Header *)
Definition header_of (f : full) (axis : str) : outcome header :=
  match mfind ci_compare (axes (body f)) axis with None => Throw | Some which => get (heads f) which end.
(** report.cpp:73-86 Write *)
Definition store_full (f : full) : outcome ((list (str * nat) * list A) * list (list str) * list (list (list C))) :=
  do st <- store (body f); Ok (st, map labels (heads f), map table (heads f)).
(** report.cpp:42-49: Copy into a row of the width of the labels, then AddHeaderRow *)
Fixpoint add_rows (f : full) (axis : str) (width : nat) (k : nat) (rows : list (list C)) : outcome full :=
  match rows with
  | [] => Ok f
  | r :: rest => if length r =? width then do f' <- add_header_row f axis (Z.of_nat k) r; add_rows f' axis width (S k) rest else Throw
  end.
Fixpoint add_tables (f : full) (names : list str) (ls : list (list str)) (tables : list (list (list C))) : outcome full :=
  match names with
  | [] => Ok f
  | n :: names' => match tables, ls with
    | t :: tables', l :: ls' => do f' <- add_rows f n (length l) 0 t; add_tables f' names' ls' tables'
    | _, _ => UB
    end
  end.
Fixpoint with_labels (ax : list (str * nat)) (ls : list (list str)) : outcome (list (str * nat * list str)) :=
  match ax with
  | [] => Ok []
  | a :: ax' => match ls with l :: ls' => do r <- with_labels ax' ls'; Ok ((a, l) :: r) | [] => UB end
  end.
(** report.cpp:31-53 Build *)
Definition build_full (st : (list (str * nat) * list A) * list (list str) * list (list (list C))) : outcome full :=
  let '((ax, vals), ls, tables) := st in
  do given <- with_labels ax ls;
  do f <- new_full given;
  do f' <- add_tables f (map fst ax) ls tables;
  do b <- set_all (body f') vals;
  Ok (Full b (heads f')).
End Header.
Arguments header C : clear implicits.
Arguments full A C : clear implicits.
