(** dal/storage/archive.cpp and dal/storage/splat.cpp: writing an object that refers to other objects, and building it back.
    Each class writes its type and its members through Archive::Utils::Set, and is built by a reader that reads the members in
    the same order (the generated MG_*_Read.inc / MG_*_Write.inc files). *)
From Coq Require Import String Ascii ZArith List Bool Lia.
From Verif Require Import Base DateModel StringModel OMap DictModel SplatModel.
Import ListNotations.
Open Scope Z_scope.

Section Share.
Variables N T : Type.
Notation cell := (DictModel.cell N T).
(** members: single values, vectors and matrices (all non-empty), and references to other objects *)
Inductive member : Type :=
| MScalar (c : cell) | MVector (c : cell) (l : list cell) | MMatrix (m : list (list cell)) | MRef (a : nat).
Inductive kind : Type := KScalar | KVector | KMatrix | KRef.
Definition kind_of (m : member) : kind :=
  match m with MScalar _ => KScalar | MVector _ _ => KVector | MMatrix _ => KMatrix | MRef _ => KRef end.
Record object := Object { otype : str; members : list (str * member) }.

(** sharedTags_: the objects written so far, with their tags *)
Definition tags := list (nat * str).
Fixpoint tag_for (s : tags) (a : nat) : option str :=
  match s with [] => None | (b, t) :: r => if Nat.eqb a b then Some t else tag_for r a end.
(** splat.cpp:80 *)
Definition new_tag (s : tags) : str := "$"%char :: show_int (1 + zlen s).

(** splat.cpp:88-93 Child: children_ is a map; later assignments to a name replace earlier ones *)
Definition child_map (l : list (str * node N T)) : list (str * node N T) :=
  fold_left (fun m p => massign ci_compare m (fst p) (snd p)) l [].
Definition table (v : member) : node N T :=
  match v with
  | MScalar c => Leaf 1 [[c]]
  | MVector c l => Leaf (zlen (c :: l)) [c :: l]
  | MMatrix m => Leaf (zlen (hd [] m)) m
  | MRef _ => Leaf 0 []
  end.
(** archive.cpp:17-23 SetStorable with splat.cpp:74-84 StoreRef: an object already written is stored as its tag; a new one gets
    the next tag and is written in full.  [heap] gives the objects by address, [fuel] bounds the depth of new objects. *)
Variable heap : nat -> object.
Fixpoint write_members (fuel : nat) : list (str * member) -> tags -> outcome (list (str * node N T) * tags) :=
  fix each (l : list (str * member)) (s : tags) :=
    match l with
    | [] => Ok ([], s)
    | (n, MRef b) :: r =>
        match tag_for s b with
        | Some t => do (x, s') <- each r s; Ok ((n, Leaf 1 [[CStr t]]) :: x, s')
        | None =>
            match fuel with
            | O => OutOfFuel
            | S f =>
                let t := new_tag s in
                do (y, s1) <- write_members f (members (heap b)) ((b, t) :: s);
                do (x, s') <- each r s1;
                Ok ((n, Obj t (otype (heap b)) (child_map y)) :: x, s')
            end
        end
    | (n, v) :: r => do (x, s') <- each r s; Ok ((n, table v) :: x, s')
    end.
(** splat.cpp:401-408 Splat *)
Definition archive (fuel : nat) (root : nat) : outcome (grid N T) :=
  do (x, _) <- write_members fuel (members (heap root)) [];
  splat (Obj [] (otype (heap root)) (child_map x)).

(** archive.hpp:47-50 Built_: known_, a map from tags to objects built; the objects built so far are kept in a list and a
    handle is a position in it *)
Definition known := list (str * nat).
Fixpoint handle_for (k : known) (t : str) : option nat :=
  match k with [] => None | (u, h) :: r => if ci_eqb u t then Some h else handle_for r t end.
(** TheBuilders (archive.cpp:10-12): the members each type reads *)
Variable schema : str -> option (list (str * kind)).
Definition read_table (k : kind) (g : grid N T) (v : view) : outcome member :=
  match k with
  | KScalar => do c <- get_scalar g v; Ok (MScalar c)
  | KVector => do l <- vector_range g v; match l with c :: r => Ok (MVector c r) | [] => Throw end
  | KMatrix => do m <- matrix_range g v; Ok (MMatrix m)
  | KRef => Throw
  end.
Definition built := list object.
(** archive.cpp:27-40 Extract, with [build] reading the members of a type *)
Definition extract (build : list (str * kind) -> known -> built -> outcome (list (str * member) * known * built))
    (g : grid N T) (v : view) (kn : known) (b : built) : outcome (nat * known * built) :=
  do t <- tag_of g v;
  match handle_for kn t with
  | Some h => Ok (h, kn, b)
  | None =>
      do ty <- type_of g v;
      if is_nil ty then Throw
      else match schema ty with
           | None => Throw
           | Some ms =>
               do (r, b') <- build ms kn b;
               let '(ml, kn') := r in
               Ok (length b', (t, length b') :: kn', b' ++ [Object ty ml])
           end
  end.
Fixpoint read_members (fuel : nat) (g : grid N T) (v : view) :
    list (str * kind) -> known -> built -> outcome (list (str * member) * known * built) :=
  fix each (l : list (str * kind)) (kn : known) (b : built) :=
    match l with
    | [] => Ok ([], kn, b)
    | (n, KRef) :: r =>
        do v' <- child g v n;
        do (q, b1) <- extract (match fuel with O => fun _ _ _ => OutOfFuel | S f => read_members f g v' end) g v' kn b;
        let '(h, kn1) := q in
        do (q2, b2) <- each r kn1 b1;
        let '(ml, kn2) := q2 in
        Ok ((n, MRef h) :: ml, kn2, b2)
    | (n, k) :: r =>
        do v' <- child g v n;
        do m <- read_table k g v';
        do (q2, b2) <- each r kn b;
        let '(ml, kn2) := q2 in
        Ok ((n, m) :: ml, kn2, b2)
    end.
(** splat.cpp:417-422 UnSplat *)
Definition unarchive (fuel : nat) (g : grid N T) : outcome (nat * built) :=
  let v := View 0 (g_rows g) 0 in
  do (q, b) <- extract (read_members fuel g v) g v [] [];
  let '(h, _) := q in Ok (h, b).
End Share.
Arguments MScalar {N T}. Arguments MVector {N T}. Arguments MMatrix {N T}. Arguments MRef {N T}. Arguments kind_of {N T}.
Arguments Object {N T}. Arguments otype {N T}. Arguments members {N T}. Arguments child_map {N T}. Arguments table {N T}.
Arguments write_members {N T}. Arguments archive {N T}. Arguments read_table {N T}. Arguments extract {N T}.
Arguments read_members {N T}. Arguments unarchive {N T}.
