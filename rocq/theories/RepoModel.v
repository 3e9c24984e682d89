(** Model of dal/storage/_repository.cpp: the process-wide repository of objects, and the store of global values kept in it. *)
From Coq Require Import String Ascii ZArith List Bool.
From Verif Require Import Base StringModel OMap.
Import ListNotations.
Open Scope Z_scope.

(** dal/storage/storable.hpp:14-24 Storable_: a type, a name and (here) the rest of the object; [oaddr] is where it lives.  Objects
    are immutable and shared through handles, so an object is identified with this record. *)
Record object (P : Type) := Obj { otype : str; oname : str; oaddr : Z; orest : P }.
Arguments Obj {P}. Arguments otype {P}. Arguments oname {P}. Arguments oaddr {P}. Arguments orest {P}.
Arguments object : clear implicits.

(** _repository.hpp:14-26 RepositoryErase *)
Inductive erase_mode := ENone | ENameNonempty | EName | EType.

(** key.substr(0, start.size()) == start *)
Definition starts (key start : str) : bool := ci_eqb (firstn (length start) key) start.

Section Repo.
  Context {P : Type}.
  (** strings.cpp:125-129 String::Uniquifier: the text the platform prints for an address *)
  Variable uniq : Z -> str.
  (** _repository.cpp:22 the map *)
  Notation repo := (omap str (object P)).

  (** _repository.cpp:27-29 *)
  Definition type_tag (s : object P) : str := "~"%char :: otype s ++ ["~"%char].
  Definition base_tag (s : object P) : str := type_tag s ++ oname s ++ ["~"%char].
  Definition tag (s : object P) : str := base_tag s ++ uniq (oaddr s).

  (** _repository.cpp:31-38 EraseByStart: from lower_bound, as long as the key starts with [start] *)
  Fixpoint drop_starting (m : repo) (start : str) : repo :=
    match m with [] => [] | (k, o) :: r => if starts k start then drop_starting r start else m end.
  Fixpoint erase_by_start (m : repo) (start : str) : repo :=
    match m with
    | [] => []
    | (k, o) :: r => match ci_compare k start with Lt => (k, o) :: erase_by_start r start | _ => drop_starting m start end
    end.
  (** _repository.cpp:41-64 AddBase, in the two locked pieces it is made of *)
  Definition add_erase (m : repo) (s : object P) (mode : erase_mode) : repo :=
    match mode with
    | ENameNonempty => match oname s with [] => m | _ => erase_by_start m (base_tag s) end
    | EName => erase_by_start m (base_tag s)
    | EType => erase_by_start m (type_tag s)
    | ENone => m
    end.
  Definition add_insert (m : repo) (s : object P) : repo * str := (minsert ci_compare m (tag s) s, tag s).
  Definition add (m : repo) (s : object P) (mode : erase_mode) : repo * str := add_insert (add_erase m s mode) s.

  (** _repository.cpp:66-79 Erase(pattern); [f] is the search of the compiled pattern *)
  Fixpoint erase_where (f : str -> bool) (m : repo) : repo * Z :=
    match m with
    | [] => ([], 0)
    | (k, o) :: r => let '(r', n) := erase_where f r in if f k then (r', n + 1) else ((k, o) :: r', n)
    end.
  (** _repository.cpp:81-88 Erase(object) *)
  Definition erase_object (m : repo) (s : object P) : repo * bool :=
    match mfind ci_compare m (tag s) with None => (m, false) | Some _ => (merase ci_compare m (tag s), true) end.
  (** _repository.cpp:90-93 *)
  Definition size (m : repo) : Z := Z.of_nat (length m).
  (** _repository.cpp:95-105 Find *)
  Fixpoint find_where (f : str -> bool) (m : repo) : list (object P) :=
    match m with [] => [] | (k, o) :: r => if f k then o :: find_where f r else find_where f r end.
  (** _repository.cpp:107-112 Repository_Erase *)
  Fixpoint erase_list (m : repo) (l : list (object P)) : repo * Z :=
    match l with
    | [] => (m, 0)
    | s :: r => let m' := merase ci_compare m (tag s) in
                let '(m'', n) := erase_list m' r in
                (m'', n + match mfind ci_compare m (tag s) with Some _ => 1 | None => 0 end)
    end.
  (** _repository.cpp:142-153 Fetch *)
  Definition fetch (m : repo) (t : str) (quiet : bool) : outcome (option (object P)) :=
    match mfind ci_compare m t with Some o => Ok (Some o) | None => if quiet then Ok None else Throw end.

  (** The operations of the interface, and what the caller sees.  A malformed pattern makes the std::regex constructor throw
      before the map is touched. *)
  Inductive op :=
  | OAdd (s : object P) (mode : erase_mode)
  | OErase (pattern : str)
  | OEraseObject (s : object P)
  | OEraseList (l : list (object P))
  | OSize
  | OFind (pattern : str)
  | OFetch (t : str) (quiet : bool).
  Inductive result :=
  | RTag (t : str) | RCount (n : Z) | RBool (b : bool) | RObjects (l : list (object P)) | RObject (o : option (object P)) | RThrow.
  (** std::regex(pattern) and std::regex_search *)
  Variable regex : str -> option (str -> bool).
  Definition exec (m : repo) (o : op) : repo * result :=
    match o with
    | OAdd s mode => let '(m', t) := add m s mode in (m', RTag t)
    | OErase p => match regex p with None => (m, RThrow) | Some f => let '(m', n) := erase_where f m in (m', RCount n) end
    | OEraseObject s => let '(m', b) := erase_object m s in (m', RBool b)
    | OEraseList l => let '(m', n) := erase_list m l in (m', RCount n)
    | OSize => (m, RCount (size m))
    | OFind p => match regex p with None => (m, RThrow) | Some f => (m, RObjects (find_where f m)) end
    | OFetch t quiet => (m, match fetch m t quiet with Ok r => RObject r | _ => RThrow end)
    end.
  Fixpoint exec_all (m : repo) (l : list op) : repo * list result :=
    match l with
    | [] => (m, [])
    | o :: r => let '(m1, x) := exec m o in let '(m2, xs) := exec_all m1 r in (m2, x :: xs)
    end.
End Repo.
