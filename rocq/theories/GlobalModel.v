(** Model of the global values: RepoStore_ in dal/storage/_repository.cpp, dal/storage/globals.cpp, globals.hpp, and the lookup of
    dal/indice/fixings.cpp. *)
From Coq Require Import String Ascii ZArith List Bool.
From Verif Require Import Base StringModel OMap RepoModel.
Import ListNotations.
Open Scope Z_scope.

(** dal/math/cell.hpp:13-26 Cell_; numbers and times are any types *)
Inductive cell (N T : Type) := CBool (b : bool) | CNum (x : N) | CDate (d : Z) | CTime (t : T) | CStr (s : str) | CEmpty.
Arguments CBool {N T}. Arguments CNum {N T}. Arguments CDate {N T}. Arguments CTime {N T}. Arguments CStr {N T}. Arguments CEmpty {N T}.
(** dal/math/matrix/matrixs.hpp Matrix_<Cell_>, as the list of its rows (C43 is about the storage itself) *)
Definition table (N T : Type) := list (list (cell N T)).
(** matrixs.hpp:36 Empty *)
Definition is_empty {N T} (m : table N T) : bool := match m with [] => true | r :: _ => match r with [] => true | _ => false end end.

Section Globals.
  Context {N T : Type}.
  Variable uniq : Z -> str.
  (** a Storable_ is a Box_ with its contents (dal/storage/box.hpp:24-28) or something else *)
  Notation obj := (object (option (table N T))).
  Notation repo := (omap str obj).
  (** the address operator new finds for the next object *)
  Variable alloc : repo -> Z.

  (** _repository.cpp:120-123 RepoStore_::Set *)
  Definition global_box (name : str) (value : table N T) (a : Z) : obj := Obj (lit "Box") (lit "##GLOBAL##" ++ name) a (Some value).
  Definition store_set (m : repo) (name : str) (value : table N T) : repo := fst (add uniq m (global_box name value (alloc m)) EName).
  (** _repository.cpp:124-136 RepoStore_::Get *)
  Definition store_get (m : repo) (name : str) : outcome (table N T) :=
    let tag_start := base_tag (global_box name [] 0) in
    match mlower ci_compare m tag_start with
    | (k, o) :: _ =>
        if starts k tag_start
        then match orest o with Some c => if is_empty c then Throw else Ok c | None => Throw end
        else Ok []
    | [] => Ok []
    end.

  (** globals.cpp:41-48 the two global dates *)
  Inductive which := Accounting | Evaluation.
  Definition date_name (w : which) : str := match w with Accounting => lit "AccountingDate" | Evaluation => lit "EvaluationDate" end.
  (** Date::Today(), the same throughout *)
  Variable today : Z.
  (** globals.cpp:60-66 SetAccountingDate, SetEvaluationDate *)
  Definition set_date (m : repo) (w : which) (d : Z) : repo := store_set m (date_name w) [[CDate d]].
  (** globals.cpp:28-38 GetGlobalDate; cell.hpp:70-74 IsEmpty, cell.cpp:78-82 ToDate *)
  Definition cell_empty (c : cell N T) : bool := match c with CStr [] => true | CEmpty => true | _ => false end.
  Definition get_date (m : repo) (w : which) : outcome (repo * Z) :=
    do stored <- store_get m (date_name w);
    match stored with
    | (c :: _) :: _ => if cell_empty c then Ok (set_date m w today, today) else match c with CDate d => Ok (m, d) | _ => Throw end
    | _ => Ok (set_date m w today, today)
    end.

  (** A program using the dates.  [Open] declares a variable holding a ScopedOverride_ (globals.cpp:68-78), [Close] is the end of
      the innermost such variable's scope (globals.hpp:74-77), [Assign] moves a new override into it (globals.hpp:66-73). *)
  Inductive cmd := Write (w : which) (d : Z) | Read (w : which) | Open (w : which) (d : Z) | Assign (w : which) (d : Z) | Close.
  (** the variables in scope, innermost first: the setter to call and the value saved *)
  Record gstate := GState { objects : repo; overrides : list (which * Z) }.
  Definition run_cmd (s : gstate) (c : cmd) : outcome gstate :=
    match c with
    | Write w d => Ok (GState (set_date (objects s) w d) (overrides s))
    | Read w => do (m, _) <- get_date (objects s) w; Ok (GState m (overrides s))
    | Open w d => do (m, saved) <- get_date (objects s) w; Ok (GState (set_date m w d) ((w, saved) :: overrides s))
    | Assign w d =>
        match overrides s with
        | [] => UB
        | _ :: r => do (m, saved) <- get_date (objects s) w; Ok (GState (set_date m w d) ((w, saved) :: r))
        end
    | Close => match overrides s with [] => UB | (w, saved) :: r => Ok (GState (set_date (objects s) w saved) r) end
    end.
  Fixpoint run (s : gstate) (l : list cmd) : outcome gstate :=
    match l with [] => Ok s | c :: r => do s' <- run_cmd s c; run s' r end.
End Globals.

(** * Fixings *)
Section Fixings.
  Context {N T St : Type}.
  Variable cmp : T -> T -> comparison.
  (** the store installed by SetTheFixingsStore (globals.cpp:129-131) *)
  Variable get : St -> str -> outcome (table N T).
  Variable set : St -> str -> table N T -> St.
  Definition fix_prefix : str := lit "FixingsFor:".
  (** cell.cpp:84-88 ToDateTime, :57-60 ToDouble *)
  Definition to_time (c : cell N T) : outcome T := match c with CTime t => Ok t | _ => Throw end.
  Variable of_bool : bool -> N.
  Definition to_num (c : cell N T) : outcome N := match c with CNum x => Ok x | CBool b => Ok (of_bool b) | _ => Throw end.
  (** globals.cpp:91-105 History *)
  Fixpoint read_rows (rows : table N T) : outcome (list (T * N)) :=
    match rows with
    | [] => Ok []
    | r :: rest =>
        match r with
        | c0 :: c1 :: _ => do t <- to_time c0; do x <- to_num c1; do l <- read_rows rest; Ok ((t, x) :: l)
        | _ => UB
        end
    end.
  Definition fix_history (s : St) (index : str) : outcome (list (T * N)) :=
    do stored <- get s (fix_prefix ++ index);
    if is_empty stored then Ok [] else read_rows stored.
  (** globals.cpp:107-127 StoreFixings; the result is the number of rows stored *)
  Definition store_fixings (s : St) (index : str) (fixings : list (T * N)) (append : bool) : outcome (St * Z) :=
    do old <- (if append then fix_history s index else Ok []);
    let all := fold_left (fun m p => massign cmp m (fst p) (snd p)) (old ++ fixings) [] in
    let rows := map (fun p => [CTime (fst p); CNum (snd p)]) all in
    Ok (set s (fix_prefix ++ index) rows, Z.of_nat (length all)).
  (** dal/indice/fixings.cpp:28-37 FixHistory_::Find; std::lower_bound stops at the first entry not before the time *)
  Variable minus_inf : N.
  Fixpoint fix_find (l : list (T * N)) (t : T) (quiet : bool) : outcome N :=
    match l with
    | [] => if quiet then Ok minus_inf else Throw
    | (u, x) :: r => match cmp u t with Lt => fix_find r t quiet | Eq => Ok x | Gt => if quiet then Ok minus_inf else Throw end
    end.
End Fixings.
