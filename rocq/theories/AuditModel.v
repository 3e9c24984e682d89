(** dal/storage/audit.{hpp,cpp} and dal/storage/bag.{hpp,cpp}: auditors in the environment that are shown objects under a key
    and later give them back, and the bag (a multimap) that holds them. *)
From Coq Require Import List Arith Bool.
From Verif Require Import Base StringModel.
Import ListNotations.

(** Handle_<Storable_> (dal/platform/platform.hpp): a shared pointer, null or the address of an object *)
Definition handle := option nat.
Definition same_handle (a b : handle) : bool :=
  match a, b with None, None => true | Some x, Some y => Nat.eqb x y | _, _ => false end.

(** std::multimap<String_, Handle_<Storable_>> (bag.hpp:23): the entries in order of the keys, which are compared without
    regard to case; entries whose keys compare equal stay in the order they were inserted *)
Definition multimap := list (str * handle).
(** insert: at the upper bound of the range of equal keys *)
Fixpoint mm_insert (m : multimap) (k : str) (v : handle) : multimap :=
  match m with
  | [] => [(k, v)]
  | (x, w) :: r => match ci_compare k x with Lt => (k, v) :: m | _ => (x, w) :: mm_insert r k v end
  end.
Definition is_key (k : str) (p : str * handle) : bool := match ci_compare (fst p) k with Eq => true | _ => false end.
(** erase(key): all the entries of the key *)
Definition mm_erase (m : multimap) (k : str) : multimap := filter (fun p => negb (is_key k p)) m.
(** equal_range(key), as the entries in the range *)
Definition mm_range (m : multimap) (k : str) : multimap := filter (is_key k) m.

(** audit.hpp:23-28; the constructor (:29) leaves mode_ unset *)
Inductive mode := PASSIVE | READING | READING_EXCLUSIVE | SHOWING.
Record auditor := Auditor { a_mode : option mode; a_bag : multimap }.
(** audit.hpp:29 *)
Definition new_auditor : auditor := Auditor None [].

(** audit.cpp:22-33 AuditorImp_::Notice.  Reading an enum member that was never set is undefined. *)
Definition notice (a : auditor) (key : str) (value : handle) : outcome auditor :=
  match a_mode a with
  | None => UB
  | Some READING_EXCLUSIVE => Ok (Auditor (a_mode a) (mm_insert (mm_erase (a_bag a) key) key value))
  | Some READING => Ok (Auditor (a_mode a) (mm_insert (a_bag a) key value))
  | Some PASSIVE | Some SHOWING => Throw
  end.

(** The auditors that exist, by address, and whether the function-local static SECOND of audit.cpp:36 has been initialised *)
Record world := World { w_auditors : list auditor; w_second : bool }.
(** An entry of the environment: an auditor, or an entry of some other type (dynamic_cast gives null: audit.hpp:47,
    audit.cpp:16).  An auditor that is in the environment is taken to be alive. *)
Inductive entry := EAuditor (i : nat) | EOther.
(** the entries in the order Environment::Iterate visits them (dal/utilities/environment.hpp:44-48; the order is C36) *)
Definition env := list entry.

Fixpoint replace (l : list auditor) (i : nat) (a : auditor) : list auditor :=
  match l, i with [], _ => [] | _ :: r, O => a :: r | x :: r, S j => x :: replace r j a end.

(** audit.cpp:35-43 AuditorImp_::Find.  The first call in the process initialises SECOND from *mine_->contents_.begin(), which
    is undefined when the bag is empty (begin() is end()). *)
Definition find (w : world) (i : nat) (key : str) : outcome (world * list handle) :=
  match nth_error (w_auditors w) i with
  | None => UB
  | Some a =>
      if negb (w_second w) && match a_bag a with [] => true | _ => false end then UB
      else match a_mode a with
           | None => UB
           | Some SHOWING => Ok (World (w_auditors w) true, map snd (mm_range (a_bag a) key))
           | Some _ => Ok (World (w_auditors w) true, [])
           end
  end.

(** audit.cpp:11-19 ShowToAuditor_, :45-48 AuditBase: the world afterwards and whether the call returned.  audit.hpp:37-39
    Audit only casts the handle to the base class, which keeps the address. *)
Fixpoint audit (e : env) (key : str) (value : handle) (w : world) : world * outcome unit :=
  match e with
  | [] => (w, Ok tt)
  | EOther :: r => audit r key value w
  | EAuditor i :: r =>
      match nth_error (w_auditors w) i with
      | None => (w, UB)
      | Some a => match notice a key value with
                  | Ok b => audit r key value (World (replace (w_auditors w) i b) (w_second w))
                  | Throw => (w, Throw)
                  | UB => (w, UB)
                  | OutOfFuel => (w, OutOfFuel)
                  end
      end
  end.

Section Recall.
(** the objects whose dynamic type is T_: handle_cast<T_> (platform.hpp, dynamic_pointer_cast) gives null for the others *)
Variable is_T : nat -> bool.
Definition handle_cast (h : handle) : handle := match h with Some x => if is_T x then Some x else None | None => None end.
Definition is_empty (h : handle) : bool := match h with None => true | Some _ => false end.
(** audit.hpp:49-55: the loop over the handles found; the value so far, and whether the loop threw *)
Fixpoint collect (found : list handle) (value : handle) : handle * outcome unit :=
  match found with
  | [] => (value, Ok tt)
  | h :: r =>
      let temp := handle_cast h in
      if negb (is_empty temp) && negb (same_handle temp value)
      then if is_empty value then collect r temp else (value, Throw)
      else collect r value
  end.
(** audit.hpp:46-57 Recall_::operator(), over the entries of the environment *)
Fixpoint recall_loop (e : env) (key : str) (w : world) (value : handle) : world * handle * outcome unit :=
  match e with
  | [] => (w, value, Ok tt)
  | EOther :: r => recall_loop r key w value
  | EAuditor i :: r =>
      match find w i key with
      | Ok (w', found) => match collect found value with
                          | (value', Ok tt) => recall_loop r key w' value'
                          | (value', o) => (w', value', o)
                          end
      | Throw => (w, value, Throw)
      | UB => (w, value, UB)
      | OutOfFuel => (w, value, OutOfFuel)
      end
  end.
(** audit.hpp:60-64 Recall; the destination is a null pointer or points to a handle *)
Definition recall (e : env) (key : str) (dst : option handle) (w : world) : world * option handle * outcome unit :=
  match dst with
  | None => (w, dst, Throw)
  | Some v => if is_empty v then let '(w', v', o) := recall_loop e key w v in (w', Some v', o) else (w, dst, Throw)
  end.
End Recall.

(** What a program does with auditors.  A program that leaves an exception uncaught ends, which is a shorter history. *)
Inductive event :=
| Make
| SetMode (i : nat) (m : mode)
| Show (e : env) (key : str) (value : handle)
| Ask (is_T : nat -> bool) (e : env) (key : str) (dst : option handle).
(** what the program sees of an event: whether it returned, and for Ask the destination afterwards *)
Inductive seen := Silent | Shown (o : outcome unit) | Asked (dst : option handle) (o : outcome unit).
Definition step (w : world) (x : event) : world * seen :=
  match x with
  | Make => (World (w_auditors w ++ [new_auditor]) (w_second w), Silent)
  | SetMode i m =>
      (World match nth_error (w_auditors w) i with
             | None => w_auditors w
             | Some a => replace (w_auditors w) i (Auditor (Some m) (a_bag a))
             end (w_second w), Silent)
  | Show e key value => let '(w', o) := audit e key value w in (w', Shown o)
  | Ask is_T e key dst => let '(w', d, o) := recall is_T e key dst w in (w', Asked d o)
  end.
Fixpoint run (w : world) (xs : list event) : world * list seen :=
  match xs with [] => (w, []) | x :: r => let '(w', s) := step w x in let '(w'', l) := run w' r in (w'', s :: l) end.
Definition start : world := World [] false.

(** The bag as an archived object: dal/utilities/algorithms.hpp:153-160 Keys, :162-169 MapValues *)
Definition keys (m : multimap) : list str := map fst m.
Definition map_values (m : multimap) : list handle := map snd m.
(** dal/utilities/maps.hpp:19-26 ZipToMultimap *)
Fixpoint zip_loop (ks : list str) (vs : list handle) (m : multimap) : multimap :=
  match ks, vs with k :: ks', v :: vs' => zip_loop ks' vs' (mm_insert m k v) | _, _ => m end.
Definition zip_to_multimap (ks : list str) (vs : list handle) : outcome multimap :=
  if Nat.eqb (length ks) (length vs) then Ok (zip_loop ks vs []) else Throw.
(** bag.cpp:22-24 Write with dal/auto/MG_Bag_Write.inc:4-11: the members written; a null object cannot be written
    (dal/storage/archive.hpp:119-122) *)
Definition bag_write (m : multimap) : outcome (list handle * list str) :=
  if existsb is_empty (map_values m) then Throw else Ok (map_values m, keys m).
(** bag.cpp:17-19 Build, from the members MG_Bag_Read.inc:7-14 reads *)
Definition bag_build (members : list handle * list str) : outcome multimap := zip_to_multimap (snd members) (fst members).
