(** Model of dal/utilities/environment.{hpp,cpp}.  Entries are (dynamic type, identity); decorations are objects on the
    call stack, pushed by ENV_ADD and destroyed at the end of the block. *)
From Coq Require Import List Arith Bool.
From Verif Require Import Base Vec.
Import ListNotations.

Record entry := Entry { kind : nat; ident : nat }.
(** environment.hpp:77-93 Base_, 95-117 XDecorated_ *)
Inductive object := Base_ (vals : list entry) | Decorated (parent : option nat) (val : entry).
(** the objects alive, by address; the variable _env holds an address or null *)
Definition memory := list object.
(** environment.hpp:79-88 MyIter_ (entries left), 100-107 I1 *)
Inductive iter := MyIter (rest : list entry) | I1 (parent : option nat) (val : entry).

(** environment.hpp:92, 116: XBegin; an address that is no longer alive is undefined behaviour *)
Definition xbegin (m : memory) (a : nat) : outcome iter :=
  do o <- get m a; Ok (match o with Base_ l => MyIter l | Decorated p v => I1 p v end).
(** environment.hpp:34, 85, 104: Valid *)
Definition valid (i : option iter) : bool := match i with None => false | Some (MyIter []) => false | Some _ => true end.
(** environment.hpp:87, 106: operator*; only called on a valid iterator *)
Definition deref (i : iter) : outcome entry := match i with MyIter [] => UB | MyIter (e :: _) => Ok e | I1 _ v => Ok v end.
(** environment.hpp:86, 105: Next, and environment.cpp:9-12: operator++ *)
Definition next (m : memory) (i : iter) : outcome (option iter) :=
  match i with
  | MyIter [] => UB
  | MyIter (_ :: r) => Ok (Some (MyIter r))
  | I1 None _ => Ok None
  | I1 (Some p) _ => do j <- xbegin m p; Ok (Some j)
  end.
(** environment.hpp:44-48: Iterate, as the list of entries passed to the function *)
Fixpoint entries (fuel : nat) (m : memory) (i : option iter) : outcome (list entry) :=
  match i with
  | None => Ok []
  | Some it =>
      if valid i then
        match fuel with
        | O => OutOfFuel
        | S f => do e <- deref it; do j <- next m it; do r <- entries f m j; Ok (e :: r)
        end
      else Ok []
  end.
Definition begin_ (m : memory) (env : option nat) : outcome (option iter) :=
  match env with None => Ok None | Some a => do i <- xbegin m a; Ok (Some i) end.
(** environment.hpp:62-75: Find, with the entry found or null; the loop stops at the first entry of the kind *)
Fixpoint find_ (fuel : nat) (m : memory) (k : nat) (i : option iter) : outcome (option entry) :=
  match i with
  | None => Ok None
  | Some it =>
      if valid i then
        match fuel with
        | O => OutOfFuel
        | S f => do e <- deref it; if kind e =? k then Ok (Some e) else do j <- next m it; find_ f m k j
        end
      else Ok None
  end.

(** Programs that use environments: Environment::Find<T>(_env), Environment::Collect<T>(_env), a block that starts with
    ENV_ADD(e), a call of a function taking _ENV, and a block that starts with ENV_SEED(e) (environment.hpp:121-135). *)
Inductive prog :=
| Find (k : nat) | Collect (k : nat) | Seq (p q : prog) | Add (e : entry) (p : prog) | Call (p : prog) | Seed (e : entry) (p : prog).
Inductive seen := Found (e : option entry) | All (l : list entry).
(** result: memory, the variable _env afterwards, and what was seen; fuel bounds the length of one iteration *)
Fixpoint run (fuel : nat) (p : prog) (m : memory) (env : option nat) : outcome (memory * option nat * list seen) :=
  match p with
  | Find k => do i <- begin_ m env; do r <- find_ fuel m k i; Ok (m, env, [Found r])
  | Collect k => do i <- begin_ m env; do l <- entries fuel m i; Ok (m, env, [All (filter (fun e => kind e =? k) l)])
  | Seq p q => do (m1, env1, s1) <- run fuel p m env; do (m2, env2, s2) <- run fuel q m1 env1; Ok (m2, env2, s1 ++ s2)
  | Add e p =>
      (* XDecorated_: parent_ = theEnv_; theEnv_ = this; destructor: theEnv_ = parent_ (environment.hpp:110-114) *)
      do (m1, _, s) <- run fuel p (m ++ [Decorated env e]) (Some (length m));
      do o <- get m1 (length m);
      Ok (removelast m1, match o with Decorated parent _ => parent | Base_ _ => None end, s)
  | Call p => do (m1, _, s) <- run fuel p m env; Ok (m1, env, s)
  | Seed e p =>
      do (m1, _, s) <- run fuel p (m ++ [Decorated None e]) (Some (length m)); Ok (removelast m1, env, s)
  end.
