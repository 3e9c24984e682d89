(** Model of dal/utilities/exceptions.hpp and exceptions.cpp: the notes an error message carries.
    Programs are trees of scopes, notes, assignments, throws and handlers; the model runs them with the thread's stack of
    notes as a piece of global state, pushed and popped by constructors and destructors.  Values are their printed texts
    (std::to_string, Date::ToString and so on are not modelled).  One thread: the stack is thread_local. *)
From Coq Require Import String List Arith Bool.
Import ListNotations.
Local Open Scope string_scope.
(** * memory: the variables a note can point to; a cell that is [None] is gone *)
Record memory := Memory { cells : nat -> option string; fresh : nat }.
Definition write (m : memory) (loc : nat) (v : option string) : memory :=
  Memory (fun k => if (k =? loc)%nat then v else cells m k) (fresh m).
Definition allocate (m : memory) (v : string) : nat * memory :=
  (fresh m, Memory (fun k => if (k =? fresh m)%nat then Some v else cells m k) (S (fresh m))).
(** XStackInfo_, exceptions.hpp:27-42: a text, or a name and a pointer to a value *)
Inductive info := Plain (msg : string) | Pointer (name : string) (loc : nat).
(** Message, exceptions.cpp:31-50: reads the value when it is called; [None] is a read of a dead object *)
Definition message (m : memory) (i : info) : option string :=
  match i with
  | Plain s => Some s
  | Pointer name loc => match cells m loc with Some v => Some (name ++ " = " ++ v) | None => None end
  end.
(** the statements; variables are numbered *)
Inductive prog :=
| Done
| Seq (p q : prog)
(** { T x = v; p } *)
| Local (x : nat) (v : string) (p : prog)
| Assign (x : nat) (v : string)
(** { NOTE(msg); p } exceptions.hpp:112-114 *)
| Note (msg : string) (p : prog)
(** { NOTICE2(name, x); p } exceptions.hpp:107-109 *)
| Notice (name : string) (x : nat) (p : prog)
(** { NOTICE2(name, an expression); p }: the reference is bound to a temporary that dies at the end of the declaration *)
| NoticeTemp (name : string) (v : string) (p : prog)
(** THROW(msg), exceptions.hpp:67 *)
| Fail (file : string) (line : string) (func : string) (msg : string)
(** try { p } catch (const Exception_& e) { log << e.what(); q } *)
| Try (p q : prog).
Inductive result := Normal | Thrown (what : string) | Undefined.
(** INSTANCE, exceptions.cpp:65: a pointer to the vector, null at first *)
Record state := State { instance : option (list info); mem : memory; log : list string }.
Definition with_instance (s : state) (i : option (list info)) : state := State i (mem s) (log s).
Definition with_mem (s : state) (m : memory) : state := State (instance s) m (log s).
(** XTheStack, exceptions.cpp:64-73 *)
Definition the_stack (free_if_empty : bool) (i : option (list info)) : option (list info) :=
  match i with
  | None => Some []
  | Some l => if free_if_empty && match l with [] => true | _ => false end then None else Some l
  end.
(** TheStack, exceptions.cpp:75, as a value *)
Definition stack_of (i : option (list info)) : list info := match i with Some l => l | None => [] end.
(** PushStack, exceptions.cpp:79 *)
Definition push_stack (n : info) (s : state) : state := with_instance s (Some (stack_of (the_stack false (instance s)) ++ [n])%list).
(** PopStack, exceptions.cpp:81-90 *)
Definition pop_stack (s : state) : state :=
  let l := stack_of (the_stack false (instance s)) in
  with_instance s (the_stack true (Some (removelast l))).
(** format, exceptions.cpp:107-115 (gcc version) *)
Definition newline : string := String (Ascii.ascii_of_nat 10) "".
Definition format (file line func msg : string) : string :=
  newline ++ file ++ ":" ++ line ++ ": " ++ (if String.eqb func "(unknown)" then "" else "In function `" ++ func ++ "': " ++ newline) ++ msg.
(** MsgWithStack, exceptions.cpp:118-123; it may allocate the stack *)
Fixpoint add_notes (m : memory) (acc : string) (l : list info) : option string :=
  match l with
  | [] => Some acc
  | i :: r => match message m i with Some t => add_notes m (acc ++ newline ++ t) r | None => None end
  end.
Definition msg_with_stack (file line func msg : string) (s : state) : option string * state :=
  let i := the_stack false (instance s) in (add_notes (mem s) (format file line func msg) (stack_of i), with_instance s i).
Definition bind_var (env : nat -> option nat) (x loc : nat) : nat -> option nat := fun k => if (k =? x)%nat then Some loc else env k.
(** Running a program: StackRegister_ (exceptions.hpp:47-52) pushes where it is declared and pops when its scope is left,
    whether normally or by an exception; the exception is built, and its text fixed, before anything is popped. *)
Fixpoint run (p : prog) (env : nat -> option nat) (s : state) : result * state :=
  match p with
  | Done => (Normal, s)
  | Seq p q => match run p env s with (Normal, s') => run q env s' | other => other end
  | Local x v p =>
      let '(loc, m) := allocate (mem s) v in
      let '(r, s') := run p (bind_var env x loc) (with_mem s m) in (r, with_mem s' (write (mem s') loc None))
  | Assign x v => match env x with Some loc => (Normal, with_mem s (write (mem s) loc (Some v))) | None => (Undefined, s) end
  | Note t p => let '(r, s') := run p env (push_stack (Plain t) s) in (r, pop_stack s')
  | Notice name x p =>
      match env x with
      | Some loc => let '(r, s') := run p env (push_stack (Pointer name loc) s) in (r, pop_stack s')
      | None => (Undefined, s)
      end
  | NoticeTemp name v p =>
      let '(loc, m) := allocate (mem s) v in
      let s1 := push_stack (Pointer name loc) (with_mem s m) in
      let '(r, s') := run p env (with_mem s1 (write m loc None)) in (r, pop_stack s')
  | Fail file line func msg =>
      match msg_with_stack file line func msg s with
      | (Some t, s') => (Thrown t, s')
      | (None, s') => (Undefined, s')
      end
  | Try p q => match run p env s with
      | (Thrown t, s') => run q env (State (instance s') (mem s') (log s' ++ [t])%list)
      | other => other
      end
  end.
Definition start : state := State None (Memory (fun _ => None) 0) [].
Definition no_vars : nat -> option nat := fun _ => None.
