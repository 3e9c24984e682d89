(** What error messages should say, with no stack: each statement is read together with the notes of the scopes around it. *)
From Coq Require Import String List Arith Bool.
From Verif Require Import NoteModel.
Import ListNotations.
Local Open Scope string_scope.
(** an enclosing note: a text, or a name and the variable's cell *)
Definition line_of (m : memory) (i : info) : string :=
  match i with Plain t => t | Pointer name loc => name ++ " = " ++ match cells m loc with Some v => v | None => "" end end.
(** the head of the message, then a line for each enclosing note, the outermost first, with the value the variable has now *)
Definition full_message (m : memory) (around : list info) (head : string) : string :=
  head ++ String.concat "" (map (fun i => newline ++ line_of m i) around).
(** result, memory and log of a program in the middle of the notes [around] *)
Fixpoint meaning (p : prog) (around : list info) (env : nat -> option nat) (m : memory) (lg : list string) : result * memory * list string :=
  match p with
  | Done => (Normal, m, lg)
  | Seq p q => match meaning p around env m lg with (Normal, m', lg') => meaning q around env m' lg' | other => other end
  | Local x v p => let '(loc, m1) := allocate m v in let '(r, m2, lg') := meaning p around (bind_var env x loc) m1 lg in (r, write m2 loc None, lg')
  | Assign x v => match env x with Some loc => (Normal, write m loc (Some v), lg) | None => (Undefined, m, lg) end
  | Note t p => meaning p (around ++ [Plain t])%list env m lg
  | Notice name x p => match env x with Some loc => meaning p (around ++ [Pointer name loc])%list env m lg | None => (Undefined, m, lg) end
  | NoticeTemp name v p => (Undefined, m, lg)
  | Fail file line func msg => (Thrown (full_message m around (format file line func msg)), m, lg)
  | Try p q => match meaning p around env m lg with (Thrown t, m', lg') => meaning q around env m' (lg' ++ [t])%list | other => other end
  end.
(** every variable used is declared, and no note is about a temporary *)
Fixpoint closed (p : prog) (vars : list nat) : Prop :=
  match p with
  | Done | Fail _ _ _ _ => True
  | Seq p q | Try p q => closed p vars /\ closed q vars
  | Local x _ p => closed p (x :: vars)
  | Assign x _ => In x vars
  | Note _ p => closed p vars
  | Notice _ x p => In x vars /\ closed p vars
  | NoticeTemp _ _ _ => False
  end.
