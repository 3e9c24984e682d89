(** What a program must see: the entries in scope, innermost first. *)
From Coq Require Import List Arith.
From Verif Require Import EnvModel.
Import ListNotations.
Fixpoint sees (p : prog) (scope : list entry) : list seen :=
  match p with
  | Find k => [Found (find (fun e => kind e =? k) scope)]
  | Collect k => [All (filter (fun e => kind e =? k) scope)]
  | Seq p q => sees p scope ++ sees q scope
  | Add e p => sees p (e :: scope)
  | Call p => sees p scope
  | Seed e p => sees p [e]
  end.
Fixpoint depth (p : prog) : nat :=
  match p with Find _ | Collect _ => 0 | Seq p q => max (depth p) (depth q) | Add _ p => S (depth p) | Call p => depth p | Seed _ p => S (depth p) end.
