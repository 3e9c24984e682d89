(** Stack_ (dal/math/stacks.hpp:10-129) and the Debugger_ visitor built on it (dal/script/visitor/debugger.hpp:14-152). *)
From Coq Require Import ZArith List Bool Arith.
From Verif Require Import Base Vec.
Import ListNotations.

Section Stack.
Context {A : Type}.
(** lines 13-15: an array, its recorded capacity size_ and the stack pointer sp_ (which nothing keeps from going below zero). A cell nothing
    was written to, or that was moved from, is None, and reading it is undefined (for a class type it would be unspecified). The null pointer
    is an array of no cells. *)
Record stack := Stack { data : list (option A); cap : nat; sp : Z }.
(** lines 20-27 *)
Definition stack_new (chunk : nat) : stack := Stack (repeat None chunk) chunk 0.
(** data_[i] read and written *)
Definition cell_at (d : list (option A)) (i : Z) : outcome A :=
  if (i <? 0)%Z then UB else do c <- get d (Z.to_nat i); match c with Some v => Ok v | None => UB end.
Definition cell_put (d : list (option A)) (i : Z) (v : A) : outcome (list (option A)) := if (i <? 0)%Z then UB else put d (Z.to_nat i) (Some v).
(** std::copy / std::move of the first n cells of one array to the start of another *)
Definition copy_cells (n : nat) (from to : list (option A)) : outcome (list (option A)) :=
  if (n <=? length from)%nat && (n <=? length to)%nat then Ok (firstn n from ++ skipn n to) else UB.
(** the copy constructor, lines 36-45 *)
Definition stack_copy (s : stack) : outcome stack :=
  if (0 <? sp s)%Z then do d <- copy_cells (Z.to_nat (sp s)) (data s) (repeat None (cap s)); Ok (Stack d (cap s) (sp s))
  else Ok (Stack (repeat None (cap s)) (cap s) (sp s)).
(** copy assignment to another object, lines 47-63 (assignment to itself returns at once, line 48) *)
Definition stack_assign (to s : stack) : outcome stack :=
  let d0 := if (cap to <? cap s)%nat then repeat None (cap s) else data to in
  if (0 <? sp s)%Z then do d <- copy_cells (Z.to_nat (sp s)) (data s) d0; Ok (Stack d (cap s) (sp s)) else Ok (Stack d0 (cap s) (sp s)).
(** what a move leaves behind (lines 65-85) and Clear (lines 119-124) *)
Definition stack_empty : stack := Stack [] 0 0.
(** Push, lines 95-106: the capacity is doubled when the new top fills the array *)
Definition push (v : A) (s : stack) : outcome stack :=
  do d <- cell_put (data s) (sp s) v;
  if (Z.of_nat (cap s) <=? sp s + 1)%Z then do n <- copy_cells (cap s) d (repeat None (2 * cap s)); Ok (Stack n (2 * cap s) (sp s + 1))
  else Ok (Stack d (cap s) (sp s + 1)).
(** Top, operator[], Pop, Reset, Size, IsEmpty: lines 108-128 *)
Definition top (s : stack) : outcome A := cell_at (data s) (sp s - 1).
Definition at_ (s : stack) (i : nat) : outcome A := cell_at (data s) (sp s - 1 - Z.of_nat i).
Definition pop (n : nat) (s : stack) : stack := Stack (data s) (cap s) (sp s - Z.of_nat n).
Definition reset (s : stack) : stack := Stack (data s) (cap s) 0.
Definition stack_size (s : stack) : Z := sp s.
Definition is_empty (s : stack) : bool := (sp s =? 0)%Z.
(** TopAndPop, line 113: std::move(data_[sp_--]) *)
Definition top_and_pop (s : stack) : outcome (A * stack) := do v <- cell_at (data s) (sp s); Ok (v, Stack (data s) (cap s) (sp s - 1)).

(** Any number of stacks, numbered, and what a program does with them. Construction of an object over an older one stands for the end of
    the older one's life. *)
Inductive op :=
| New (k : nat) (chunk : nat)
| Push (k : nat) (v : A)
| Pop (k : nat) (n : nat)
| Reset (k : nat)
| Clear (k : nat)
| CopyTo (from to : nat)
| AssignTo (from to : nat)
| MoveTo (from to : nat).
Definition stacks := nat -> stack.
Definition set_stack (st : stacks) (k : nat) (s : stack) : stacks := fun i => if (i =? k)%nat then s else st i.
Definition run_op (o : op) (st : stacks) : outcome stacks :=
  match o with
  | New k c => Ok (set_stack st k (stack_new c))
  | Push k v => do s <- push v (st k); Ok (set_stack st k s)
  | Pop k n => Ok (set_stack st k (pop n (st k)))
  | Reset k => Ok (set_stack st k (reset (st k)))
  | Clear k => Ok (set_stack st k stack_empty)
  | CopyTo i k => do s <- stack_copy (st i); Ok (set_stack st k s)
  | AssignTo i k => if (i =? k)%nat then Ok st else do s <- stack_assign (st k) (st i); Ok (set_stack st k s)
  | MoveTo i k => if (i =? k)%nat then Ok st else Ok (set_stack (set_stack st k (st i)) i stack_empty)
  end.
Fixpoint run_ops (os : list op) (st : stacks) : outcome stacks := match os with [] => Ok st | o :: r => do st' <- run_op o st; run_ops r st' end.
End Stack.
Arguments stack : clear implicits.
Arguments op : clear implicits.
Arguments stacks : clear implicits.
