(** What a recorded program computes, and what its gradient is. *)
From Coq Require Import List Arith Bool.
From Verif Require Import Base AadModel.
Import ListNotations.

Section Values.
Context {D : Type}.
Variable zero : D.
Variable beval : bop -> D -> D -> D.
Variable ueval : uop -> D -> D -> D.
(** the values of the numbers made, in order, after those in [vs] *)
Definition value_of (inputs : nat -> D) (s : stmt D) (vs : list D) : D :=
  match s with Input i => inputs i | Const v => v | Expr e => eval beval ueval (fun k => nth k vs zero) e end.
Fixpoint values (inputs : nat -> D) (p : list (stmt D)) (vs : list D) : list D :=
  match p with [] => vs | s :: r => values inputs r (vs ++ [value_of inputs s vs]) end.
End Values.

Section Scope.
Context {D : Type}.
(** expressions name numbers already made; [n] is how many there are *)
Fixpoint leaves (e : expr D nat) : list nat :=
  match e with Num k => [k] | Bin _ l r => leaves l ++ leaves r | Un _ a _ => leaves a end.
Definition scoped1 (s : stmt D) (n : nat) : Prop := match s with Expr e => Forall (fun k => k < n) (leaves e) | _ => True end.
Fixpoint scoped (p : list (stmt D)) (n : nat) : Prop := match p with [] => True | s :: r => scoped1 s n /\ scoped r (S n) end.
(** no expression has more than [b] leaves *)
Definition leaves_fit (b : nat) (p : list (stmt D)) : Prop := Forall (fun s => match s with Expr e => length (leaves e) <= b | _ => True end) p.
End Scope.
