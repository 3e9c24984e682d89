(** Model of the AAD tape and numbers: dal/math/aad/node.hpp, tape.hpp, tape.cpp, expr.hpp (single-result mode, multi_ = false). *)
From Coq Require Import List Arith Bool.
From Verif Require Import Base Vec BlockModel.
Import ListNotations.

(** expr.hpp:43-97 the two-argument operations *)
Inductive bop := OPMult | OPAdd | OPSub | OPDiv | OPPow | OPMax | OPMin.
(** expr.hpp:164-266 the one-argument operations, the second operand being a plain double *)
Inductive uop := OPExp | OPLog | OPSqrt | OPFabs | OPNormalDens | OPNormalCdf | OPErfc | OPMultD | OPAddD | OPSubDL | OPSubDR
  | OPDivDL | OPDivDR | OPPowDL | OPPowDR | OPMaxD | OPMinD.

Section Tape.
Context {D : Type}.
Variables (zero one : D) (add mul : D -> D -> D).
Variable tiny : D -> bool.       (* fabs(x) <= Dal::EPSILON, node.hpp:41 *)
Variable is_zero : D -> bool.
Variables (beval : bop -> D -> D -> D) (bleft bright : bop -> D -> D -> D -> D).   (* Eval, LeftDerivative, RightDerivative *)
Variables (ueval : uop -> D -> D -> D) (uder : uop -> D -> D -> D -> D).          (* Eval(r, d), Derivative(r, v, d) *)
Variables (BN BD : nat).         (* tape.hpp:21-23 BLOCK_SIZE, DATA_SIZE *)

(** node.hpp:19-34 TapNode_.  A node's address stands for the address of its adjoint_ *)
Record node := Node { n_args : nat; adjoint : D; p_ders : place; p_args : place }.
Definition blank_node : node := Node 0 zero (0, 0) (0, 0).
(** tape.hpp:25-35 Tape_.  [dropped] is not in the code: it records that some adjoint other than zero was not passed on. *)
Record tape := Tape { nodes : blocks node; ders : blocks D; args : blocks place; dropped : bool }.
Definition new_tape : tape := Tape (init BN blank_node) (init BD zero) (init BD (0, 0)) false.

(** tape.hpp:38-50 RecordNode *)
Definition record (n : nat) (t : tape) : outcome (place * tape) :=
  do (p, ns) <- emplace BN blank_node (Node n zero (0, 0) (0, 0)) (nodes t);
  if n =? 0 then Ok (p, Tape ns (ders t) (args t) (dropped t))
  else do (q, ds) <- emplace_multi BD zero n (ders t);
       do (r, az) <- emplace_multi BD (0, 0) n (args t);
       do ns' <- write ns p (Node n zero q r);
       Ok (p, Tape ns' ds az (dropped t)).
(** the [i]th element from an address *)
Definition shift (p : place) (i : nat) : place := (fst p, snd p + i).
(** expr.hpp:487-491 Number_::PushAdjoint, for the leaves from number [i] on *)
Fixpoint push (q r : place) (i : nat) (l : list (D * place)) (t : tape) : outcome tape :=
  match l with
  | [] => Ok t
  | (w, a) :: l' =>
      do az <- write (args t) (shift r i) a; do ds <- write (ders t) (shift q i) w;
      push q r (S i) l' (Tape (nodes t) ds az (dropped t))
  end.

(** * Expressions (expr.hpp:18-41, 141-162).  A leaf is a Number_: its value and the address of its node *)
Record number := Number { value : D; at_node : place }.
Inductive expr (L : Type) := Num (x : L) | Bin (o : bop) (l r : expr L) | Un (o : uop) (a : expr L) (d : D).
Arguments Num {L}. Arguments Bin {L}. Arguments Un {L}.
Section Leaves.
Context {L : Type}.
Variable val : L -> D.
Fixpoint eval (e : expr L) : D :=
  match e with Num x => val x | Bin o l r => beval o (eval l) (eval r) | Un o a d => ueval o (eval a) d end.
(** PushAdjoint (expr.hpp:33-40, 157-161): the weights of the leaves, in order *)
Fixpoint weights (e : expr L) (adj : D) : list (D * L) :=
  match e with
  | Num x => [(adj, x)]
  | Bin o l r => weights l (mul adj (bleft o (eval l) (eval r) (eval e))) ++ weights r (mul adj (bright o (eval l) (eval r) (eval e)))
  | Un o a d => weights a (mul adj (uder o (eval a) (eval e) d))
  end.
End Leaves.
(** expr.hpp:466-470 FromExpr, :503-506 the constructor from an expression *)
Definition from_expr (e : expr number) (t : tape) : outcome (number * tape) :=
  let l := weights value e one in
  do (p, t1) <- record (length l) t;
  do nd <- read (nodes t1) p;
  do t2 <- push (p_ders nd) (p_args nd) 0 (map (fun w => (fst w, at_node (snd w))) l) t1;
  Ok (Number (eval value e) p, t2).
(** expr.hpp:495 Number_(double), :515 PutOnTape *)
Definition from_double (v : D) (t : tape) : outcome (number * tape) := do (p, t1) <- record 0 t; Ok (Number v p, t1).

(** * Programs.  Each statement makes one number; the leaves of an expression name earlier ones by rank.  Copying a
    Number_ shares its node, so any run of a program is such a list. *)
Inductive stmt := Input (i : nat) | Const (v : D) | Expr (e : expr nat).
(** the expression over the numbers themselves *)
Fixpoint resolve (ns : list number) (e : expr nat) : outcome (expr number) :=
  match e with
  | Num k => do x <- get ns k; Ok (Num x)
  | Bin o l r => do l' <- resolve ns l; do r' <- resolve ns r; Ok (Bin o l' r')
  | Un o a d => do a' <- resolve ns a; Ok (Un o a' d)
  end.
Definition exec1 (inputs : nat -> D) (s : stmt) (ns : list number) (t : tape) : outcome (number * tape) :=
  match s with
  | Input i => from_double (inputs i) t
  | Const v => from_double v t
  | Expr e => do e' <- resolve ns e; from_expr e' t
  end.
Fixpoint exec (inputs : nat -> D) (p : list stmt) (ns : list number) (t : tape) : outcome (list number * tape) :=
  match p with [] => Ok (ns, t) | s :: p' => do (x, t1) <- exec1 inputs s ns t; exec inputs p' (ns ++ [x]) t1 end.

(** * Adjoints *)
Definition set_adjoint (p : place) (x : D) (t : tape) : outcome tape :=
  do nd <- read (nodes t) p;
  do ns <- write (nodes t) p (Node (n_args nd) x (p_ders nd) (p_args nd)); Ok (Tape ns (ders t) (args t) (dropped t)).
Definition get_adjoint (p : place) (t : tape) : outcome D := do nd <- read (nodes t) p; Ok (adjoint nd).
(** node.hpp:40-46 PropagateOne: the loop over the arguments.  The node's own adjoint is read at each turn *)
Fixpoint push_down (p : place) (nd : node) (i n : nat) (t : tape) : outcome tape :=
  match n with
  | O => Ok t
  | S n' =>
      do a <- read (args t) (shift (p_args nd) i); do w <- read (ders t) (shift (p_ders nd) i);
      do x <- get_adjoint p t; do y <- get_adjoint a t;
      do t1 <- set_adjoint a (add y (mul x w)) t;
      push_down p nd (S i) n' t1
  end.
Definition propagate_one (p : place) (t : tape) : outcome tape :=
  do nd <- read (nodes t) p;
  if n_args nd =? 0 then Ok t
  else if tiny (adjoint nd) then Ok (Tape (nodes t) (ders t) (args t) (dropped t || negb (is_zero (adjoint nd))))
  else push_down p nd 0 (n_args nd) t.
Fixpoint propagate_at (l : list place) (t : tape) : outcome tape :=
  match l with [] => Ok t | p :: r => do t1 <- propagate_one p t; propagate_at r t1 end.
(** expr.hpp:528-535 PropagateAdjoints(from, to).  The nodes visited do not depend on the adjoints. *)
Definition propagate (from to : place) (t : tape) : outcome tape :=
  do l <- walk_down BN (S (slots BN (nodes t))) (nodes t) from to; propagate_at l t.
(** expr.hpp:537-545 PropagateAdjoints(to) *)
Definition propagate_from (x : number) (to : place) (t : tape) : outcome tape :=
  do t1 <- set_adjoint (at_node x) one t;
  do it <- find BN (nodes t1) (at_node x);
  propagate it to t1.
(** blocklist.hpp:302-304 Mark() *)
Definition mark_it (t : tape) : outcome place := match mark (nodes t) with Some p => Ok p | None => UB end.
(** expr.hpp:547-557 *)
Definition propagate_to_start (x : number) (t : tape) : outcome tape := propagate_from x begin_ t.
Definition propagate_to_mark (x : number) (t : tape) : outcome tape := do m <- mark_it t; propagate_from x m t.
Definition propagate_mark_to_start (t : tape) : outcome tape :=
  do m <- mark_it t; do p <- step_down BN (nodes t) m; propagate p begin_ t.

(** tape.cpp:28-34, 44-50 Mark, RewindToMark *)
Definition mark_tape (t : tape) : tape :=
  Tape (set_mark BN blank_node (nodes t)) (set_mark BD zero (ders t)) (set_mark BD (0, 0) (args t)) (dropped t).
Definition rewind_tape (t : tape) : outcome tape :=
  do ds <- rewind_to_mark (ders t); do az <- rewind_to_mark (args t); do ns <- rewind_to_mark (nodes t);
  Ok (Tape ns ds az (dropped t)).

(** * Use: a result differentiated back to the start of the tape *)
Definition gradient (inputs : nat -> D) (p : list stmt) (result : nat) : outcome (list number * tape) :=
  do (ns, t) <- exec inputs p [] new_tape;
  do x <- get ns result;
  do t1 <- propagate_to_start x t; Ok (ns, t1).
(** script/simulation.hpp:38-53, 189-225: parameters and initialisation, a mark, then paths evaluated and differentiated back to the
    mark one after the other, and at the end from the mark to the start *)
Fixpoint paths (inputs : nat -> D) (ns : list number) (l : list (list stmt * nat)) (t : tape) : outcome tape :=
  match l with
  | [] => Ok t
  | (p, result) :: r =>
      do t1 <- rewind_tape t;
      do (ns', t2) <- exec inputs p ns t1;
      do x <- get ns' result;
      do t3 <- propagate_to_mark x t2;
      paths inputs ns r t3
  end.
Definition path_gradient (inputs : nat -> D) (pre : list stmt) (l : list (list stmt * nat)) : outcome (list number * tape) :=
  do (ns, t) <- exec inputs pre [] new_tape;
  do t1 <- paths inputs ns l (mark_tape t);
  do t2 <- propagate_mark_to_start t1; Ok (ns, t2).
End Tape.
Arguments Num {D L}. Arguments Bin {D L}. Arguments Un {D L}.
Arguments expr D L : clear implicits.
Arguments stmt D : clear implicits.
Arguments number D : clear implicits.
Arguments tape D : clear implicits.
Arguments node D : clear implicits.
