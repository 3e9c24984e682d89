(** The AAD tape with several results at once: dal/math/aad/node.hpp, tape.hpp, tape.cpp, expr.hpp with Tape_::multi_ set by
    SetNumResultsForAAD (aad.hpp:18-29).  The expressions and programs are those of AadModel. *)
From Coq Require Import List Arith Bool.
From Verif Require Import Base Vec BlockModel AadModel.
Import ListNotations.

Section Multi.
Context {D : Type}.
Variables (zero one : D) (add mul : D -> D -> D).
Variable tiny : D -> bool.       (* fabs(x) <= Dal::EPSILON, node.hpp:41, 49 *)
Variable is_zero : D -> bool.
Variables (beval : bop -> D -> D -> D) (bleft bright : bop -> D -> D -> D -> D).
Variables (ueval : uop -> D -> D -> D) (uder : uop -> D -> D -> D -> D).
Variables (BN BA BD : nat).      (* tape.hpp:21-23 BLOCK_SIZE, ADJ_SIZE, DATA_SIZE *)
(** tape.hpp:26, node.hpp:22: the static multi_ and numAdj_ (aad.hpp:25-29 SetNumResultsForAAD, :18-23 its undoing) *)
Record mode := Mode { multi : bool; num : nat }.
Definition mode_default : mode := Mode false 1.

(** a double*: null, the adjoint_ of a node, or an element of adjointsMulti_ *)
Inductive addr := Null | OneOf (p : place) | ManyOf (p : place).
(** node.hpp:19-34 TapNode_; [q_adj] is pAdjoints_ *)
Record mnode := MNode { q_args : nat; q_single : D; q_adj : option place; q_ders : place; q_ptrs : place }.
Definition blank_mnode : mnode := MNode 0 zero None (0, 0) (0, 0).
(** tape.hpp:25-35 Tape_.  [lost] is not in the code: it records that a node with an adjoint other than zero was passed over. *)
Record mtape := MTape { mnodes : blocks mnode; madj : blocks D; mders : blocks D; mptrs : blocks addr; lost : bool }.
Definition new_mtape : mtape := MTape (init BN blank_mnode) (init BA zero) (init BD zero) (init BD Null) false.

(** std::fill(p, p + n, x), and std::memset with zero *)
Fixpoint fill (x : D) (s : blocks D) (p : place) (i n : nat) : outcome (blocks D) :=
  match n with O => Ok s | S n' => do s1 <- write s (shift p i) x; fill x s1 p (S i) n' end.
(** tape.hpp:38-50 RecordNode *)
Definition mrecord (md : mode) (n : nat) (t : mtape) : outcome (place * mtape) :=
  do (p, ns) <- emplace BN blank_mnode (MNode n zero None (0, 0) (0, 0)) (mnodes t);
  do (a, az) <- (if multi md
                 then do (q, s) <- emplace_multi BA zero (num md) (madj t); do s' <- fill zero s q 0 (num md); Ok (Some q, s')
                 else Ok (None, madj t));
  do ns1 <- write ns p (MNode n zero a (0, 0) (0, 0));
  if n =? 0 then Ok (p, MTape ns1 az (mders t) (mptrs t) (lost t))
  else do (q, ds) <- emplace_multi BD zero n (mders t);
       do (r, ps) <- emplace_multi BD Null n (mptrs t);
       do ns2 <- write ns1 p (MNode n zero a q r);
       Ok (p, MTape ns2 az ds ps (lost t)).
(** expr.hpp:489 the address an argument passes on *)
Definition target (md : mode) (p : place) (t : mtape) : outcome addr :=
  do nd <- read (mnodes t) p;
  Ok (if multi md then match q_adj nd with Some q => ManyOf q | None => Null end else OneOf p).
(** expr.hpp:487-491 Number_::PushAdjoint, for the leaves from number [i] on *)
Fixpoint mpush (md : mode) (q r : place) (i : nat) (l : list (D * place)) (t : mtape) : outcome mtape :=
  match l with
  | [] => Ok t
  | (w, a) :: l' =>
      do x <- target md a t;
      do ps <- write (mptrs t) (shift r i) x; do ds <- write (mders t) (shift q i) w;
      mpush md q r (S i) l' (MTape (mnodes t) (madj t) ds ps (lost t))
  end.
(** expr.hpp:466-470 FromExpr, :503-506; :495 Number_(double), :515 PutOnTape *)
Definition mfrom_expr (md : mode) (e : expr D (number D)) (t : mtape) : outcome (number D * mtape) :=
  let l := weights mul beval bleft bright ueval uder value e one in
  do (p, t1) <- mrecord md (length l) t;
  do nd <- read (mnodes t1) p;
  do t2 <- mpush md (q_ders nd) (q_ptrs nd) 0 (map (fun w => (fst w, at_node (snd w))) l) t1;
  Ok (Number (eval beval ueval value e) p, t2).
Definition mfrom_double (md : mode) (v : D) (t : mtape) : outcome (number D * mtape) := do (p, t1) <- mrecord md 0 t; Ok (Number v p, t1).
Definition mexec1 (md : mode) (inputs : nat -> D) (s : stmt D) (ns : list (number D)) (t : mtape) : outcome (number D * mtape) :=
  match s with
  | Input i => mfrom_double md (inputs i) t
  | Const v => mfrom_double md v t
  | Expr e => do e' <- resolve ns e; mfrom_expr md e' t
  end.
Fixpoint mexec (md : mode) (inputs : nat -> D) (p : list (stmt D)) (ns : list (number D)) (t : mtape) : outcome (list (number D) * mtape) :=
  match p with [] => Ok (ns, t) | s :: p' => do (x, t1) <- mexec1 md inputs s ns t; mexec md inputs p' (ns ++ [x]) t1 end.

(** * Adjoints *)
(** node.hpp:38 Adjoint(n): an element of pAdjoints_.  (A Number_ has no such member: the node is got from the tape.) *)
Definition own_adj (p : place) (t : mtape) : outcome place := do nd <- read (mnodes t) p; match q_adj nd with Some q => Ok q | None => UB end.
Definition get_many (p : place) (j : nat) (t : mtape) : outcome D := do q <- own_adj p t; read (madj t) (shift q j).
Definition set_many (p : place) (j : nat) (x : D) (t : mtape) : outcome mtape :=
  do q <- own_adj p t; do s <- write (madj t) (shift q j) x; Ok (MTape (mnodes t) s (mders t) (mptrs t) (lost t)).
(** node.hpp:36, expr.hpp:520-526 Adjoint() *)
Definition get_single (p : place) (t : mtape) : outcome D := do nd <- read (mnodes t) p; Ok (q_single nd).
Definition set_single (p : place) (x : D) (t : mtape) : outcome mtape :=
  do nd <- read (mnodes t) p;
  do ns <- write (mnodes t) p (MNode (q_args nd) x (q_adj nd) (q_ders nd) (q_ptrs nd)); Ok (MTape ns (madj t) (mders t) (mptrs t) (lost t)).
(** all of the adjoints pAdjoints_[0..n): std::all_of of node.hpp:49 reads them from the first on; reading on past a small one changes nothing *)
Fixpoint read_many (s : blocks D) (q : place) (i n : nat) : outcome (list D) :=
  match n with O => Ok [] | S n' => do x <- read s (shift q i); do xs <- read_many s q (S i) n'; Ok (x :: xs) end.
(** node.hpp:54-56 the inner loop: adjPtr[j] += ders * pAdjoints_[j] *)
Fixpoint add_many (w : D) (own to : place) (j n : nat) (s : blocks D) : outcome (blocks D) :=
  match n with
  | O => Ok s
  | S n' => do y <- read s (shift to j); do x <- read s (shift own j); do s1 <- write s (shift to j) (add y (mul w x)); add_many w own to (S j) n' s1
  end.
(** node.hpp:51-57 the loop over the arguments.  A null pointer may be moved over no elements *)
Fixpoint mpush_down (n_adj : nat) (nd : mnode) (own : place) (i n : nat) (t : mtape) : outcome mtape :=
  match n with
  | O => Ok t
  | S n' =>
      do a <- read (mptrs t) (shift (q_ptrs nd) i); do w <- read (mders t) (shift (q_ders nd) i);
      do s <- (match a with ManyOf to => add_many w own to 0 n_adj (madj t) | _ => if n_adj =? 0 then Ok (madj t) else UB end);
      mpush_down n_adj nd own (S i) n' (MTape (mnodes t) s (mders t) (mptrs t) (lost t))
  end.
(** node.hpp:48-58 PropagateAll *)
Definition propagate_all (md : mode) (p : place) (t : mtape) : outcome mtape :=
  do nd <- read (mnodes t) p;
  if q_args nd =? 0 then Ok t
  else match q_adj nd with
       | None => if num md =? 0 then Ok t else UB
       | Some q =>
           do xs <- read_many (madj t) q 0 (num md);
           if forallb tiny xs then Ok (MTape (mnodes t) (madj t) (mders t) (mptrs t) (lost t || negb (forallb is_zero xs)))
           else mpush_down (num md) nd q 0 (q_args nd) t
       end.
Fixpoint propagate_all_at (md : mode) (l : list place) (t : mtape) : outcome mtape :=
  match l with [] => Ok t | p :: r => do t1 <- propagate_all md p t; propagate_all_at md r t1 end.
(** expr.hpp:559-566 PropagateAdjointsMulti.  The nodes visited do not depend on the adjoints. *)
Definition propagate_multi (md : mode) (from to : place) (t : mtape) : outcome mtape :=
  do l <- walk_down BN (S (slots BN (mnodes t))) (mnodes t) from to; propagate_all_at md l t.
(** node.hpp:40-46 PropagateOne, on any tape: the addresses may be of either kind *)
Definition read_addr (a : addr) (t : mtape) : outcome D :=
  match a with Null => UB | OneOf p => get_single p t | ManyOf q => read (madj t) q end.
Definition write_addr (a : addr) (x : D) (t : mtape) : outcome mtape :=
  match a with Null => UB | OneOf p => set_single p x t
  | ManyOf q => do s <- write (madj t) q x; Ok (MTape (mnodes t) s (mders t) (mptrs t) (lost t)) end.
Fixpoint mpush_one (p : place) (nd : mnode) (i n : nat) (t : mtape) : outcome mtape :=
  match n with
  | O => Ok t
  | S n' =>
      do a <- read (mptrs t) (shift (q_ptrs nd) i); do w <- read (mders t) (shift (q_ders nd) i);
      do x <- get_single p t; do y <- read_addr a t; do t1 <- write_addr a (add y (mul x w)) t;
      mpush_one p nd (S i) n' t1
  end.
Definition mpropagate_one (p : place) (t : mtape) : outcome mtape :=
  do nd <- read (mnodes t) p;
  if q_args nd =? 0 then Ok t
  else if tiny (q_single nd) then Ok (MTape (mnodes t) (madj t) (mders t) (mptrs t) (lost t || negb (is_zero (q_single nd))))
  else mpush_one p nd 0 (q_args nd) t.
Fixpoint mpropagate_at (l : list place) (t : mtape) : outcome mtape :=
  match l with [] => Ok t | p :: r => do t1 <- mpropagate_one p t; mpropagate_at r t1 end.
(** expr.hpp:537-549 PropagateToStart: for one result only *)
Definition mpropagate_to_start (x : number D) (t : mtape) : outcome mtape :=
  do t1 <- set_single (at_node x) one t;
  do it <- find BN (mnodes t1) (at_node x);
  do l <- walk_down BN (S (slots BN (mnodes t1))) (mnodes t1) it begin_; mpropagate_at l t1.

(** blocklist.hpp:85-88 Memset, tape.cpp:12-19 ResetAdjoints with multi_ set *)
Definition reset_many (t : mtape) : mtape :=
  MTape (mnodes t) (Blocks (map (map (fun _ => zero)) (data (madj t))) (curr (madj t)) (next (madj t)) (mark (madj t))) (mders t) (mptrs t) (lost t).

(** * Use: adjoint [j] of the [j]th result is set to one and everything is propagated from the last node to the first *)
Fixpoint seed (ns : list (number D)) (j : nat) (results : list nat) (t : mtape) : outcome mtape :=
  match results with [] => Ok t | r :: l => do x <- get ns r; do t1 <- set_many (at_node x) j one t; seed ns (S j) l t1 end.
Definition sweep (md : mode) (ns : list (number D)) (results : list nat) (t : mtape) : outcome mtape :=
  do t1 <- seed ns 0 results t;
  do x <- get ns (length ns - 1);
  do it <- find BN (mnodes t1) (at_node x);
  propagate_multi md it begin_ t1.
Definition jacobian (md : mode) (inputs : nat -> D) (p : list (stmt D)) (results : list nat) : outcome (list (number D) * mtape) :=
  do (ns, t) <- mexec md inputs p [] new_mtape;
  do t1 <- sweep md ns results t; Ok (ns, t1).
(** the adjoints are reset and other results are taken *)
Fixpoint sweeps (md : mode) (ns : list (number D)) (l : list (list nat)) (t : mtape) : outcome mtape :=
  match l with [] => Ok t | results :: r => do t1 <- sweep md ns results (reset_many t); sweeps md ns r t1 end.
End Multi.
Arguments mnode D : clear implicits.
Arguments mtape D : clear implicits.
