(** Model of the script tree (dal/script/node.hpp), of the visitors that index variables, find constants, compile and
    evaluate it, and of the evaluator of compiled streams. *)
From Coq Require Import String Ascii ZArith List Bool.
From Verif Require Import Base StringModel.
Import ListNotations.
Open Scope Z_scope.

(** The numbers scripts compute with ([double] or the differentiation type; the code is a template over them). No law is
    assumed here: each theorem states the laws it needs.  [ge0_const] is the test the compiler uses for constants,
    compiler.hpp:240 [x > -EPSILON]. *)
Class Num := {
  num : Type;
  n_zero : num; n_thirty : num;
  n_add : num -> num -> num; n_sub : num -> num -> num; n_mul : num -> num -> num; n_div : num -> num -> num;
  n_pow : num -> num -> num; n_neg : num -> num; n_log : num -> num; n_sqrt : num -> num; n_exp : num -> num;
  n_ltb : num -> num -> bool;
  eq0 : num -> bool; gt0 : num -> bool; ge0 : num -> bool; ge0_const : num -> bool }.

Inductive binop := Add | Sub | Mul | Div | Pow | Max | Min.
Inductive unop := UPlus | UMinus | Log | Sqrt | Exp.
Inductive cmp := Equal | Sup | SupEqual.

Section Script.
Context {N : Num}.

(** node.hpp:17-20 ExprNode_: [Some v] is isConst_ = true with constVal_ = v, [None] is isConst_ = false *)
Definition ann := option num.
(** node.hpp:35-50, 80-88, 98-117.  MIN and MAX accept more than two arguments: the rest is kept in [extra].  An index of -1 means not
    yet indexed. *)
Inductive expr :=
| EBin (a : ann) (op : binop) (l r : expr) (extra : list expr)
| EUn (a : ann) (op : unop) (x : expr)
| ESpot (a : ann)
| EConst (v : num)
| EVar (a : ann) (name : str) (idx : Z)
| EConstVar (name : str) (idx : Z) (v : num).
(** node.hpp:26-29 BoolNode_ *)
Record flags := Flags { alwaysTrue : bool; alwaysFalse : bool }.
(** node.hpp:54-61 CompNode_ *)
Record fuzz := Fuzz { isDiscrete : bool; eps : num; lb : num; rb : num }.
Inductive cond :=
| CCmp (f : flags) (op : cmp) (z : fuzz) (e : expr)
| CAnd (f : flags) (a b : cond)
| COr (f : flags) (a b : cond)
| CNot (f : flags) (a : cond)
| CTrue
| CFalse.
(** the left-hand side of an assignment or payment is what ParseVar builds: a variable or a constant variable *)
Inductive lhs := LVar (a : ann) (name : str) (idx : Z) | LConst (name : str) (idx : Z) (v : num).
(** node.hpp:121-136: [elses = None] is firstElse_ = -1, [Some l] is firstElse_ = number of true statements + 1 *)
Inductive stmt :=
| SAssign (v : lhs) (e : expr)
| SPays (v : lhs) (e : expr)
| SIf (f : flags) (affected : list Z) (c : cond) (thens : list stmt) (elses : option (list stmt))
| SCollect (l : list stmt).

Definition ann_of (e : expr) : ann :=
  match e with
  | EBin a _ _ _ _ | EUn a _ _ | ESpot a | EVar a _ _ => a
  | EConst v | EConstVar _ _ v => Some v
  end.

(** * Operations: evaluator.hpp:107-191 and constprocessor.hpp:60-120 (the same C++ operations on both sides;
    std::max(x, y) is x < y ? y : x and std::min(x, y) is y < x ? y : x, as in the evaluator) *)
Definition bin (op : binop) (x y : num) : num :=
  match op with
  | Add => n_add x y | Sub => n_sub x y | Mul => n_mul x y | Div => n_div x y | Pow => n_pow x y
  | Max => if n_ltb x y then y else x
  | Min => if n_ltb y x then y else x
  end.
Definition un (op : unop) (x : num) : num :=
  match op with UPlus => x | UMinus => n_neg x | Log => n_log x | Sqrt => n_sqrt x | Exp => n_exp x end.
Definition test (op : cmp) (x : num) : bool := match op with Equal => eq0 x | Sup => gt0 x | SupEqual => ge0 x end.

(** * math/stacks.hpp:131-160 StaticStack_<T, 128>: [sp] starts at -1, nothing is checked.  Reading or writing an index
    outside [lo, 128) is undefined ([lo] is 0 for the real stack), and so is reading an element never written. *)
Record stack (A : Type) := Stack { sp : Z; data : Z -> option A }.
Arguments Stack {A}. Arguments sp {A}. Arguments data {A}.
Definition stack_size : Z := 128.
Definition empty_stack {A} : stack A := Stack (-1) (fun _ => None).
Definition reset {A} (s : stack A) : stack A := Stack (-1) (data s).
Definition in_stack (lo i : Z) : bool := (lo <=? i) && (i <? stack_size).
Definition sget {A} (lo : Z) (s : stack A) (i : Z) : outcome A :=
  if in_stack lo i then match data s i with Some v => Ok v | None => UB end else UB.
Definition sput {A} (lo : Z) (s : stack A) (i : Z) (v : A) : outcome (stack A) :=
  if in_stack lo i then Ok (Stack (sp s) (fun j => if j =? i then Some v else data s j)) else UB.
Definition push {A} (lo : Z) (v : A) (s : stack A) : outcome (stack A) := sput lo (Stack (sp s + 1) (data s)) (sp s + 1) v.
Definition pop {A} (s : stack A) : stack A := Stack (sp s - 1) (data s).
Definition top {A} (lo : Z) (s : stack A) : outcome A := sget lo s (sp s).
Definition second {A} (lo : Z) (s : stack A) : outcome A := sget lo s (sp s - 1).
Definition set_top {A} (lo : Z) (s : stack A) (v : A) : outcome (stack A) := sput lo s (sp s) v.
Definition set_second {A} (lo : Z) (s : stack A) (v : A) : outcome (stack A) := sput lo s (sp s - 1) v.
Definition top_and_pop {A} (lo : Z) (s : stack A) : outcome (A * stack A) := do v <- top lo s; Ok (v, pop s).

(** vectors: reading or writing out of range is undefined *)
Definition vget {A} (l : list A) (i : Z) : outcome A :=
  if i <? 0 then UB else match nth_error l (Z.to_nat i) with Some v => Ok v | None => UB end.
Fixpoint upd_nat {A} (l : list A) (n : nat) (v : A) : list A :=
  match l, n with [], _ => [] | _ :: r, O => v :: r | x :: r, S k => x :: upd_nat r k v end.
Definition vput {A} (l : list A) (i : Z) (v : A) : outcome (list A) :=
  if (0 <=? i) && (i <? Z.of_nat (length l)) then Ok (upd_nat l (Z.to_nat i) v) else UB.

(** * Evaluator_ (evaluator.hpp) and PastEvaluator_ (pastevaluator.hpp) *)
Record sample := Sample { spot : num; numeraire : num }.
Record estate := EState { vars : list num; dst : stack num; bst : stack bool }.
Definition with_d (s : estate) (d : stack num) : estate := EState (vars s) d (bst s).
Definition with_b (s : estate) (b : stack bool) : estate := EState (vars s) (dst s) b.
Section Eval.
  Variable past : bool. (** PastEvaluator_: SPOT is 30 and PAYS only evaluates its right-hand side *)
  Variable consts : list num. (** constVariables_ *)
  Variable smp : sample. (** the sample of the current event *)

  (** evaluator.hpp:107-173, 258-275; pastevaluator.hpp:29-32 *)
  Fixpoint visit_expr (e : expr) (s : estate) : outcome estate :=
    match e with
    | EBin _ op l r _ =>
        do s1 <- visit_expr l s; do s2 <- visit_expr r s1;
        do x <- second 0 (dst s2); do y <- top 0 (dst s2);
        do d <- set_second 0 (dst s2) (bin op x y); Ok (with_d s2 (pop d))
    | EUn _ op x =>
        do s1 <- visit_expr x s; do v <- top 0 (dst s1); do d <- set_top 0 (dst s1) (un op v); Ok (with_d s1 d)
    | ESpot _ => do d <- push 0 (if past then n_thirty else spot smp) (dst s); Ok (with_d s d)
    | EConst v => do d <- push 0 v (dst s); Ok (with_d s d)
    | EVar _ _ i => do v <- vget (vars s) i; do d <- push 0 v (dst s); Ok (with_d s d)
    | EConstVar _ i _ => do v <- vget consts i; do d <- push 0 v (dst s); Ok (with_d s d)
    end.
  (** evaluator.hpp:176-213, 271-272 *)
  Fixpoint visit_cond (c : cond) (s : estate) : outcome estate :=
    match c with
    | CCmp _ op _ e =>
        do s1 <- visit_expr e s; do p <- top_and_pop 0 (dst s1); do b <- push 0 (test op (fst p)) (bst s1);
        Ok (EState (vars s1) (snd p) b)
    | CAnd _ a b => do s1 <- visit_cond a s; do t <- top 0 (bst s1);
        if (t : bool) then visit_cond b (with_b s1 (pop (bst s1))) else Ok s1
    | COr _ a b => do s1 <- visit_cond a s; do t <- top 0 (bst s1);
        if negb t then visit_cond b (with_b s1 (pop (bst s1))) else Ok s1
    | CNot _ a => do s1 <- visit_cond a s; do t <- top 0 (bst s1); do b <- set_top 0 (bst s1) (negb t); Ok (with_b s1 b)
    | CTrue => do b <- push 0 true (bst s); Ok (with_b s b)
    | CFalse => do b <- push 0 false (bst s); Ok (with_b s b)
    end.
  (** evaluator.hpp:216-255; the Downcast of a constant variable to a variable node is undefined.  A collection visits
      its statements in order (visitor.hpp:52-59). *)
  Fixpoint visit_stmt (st : stmt) (s : estate) : outcome estate :=
    let fix all (l : list stmt) (s : estate) : outcome estate :=
      match l with [] => Ok s | x :: r => do s1 <- visit_stmt x s; all r s1 end in
    match st with
    | SAssign (LVar _ _ i) e =>
        do s1 <- visit_expr e s; do p <- top_and_pop 0 (dst s1);
        do v <- vput (vars s1) i (fst p); Ok (EState v (snd p) (bst s1))
    | SPays (LVar _ _ i) e =>
        do s1 <- visit_expr e s;
        if past then Ok s1
        else do p <- top_and_pop 0 (dst s1); do old <- vget (vars s1) i;
             do v <- vput (vars s1) i (n_add old (n_div (fst p) (numeraire smp))); Ok (EState v (snd p) (bst s1))
    | SPays (LConst _ _ _) e => if past then visit_expr e s else UB
    | SAssign (LConst _ _ _) _ => UB
    | SIf _ _ c t e =>
        do s1 <- visit_cond c s; do p <- top_and_pop 0 (bst s1);
        let s2 := with_b s1 (snd p) in
        if (fst p : bool) then all t s2 else match e with None => Ok s2 | Some l => all l s2 end
    | SCollect l => all l s
    end.
  Fixpoint visit_all (l : list stmt) (s : estate) : outcome estate :=
    match l with [] => Ok s | x :: r => do s1 <- visit_stmt x s; visit_all r s1 end.
End Eval.
(** event.hpp:118-127 Evaluate: Init() restores the variables and resets the stacks (evaluator.hpp:84-91) *)
Fixpoint visit_events (consts : list num) (scenario : list sample) (i : nat) (events : list (list stmt)) (s : estate) : outcome estate :=
  match events with
  | [] => Ok s
  | evt :: r =>
      match evt with
      | [] => visit_events consts scenario (S i) r s
      | _ => match nth_error scenario i with
             | None => UB
             | Some smp => do s1 <- visit_all false consts smp evt s; visit_events consts scenario (S i) r s1
             end
      end
  end.
Definition evaluate (consts : list num) (init : list num) (scenario : list sample) (events : list (list stmt)) (s : estate) : outcome estate :=
  visit_events consts scenario 0 events (EState init (reset (dst s)) (reset (bst s))).
(** event.cpp:103-107 PastEvaluate: zeros, past events in order on one evaluator *)
Fixpoint visit_past (consts : list num) (events : list (list stmt)) (s : estate) : outcome estate :=
  match events with
  | [] => Ok s
  | evt :: r => do s1 <- visit_all true consts (Sample n_zero n_zero) evt s; visit_past consts r s1
  end.
Definition past_evaluate (consts : list num) (nvars : nat) (events : list (list stmt)) : outcome (list num) :=
  do s <- visit_past consts events (EState (repeat n_zero nvars) empty_stack empty_stack); Ok (vars s).

(** * VarIndexer_ (varindexer.hpp): the maps from names to indices, as the lists of names in index order (a new name
    gets the current size) *)
Record index_maps := Maps { v_names : list str; c_names : list (str * num) }.
Fixpoint find_name (l : list str) (n : str) : option nat :=
  match l with [] => None | x :: r => if ci_eqb x n then Some O else option_map S (find_name r n) end.
(** varindexer.hpp:51-59 *)
Definition index_var (m : index_maps) (n : str) : index_maps * Z :=
  match find_name (v_names m) n with
  | Some i => (m, Z.of_nat i)
  | None => (Maps (v_names m ++ [n]) (c_names m), Z.of_nat (length (v_names m)))
  end.
(** varindexer.hpp:62-70 *)
Definition index_const (m : index_maps) (n : str) (v : num) : index_maps * Z :=
  match find_name (map fst (c_names m)) n with
  | Some i => (m, Z.of_nat i)
  | None => (Maps (v_names m) (c_names m ++ [(n, v)]), Z.of_nat (length (c_names m)))
  end.
Fixpoint index_expr (e : expr) (m : index_maps) : index_maps * expr :=
  match e with
  | EBin a op l r x =>
      let '(m1, l') := index_expr l m in let '(m2, r') := index_expr r m1 in
      let '(m3, x') := (fix go (x : list expr) (m : index_maps) : index_maps * list expr :=
                          match x with [] => (m, []) | y :: ys => let '(m', y') := index_expr y m in
                                                                  let '(m'', ys') := go ys m' in (m'', y' :: ys') end) x m2 in
      (m3, EBin a op l' r' x')
  | EUn a op x => let '(m1, x') := index_expr x m in (m1, EUn a op x')
  | ESpot a => (m, ESpot a)
  | EConst v => (m, EConst v)
  | EVar a n _ => let '(m1, i) := index_var m n in (m1, EVar a n i)
  | EConstVar n _ v => let '(m1, i) := index_const m n v in (m1, EConstVar n i v)
  end.
Fixpoint index_cond (c : cond) (m : index_maps) : index_maps * cond :=
  match c with
  | CCmp f op z e => let '(m1, e') := index_expr e m in (m1, CCmp f op z e')
  | CAnd f a b => let '(m1, a') := index_cond a m in let '(m2, b') := index_cond b m1 in (m2, CAnd f a' b')
  | COr f a b => let '(m1, a') := index_cond a m in let '(m2, b') := index_cond b m1 in (m2, COr f a' b')
  | CNot f a => let '(m1, a') := index_cond a m in (m1, CNot f a')
  | CTrue => (m, CTrue)
  | CFalse => (m, CFalse)
  end.
Definition index_lhs (v : lhs) (m : index_maps) : index_maps * lhs :=
  match v with
  | LVar a n _ => let '(m1, i) := index_var m n in (m1, LVar a n i)
  | LConst n _ x => let '(m1, i) := index_const m n x in (m1, LConst n i x)
  end.
Fixpoint index_stmt (s : stmt) (m : index_maps) : index_maps * stmt :=
  let fix all (l : list stmt) (m : index_maps) : index_maps * list stmt :=
    match l with [] => (m, []) | x :: r => let '(m1, x') := index_stmt x m in let '(m2, r') := all r m1 in (m2, x' :: r') end in
  match s with
  | SAssign v e => let '(m1, v') := index_lhs v m in let '(m2, e') := index_expr e m1 in (m2, SAssign v' e')
  | SPays v e => let '(m1, v') := index_lhs v m in let '(m2, e') := index_expr e m1 in (m2, SPays v' e')
  | SIf f af c t e =>
      let '(m1, c') := index_cond c m in let '(m2, t') := all t m1 in
      match e with
      | None => (m2, SIf f af c' t' None)
      | Some l => let '(m3, l') := all l m2 in (m3, SIf f af c' t' (Some l'))
      end
  | SCollect l => let '(m1, l') := all l m in (m1, SCollect l')
  end.
Fixpoint index_all (l : list stmt) (m : index_maps) : index_maps * list stmt :=
  match l with [] => (m, []) | x :: r => let '(m1, x') := index_stmt x m in let '(m2, r') := index_all r m1 in (m2, x' :: r') end.
Fixpoint index_events (l : list (list stmt)) (m : index_maps) : index_maps * list (list stmt) :=
  match l with [] => (m, []) | x :: r => let '(m1, x') := index_all x m in let '(m2, r') := index_events r m1 in (m2, x' :: r') end.
(** event.cpp:87-101: the payoff variable is the one named [payoff], or the last one *)
Definition payoff_index (names : list str) (payoff : str) : Z :=
  match find_name names payoff with Some i => Z.of_nat i | None => Z.of_nat (length names) - 1 end.

(** * ConstProcessor_ (constprocessor.hpp): per variable, [Some v] when it is known to hold the constant v *)
Definition known := list ann.
Definition kget (k : known) (i : Z) : outcome ann := vget k i.
(** constprocessor.hpp:60-120, 169-175: a node already marked constant stays so when its arguments are not *)
Fixpoint const_expr (k : known) (e : expr) : outcome expr :=
  match e with
  | EBin a op l r x =>
      do l' <- const_expr k l; do r' <- const_expr k r;
      do x' <- (fix go (x : list expr) : outcome (list expr) :=
                  match x with [] => Ok [] | y :: ys => do y' <- const_expr k y; do ys' <- go ys; Ok (y' :: ys') end) x;
      let all_const := forallb (fun y => match ann_of y with Some _ => true | None => false end) x' in
      Ok (EBin (match ann_of l', ann_of r' with
                | Some u, Some v => if all_const then Some (bin op u v) else a
                | _, _ => a end) op l' r' x')
  | EUn a op x => do x' <- const_expr k x; Ok (EUn (match ann_of x' with Some u => Some (un op u) | None => a end) op x')
  | ESpot a => Ok (ESpot a)
  | EConst v => Ok (EConst v)
  | EVar _ n i => do a <- kget k i; Ok (EVar a n i)
  | EConstVar n i v => Ok (EConstVar n i v)
  end.
Fixpoint const_cond (k : known) (c : cond) : outcome cond :=
  match c with
  | CCmp f op z e => do e' <- const_expr k e; Ok (CCmp f op z e')
  | CAnd f a b => do a' <- const_cond k a; do b' <- const_cond k b; Ok (CAnd f a' b')
  | COr f a b => do a' <- const_cond k a; do b' <- const_cond k b; Ok (COr f a' b')
  | CNot f a => do a' <- const_cond k a; Ok (CNot f a')
  | CTrue => Ok CTrue
  | CFalse => Ok CFalse
  end.
(** constprocessor.hpp:123-166; [inc] is isInConditional_ *)
Fixpoint const_stmt (inc : bool) (s : stmt) (k : known) : outcome (known * stmt) :=
  let fix all (inc : bool) (l : list stmt) (k : known) : outcome (known * list stmt) :=
    match l with
    | [] => Ok (k, [])
    | x :: r => do p <- const_stmt inc x k; do q <- all inc r (fst p); Ok (fst q, snd p :: snd q)
    end in
  match s with
  | SAssign (LVar a n i) e =>
      do e' <- const_expr k e; do k' <- vput k i (if inc then None else ann_of e'); Ok (k', SAssign (LVar a n i) e')
  | SPays (LVar a n i) e => do k' <- vput k i None; do e' <- const_expr k' e; Ok (k', SPays (LVar a n i) e')
  | SAssign (LConst _ _ _) _ | SPays (LConst _ _ _) _ => UB
  | SIf f af c t e =>
      do c' <- const_cond k c; do p <- all true t k;
      match e with
      | None => Ok (fst p, SIf f af c' (snd p) None)
      | Some l => do q <- all true l (fst p); Ok (fst q, SIf f af c' (snd p) (Some (snd q)))
      end
  | SCollect l => do p <- all inc l k; Ok (fst p, SCollect (snd p))
  end.
Fixpoint const_all (inc : bool) (l : list stmt) (k : known) : outcome (known * list stmt) :=
  match l with
  | [] => Ok (k, [])
  | x :: r => do p <- const_stmt inc x k; do q <- const_all inc r (fst p); Ok (fst q, snd p :: snd q)
  end.
Fixpoint const_events (l : list (list stmt)) (k : known) : outcome (known * list (list stmt)) :=
  match l with
  | [] => Ok (k, [])
  | x :: r => do p <- const_all false x k; do q <- const_events r (fst p); Ok (fst q, snd p :: snd q)
  end.
(** constprocessor.hpp:54-55 *)
Definition known_init (nvars : nat) : known := repeat (Some n_zero) nvars.

(** * Compiler_ (compiler.hpp:146-352): the node stream and the constant stream *)
Definition streams : Type := list Z * list num.
Definition emit (c : Z) (s : streams) : streams := (fst s ++ [c], snd s).
(** nodeStream_.emplace_back(code), then the index of the constant, then the constant *)
Definition emit_const (code : Z) (v : num) (s : streams) : streams := (fst s ++ [code; Z.of_nat (length (snd s))], snd s ++ [v]).
Definition op_bin (op : binop) : Z := match op with Add => 0 | Sub => 2 | Mul => 5 | Div => 7 | Pow => 10 | Max => 13 | Min => 15 end.
Definition op_const_left (op : binop) : Z := match op with Add => 1 | Sub => 4 | Mul => 6 | Div => 9 | Pow => 12 | Max => 14 | Min => 16 end.
Definition op_const_right (op : binop) : Z := match op with Add => 1 | Sub => 3 | Mul => 6 | Div => 8 | Pow => 11 | Max => 14 | Min => 16 end.
Definition op_un (op : unop) : Z := match op with UPlus => -1 | UMinus => 36 | Log => 33 | Sqrt => 32 | Exp => 34 end.
Definition op_cmp (op : cmp) : Z := match op with Equal => 26 | Sup => 27 | SupEqual => 28 end.
Definition const_test (op : cmp) (x : num) : bool := match op with Equal => eq0 x | Sup => gt0 x | SupEqual => ge0_const x end.
Fixpoint comp_expr (e : expr) (s : streams) : streams :=
  match e with
  | EBin (Some v) _ _ _ _ => emit_const 19 v s
  | EBin None op l r _ =>
      match ann_of l, ann_of r with
      | Some v, _ => emit_const (op_const_left op) v (comp_expr r s)
      | None, Some v => emit_const (op_const_right op) v (comp_expr l s)
      | None, None => emit (op_bin op) (comp_expr r (comp_expr l s))
      end
  | EUn _ UPlus x => comp_expr x s
  | EUn (Some v) _ _ => emit_const 19 v s
  | EUn None op x => emit (op_un op) (comp_expr x s)
  | ESpot _ => emit 17 s
  | EConst v => emit_const 19 v s
  | EVar _ _ i => emit i (emit 18 s)
  | EConstVar _ _ v => emit_const 39 v s
  end.
Fixpoint comp_cond (c : cond) (s : streams) : streams :=
  match c with
  | CCmp _ op _ e =>
      match ann_of e with
      | Some v => emit (if const_test op v then 37 else 38) s
      | None => emit (op_cmp op) (comp_expr e s)
      end
  | CAnd _ a b => emit 29 (comp_cond b (comp_cond a s))
  | COr _ a b => emit 30 (comp_cond b (comp_cond a s))
  | CNot _ a => emit 35 (comp_cond a s)
  | CTrue => emit 37 s
  | CFalse => emit 38 s
  end.
(** the index read from the node on the left of an assignment (a constant variable node is misread: see [visit_stmt]) *)
Definition lhs_index (v : lhs) : Z := match v with LVar _ _ i => i | LConst _ i _ => i end.
Definition patch (pos : nat) (v : Z) (s : streams) : streams := (upd_nat (fst s) pos v, snd s).
Fixpoint comp_stmt (st : stmt) (s : streams) : streams :=
  let fix all (l : list stmt) (s : streams) : streams := match l with [] => s | x :: r => all r (comp_stmt x s) end in
  match st with
  | SAssign v e =>
      emit (lhs_index v) match ann_of e with Some c => emit_const 21 c s | None => emit 20 (comp_expr e s) end
  | SPays v e =>
      emit (lhs_index v) match ann_of e with Some c => emit_const 23 c s | None => emit 22 (comp_expr e s) end
  | SIf _ _ c t None =>
      let s1 := comp_cond c s in
      let s2 := all t (emit 0 (emit 24 s1)) in
      patch (length (fst s1) + 1) (Z.of_nat (length (fst s2))) s2
  | SIf _ _ c t (Some l) =>
      let s1 := comp_cond c s in
      let s2 := all t (emit 0 (emit 0 (emit 25 s1))) in
      let s3 := all l (patch (length (fst s1) + 1) (Z.of_nat (length (fst s2))) s2) in
      patch (length (fst s1) + 2) (Z.of_nat (length (fst s3))) s3
  | SCollect l => all l s
  end.
Fixpoint comp_all (l : list stmt) (s : streams) : streams := match l with [] => s | x :: r => comp_all r (comp_stmt x s) end.

(** * EvalCompiled (compiler.hpp:355-598).  [lo] is the lowest index that may be touched in the two stacks; the code's
    stacks have lo = 0.  The stacks are thread-local statics, reset at every entry, the nested one of IfElse included. *)
Section Machine.
  Variable lo : Z.
  Variable nodes : list Z.
  Variable cs : list num.
  Variable smp : sample.
  Definition const_at (i : Z) : outcome num := do j <- vget nodes i; vget cs j.
  (** one arithmetic instruction with two stack operands: compiler.hpp, cases Add, Sub, Multi, Div, Pow, Max2, Min2.
      Max2 pops first and compares with the new top: the same elements are read and written. *)
  Definition m_bin (op : binop) (s : estate) : outcome estate :=
    do x <- second lo (dst s); do y <- top lo (dst s); do d <- set_second lo (dst s) (bin op x y); Ok (with_d s (pop d)).
  Definition m_un (f : num -> num) (s : estate) : outcome estate :=
    do x <- top lo (dst s); do d <- set_top lo (dst s) (f x); Ok (with_d s d).
  Definition m_push (v : num) (s : estate) : outcome estate := do d <- push lo v (dst s); Ok (with_d s d).
  Definition m_bool (v : bool) (s : estate) : outcome estate := do b <- push lo v (bst s); Ok (with_b s b).
  Definition m_test (op : cmp) (s : estate) : outcome estate :=
    do p <- top_and_pop lo (dst s); do b <- push lo (test op (fst p)) (bst s); Ok (EState (vars s) (snd p) b).
  (** the max/min with a constant compare the constant with the top: y > top, y < top *)
  Definition m_max_const (y x : num) : num := if n_ltb x y then y else x.
  Definition m_min_const (y x : num) : num := if n_ltb y x then y else x.
  (** All the cases except the jumps: the new state and the number of stream entries consumed. [None]: not one of them. *)
  Definition m_step (code : Z) (i : Z) (s : estate) : option (outcome (estate * Z)) :=
    let plain (o : outcome estate) := Some (do s' <- o; Ok (s', i + 1)) in
    let arg (f : num -> outcome estate) := Some (do c <- const_at (i + 1); do s' <- f c; Ok (s', i + 2)) in
    if code =? 0 then plain (m_bin Add s) else
    if code =? 1 then arg (fun c => m_un (fun x => n_add x c) s) else
    if code =? 2 then plain (m_bin Sub s) else
    if code =? 3 then arg (fun c => m_un (fun x => n_sub x c) s) else
    if code =? 4 then arg (fun c => m_un (fun x => n_sub c x) s) else
    if code =? 5 then plain (m_bin Mul s) else
    if code =? 6 then arg (fun c => m_un (fun x => n_mul x c) s) else
    if code =? 7 then plain (m_bin Div s) else
    if code =? 8 then arg (fun c => m_un (fun x => n_div x c) s) else
    if code =? 9 then arg (fun c => m_un (fun x => n_div c x) s) else
    if code =? 10 then plain (m_bin Pow s) else
    if code =? 11 then arg (fun c => m_un (fun x => n_pow x c) s) else
    if code =? 12 then arg (fun c => m_un (fun x => n_pow c x) s) else
    if code =? 13 then plain (m_bin Max s) else
    if code =? 14 then arg (fun c => m_un (m_max_const c) s) else
    if code =? 15 then plain (m_bin Min s) else
    if code =? 16 then arg (fun c => m_un (m_min_const c) s) else
    if code =? 17 then plain (m_push (spot smp) s) else
    if code =? 18 then Some (do j <- vget nodes (i + 1); do v <- vget (vars s) j; do s' <- m_push v s; Ok (s', i + 2)) else
    if (code =? 19) || (code =? 39) then arg (fun c => m_push c s) else
    if code =? 20 then Some (do j <- vget nodes (i + 1); do p <- top_and_pop lo (dst s); do v <- vput (vars s) j (fst p);
                             Ok (EState v (snd p) (bst s), i + 2)) else
    if code =? 21 then Some (do c <- const_at (i + 1); do j <- vget nodes (i + 2); do v <- vput (vars s) j c;
                             Ok (EState v (dst s) (bst s), i + 3)) else
    if code =? 22 then Some (do j <- vget nodes (i + 1); do p <- top_and_pop lo (dst s); do old <- vget (vars s) j;
                             do v <- vput (vars s) j (n_add old (n_div (fst p) (numeraire smp)));
                             Ok (EState v (snd p) (bst s), i + 2)) else
    if code =? 23 then Some (do c <- const_at (i + 1); do j <- vget nodes (i + 2); do old <- vget (vars s) j;
                             do v <- vput (vars s) j (n_add old (n_div c (numeraire smp)));
                             Ok (EState v (dst s) (bst s), i + 3)) else
    if code =? 26 then plain (m_test Equal s) else
    if code =? 27 then plain (m_test Sup s) else
    if code =? 28 then plain (m_test SupEqual s) else
    if code =? 29 then plain (do x <- second lo (bst s); do b <- (if (x : bool) then do y <- top lo (bst s); set_second lo (bst s) y else Ok (bst s));
                              Ok (with_b s (pop b))) else
    if code =? 30 then plain (do x <- second lo (bst s); do b <- (if negb x then do y <- top lo (bst s); set_second lo (bst s) y else Ok (bst s));
                              Ok (with_b s (pop b))) else
    if code =? 32 then plain (m_un n_sqrt s) else
    if code =? 33 then plain (m_un n_log s) else
    if code =? 34 then plain (m_un n_exp s) else
    if code =? 35 then plain (do x <- top lo (bst s); do b <- set_top lo (bst s) (negb x); Ok (with_b s b)) else
    if code =? 36 then plain (m_un n_neg s) else
    if code =? 37 then plain (m_bool true s) else
    if code =? 38 then plain (m_bool false s) else
    None.
  (** the loop; each instruction uses one unit of fuel.  Case Smooth (31) is never emitted and not modelled; an unknown
      code makes the loop spin. *)
  Fixpoint run (fuel : nat) (i n : Z) (s : estate) : outcome estate :=
    match fuel with
    | O => OutOfFuel
    | S f =>
        if n <=? i then Ok s else
        do code <- vget nodes i;
        match m_step code i s with
        | Some o => do p <- o; run f (snd p) n (fst p)
        | None =>
            if code =? 24 then
              do t <- top lo (bst s);
              if (t : bool) then run f (i + 2) n (with_b s (pop (bst s)))
              else do j <- vget nodes (i + 1); run f j n (with_b s (pop (bst s)))
            else if code =? 25 then
              do t <- top lo (bst s);
              if (t : bool) then
                do last <- vget nodes (i + 1); do j <- vget nodes (i + 2);
                do s' <- run f (i + 3) (if last =? 0 then Z.of_nat (length nodes) else last)
                              (EState (vars s) (reset (dst s)) (reset (bst s)));
                run f j n (with_b s' (pop (bst s')))
              else do j <- vget nodes (i + 1); run f j n (with_b s (pop (bst s)))
            else run f i n s
        end
    end.
  Definition eval_compiled (fuel : nat) (s : estate) : outcome estate :=
    run fuel 0 (Z.of_nat (length nodes)) (EState (vars s) (reset (dst s)) (reset (bst s))).
End Machine.
(** event.hpp:129-141 EvaluateCompiled *)
Fixpoint run_events (lo : Z) (fuel : nat) (scenario : list sample) (i : nat) (events : list (list stmt)) (s : estate) : outcome estate :=
  match events with
  | [] => Ok s
  | evt :: r =>
      let '(nodes, cs) := comp_all evt ([], []) in
      match nth_error scenario i with
      | None => UB
      | Some smp => do s1 <- eval_compiled lo nodes cs smp fuel s; run_events lo fuel scenario (S i) r s1
      end
  end.
Definition evaluate_compiled (lo : Z) (fuel : nat) (init : list num) (scenario : list sample) (events : list (list stmt)) (s : estate) : outcome estate :=
  run_events lo fuel scenario 0 events (EState init (dst s) (bst s)).
End Script.
Arguments Stack {A}. Arguments sp {A}. Arguments data {A}.
