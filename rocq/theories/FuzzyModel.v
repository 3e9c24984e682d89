(** Model of the IF processor (visitor/ifprocessor.hpp) and of the fuzzy evaluator (visitor/fuzzy.hpp). *)
From Coq Require Import ZArith List Bool.
From Verif Require Import Base StringModel ScriptModel.
Import ListNotations.
Open Scope Z_scope.

Section IfProc.
Context {N : Num}.
(** std::set<size_t>: increasing lists without repetition *)
Fixpoint set_insert (x : Z) (l : list Z) : list Z :=
  match l with [] => [x] | y :: r => if x <? y then x :: l else if y <? x then y :: set_insert x r else l end.
(** ifprocessor.hpp:18-29: the stack of sets (StaticStack_, 128 elements), the nesting level, the maximum *)
Record ifstate := IfState { vstack : stack (list Z); level : Z; max_level : Z }.
Definition if_init : ifstate := IfState empty_stack 0 0.
(** ifprocessor.hpp:77-81 (a constant variable on the left is visited as any other node: no effect) *)
Definition if_lhs (v : lhs) (s : ifstate) : outcome ifstate :=
  match v with
  | LVar _ _ i => if level s =? 0 then Ok s
                  else do t <- top 0 (vstack s); do st <- set_top 0 (vstack s) (set_insert i t); Ok (IfState st (level s) (max_level s))
  | LConst _ _ _ => Ok s
  end.
(** ifprocessor.hpp:35-75; statements other than IF, assignment and payment visit their arguments (visitor.hpp:52-59) *)
Fixpoint if_stmt (st : stmt) (s : ifstate) : outcome (ifstate * stmt) :=
  let fix all (l : list stmt) (s : ifstate) : outcome (ifstate * list stmt) :=
    match l with [] => Ok (s, []) | x :: r => do p <- if_stmt x s; do q <- all r (fst p); Ok (fst q, snd p :: snd q) end in
  match st with
  | SAssign v e => do s1 <- (if level s =? 0 then Ok s else if_lhs v s); Ok (s1, SAssign v e)
  | SPays v e => do s1 <- (if level s =? 0 then Ok s else if_lhs v s); Ok (s1, SPays v e)
  | SIf f _ c t e =>
      let lv := level s + 1 in
      let mx := if max_level s <? lv then lv else max_level s in
      do vs <- push 0 [] (vstack s);
      do p <- all t (IfState vs lv mx);
      do q <- match e with None => Ok (fst p, None) | Some l => do q <- all l (fst p); Ok (fst q, Some (snd q)) end;
      do af <- top 0 (vstack (fst q));
      let vs1 := pop (vstack (fst q)) in
      let lv1 := level (fst q) - 1 in
      do vs2 <- (if lv1 =? 0 then Ok vs1 else do t <- top 0 vs1; set_top 0 vs1 (fold_left (fun acc x => set_insert x acc) af t));
      Ok (IfState vs2 lv1 (max_level (fst q)), SIf f af c (snd p) (snd q))
  | SCollect l => do p <- all l s; Ok (fst p, SCollect (snd p))
  end.
Fixpoint if_all (l : list stmt) (s : ifstate) : outcome (ifstate * list stmt) :=
  match l with [] => Ok (s, []) | x :: r => do p <- if_stmt x s; do q <- if_all r (fst p); Ok (fst q, snd p :: snd q) end.
(** event.cpp:109-113 IFProcess: past then future events, one processor; returns the maximum nesting *)
Fixpoint if_events (l : list (list stmt)) (s : ifstate) : outcome (ifstate * list (list stmt)) :=
  match l with [] => Ok (s, []) | x :: r => do p <- if_all x s; do q <- if_events r (fst p); Ok (fst q, snd p :: snd q) end.
End IfProc.

(** What the fuzzy evaluator uses beyond the ordinary operations.  [neg_eps] is [eps < 0]; [surely x] is
    [x > 1.0 - EPSILON] and [never x] is [x < EPSILON] (platform.hpp:55). *)
Class FuzzyNum (N : Num) := {
  n_one : num; n_half : num; n_abs : num -> num; surely : num -> bool; never : num -> bool }.

Section Fuzzy.
Context {N : Num} {F : FuzzyNum N}.
(** fuzzy.hpp:16-24 *)
Definition cspr (x e : num) : num :=
  let h := n_mul n_half e in
  if n_ltb x (n_neg h) then n_zero else if n_ltb h x then n_one else n_div (n_add x h) e.
(** fuzzy.hpp:26-33 *)
Definition cspr2 (x l r : num) : num :=
  if n_ltb x l then n_zero else if n_ltb r x then n_one else n_div (n_sub x l) (n_sub r l).
(** fuzzy.hpp:35-42 *)
Definition bfly (x e : num) : num :=
  let h := n_mul n_half e in
  if n_ltb x (n_neg h) || n_ltb h x then n_zero else n_div (n_sub h (n_abs x)) h.
(** fuzzy.hpp:44-51 *)
Definition bfly2 (x l r : num) : num :=
  if n_ltb x l || n_ltb r x then n_zero else if n_ltb x n_zero then n_sub n_one (n_div x l) else n_sub n_one (n_div x r).
Section Eval.
  Variable consts : list num.
  Variable defEps : num.
  Variable smp : sample.
  (** fuzzy.hpp:195-239: the degree of truth of a comparison *)
  Definition degree_cmp (op : cmp) (z : fuzz) (x : num) : num :=
    let e := if n_ltb (eps z) n_zero then defEps else eps z in
    match op with
    | Equal => if isDiscrete z then bfly2 x (lb z) (rb z) else bfly x e
    | Sup | SupEqual => if isDiscrete z then cspr2 x (lb z) (rb z) else cspr x e
    end.
  (** the evaluator: the members of EvaluatorBase_, the stack of degrees, the two stores of variables per nesting level *)
  Record fstate := FState { base : estate; fz : stack num; store0 : list (list num); store1 : list (list num); lvl : Z }.
  Definition with_base (s : fstate) (b : estate) : fstate := FState b (fz s) (store0 s) (store1 s) (lvl s).
  Definition with_fz (s : fstate) (z : stack num) : fstate := FState (base s) z (store0 s) (store1 s) (lvl s).
  (** fuzzy.hpp:191-261.  Negation: the member is called visitNot (fuzzy.hpp:242), so the evaluator falls back
      on evaluator.hpp:209-213, which negates the top of the stack of truth values. *)
  Fixpoint fvisit_cond (c : cond) (s : fstate) : outcome fstate :=
    match c with
    | CCmp _ op z e =>
        do b1 <- visit_expr false consts smp e (base s); do p <- top_and_pop 0 (dst b1);
        do z1 <- push 0 (degree_cmp op z (fst p)) (fz s);
        Ok (FState (EState (vars b1) (snd p) (bst b1)) z1 (store0 s) (store1 s) (lvl s))
    | CAnd _ a b =>
        do s1 <- fvisit_cond a s; do s2 <- fvisit_cond b s1;
        do p <- top_and_pop 0 (fz s2); do q <- top_and_pop 0 (snd p);
        do z1 <- push 0 (n_mul (fst p) (fst q)) (snd q); Ok (with_fz s2 z1)
    | COr _ a b =>
        do s1 <- fvisit_cond a s; do s2 <- fvisit_cond b s1;
        do p <- top_and_pop 0 (fz s2); do q <- top_and_pop 0 (snd p);
        do z1 <- push 0 (n_sub (n_add (fst p) (fst q)) (n_mul (fst p) (fst q))) (snd q); Ok (with_fz s2 z1)
    | CNot _ a =>
        do s1 <- fvisit_cond a s; do t <- top 0 (bst (base s1)); do b <- set_top 0 (bst (base s1)) (negb t);
        Ok (with_base s1 (with_b (base s1) b))
    | CTrue => do z1 <- push 0 n_one (fz s); Ok (with_fz s z1)
    | CFalse => do z1 <- push 0 n_zero (fz s); Ok (with_fz s z1)
    end.
  (** [store[level][idx] = value], both indices unchecked *)
  Definition put2 (m : list (list num)) (i j : Z) (v : num) : outcome (list (list num)) :=
    do row <- vget m i; do row' <- vput row j v; vput m i row'.
  Definition get2 (m : list (list num)) (i j : Z) : outcome num := do row <- vget m i; vget row j.
  (** fuzzy.hpp:162-164 *)
  Fixpoint save0 (af : list Z) (s : fstate) : outcome fstate :=
    match af with
    | [] => Ok s
    | i :: r => do v <- vget (vars (base s)) i; do m <- put2 (store0 s) (lvl s - 1) i v;
                save0 r (FState (base s) (fz s) m (store1 s) (lvl s))
    end.
  (** fuzzy.hpp:170-174 *)
  Fixpoint swap1 (af : list Z) (s : fstate) : outcome fstate :=
    match af with
    | [] => Ok s
    | i :: r => do v <- vget (vars (base s)) i; do m <- put2 (store1 s) (lvl s - 1) i v;
                do w <- get2 (store0 s) (lvl s - 1) i; do vs <- vput (vars (base s)) i w;
                swap1 r (FState (EState vs (dst (base s)) (bst (base s))) (fz s) (store0 s) m (lvl s))
    end.
  (** fuzzy.hpp:181-183 *)
  Fixpoint blend (dt : num) (af : list Z) (s : fstate) : outcome fstate :=
    match af with
    | [] => Ok s
    | i :: r => do w <- get2 (store1 s) (lvl s - 1) i; do v <- vget (vars (base s)) i;
                do vs <- vput (vars (base s)) i (n_add (n_mul dt w) (n_mul (n_sub n_one dt) v));
                blend dt r (with_base s (EState vs (dst (base s)) (bst (base s))))
    end.
  Definition with_lvl (s : fstate) (l : Z) : fstate := FState (base s) (fz s) (store0 s) (store1 s) l.
  (** fuzzy.hpp:135-188; assignments and payments are those of the base class *)
  Fixpoint fvisit_stmt (st : stmt) (s : fstate) : outcome fstate :=
    let fix all (l : list stmt) (s : fstate) : outcome fstate :=
      match l with [] => Ok s | x :: r => do s1 <- fvisit_stmt x s; all r s1 end in
    match st with
    | SAssign _ _ | SPays _ _ => do b <- visit_stmt false consts smp st (base s); Ok (with_base s b)
    | SIf _ af c t e =>
        do s1 <- fvisit_cond c (with_lvl s (lvl s + 1)); do p <- top_and_pop 0 (fz s1);
        let s2 := with_fz s1 (snd p) in let dt := fst p in
        do s6 <- (if surely dt then all t s2
                  else if never dt then match e with None => Ok s2 | Some l => all l s2 end
                  else do s3 <- save0 af s2; do s4 <- all t s3; do s5 <- swap1 af s4;
                       do s6 <- match e with None => Ok s5 | Some l => all l s5 end; blend dt af s6);
        Ok (with_lvl s6 (lvl s6 - 1))
    | SCollect l => all l s
    end.
  Fixpoint fvisit_all (l : list stmt) (s : fstate) : outcome fstate :=
    match l with [] => Ok s | x :: r => do s1 <- fvisit_stmt x s; fvisit_all r s1 end.
End Eval.
(** event.hpp:118-127 Evaluate with this evaluator: Init() is the base class's (the degrees and the level are not reset) *)
Fixpoint fvisit_events (consts : list num) (defEps : num) (scenario : list sample) (i : nat) (events : list (list stmt)) (s : fstate) : outcome fstate :=
  match events with
  | [] => Ok s
  | evt :: r =>
      match evt with
      | [] => fvisit_events consts defEps scenario (S i) r s
      | _ => match nth_error scenario i with
             | None => UB
             | Some smp => do s1 <- fvisit_all consts defEps smp evt s; fvisit_events consts defEps scenario (S i) r s1
             end
      end
  end.
Definition fuzzy_evaluate (consts : list num) (defEps : num) (init : list num) (scenario : list sample) (events : list (list stmt)) (s : fstate) : outcome fstate :=
  fvisit_events consts defEps scenario 0 events
    (FState (EState init (reset (dst (base s))) (reset (bst (base s)))) (fz s) (store0 s) (store1 s) (lvl s)).
(** fuzzy.hpp:85-91: a new evaluator *)
Definition fuzzy_new (init : list num) (max_nested : nat) : fstate :=
  FState (EState init empty_stack empty_stack) empty_stack (repeat (repeat n_zero (length init)) max_nested) (repeat (repeat n_zero (length init)) max_nested) 0.
End Fuzzy.
