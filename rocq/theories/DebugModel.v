(** Debugger_ (dal/script/visitor/debugger.hpp:14-152) and ScriptProduct_::Debug (dal/script/event.cpp:162-179). *)
From Coq Require Import String Ascii ZArith List Bool Arith.
From Verif Require Import Base Vec StringModel ScriptModel StackModel.
Import ListNotations.
Local Open Scope list_scope.
(** a node as Debug sees it: the text passed as nodeId and the arguments *)
Inductive tree := Node (label : str) (args : list tree).
Definition tab : str := [chr 9].
Definition newline : str := [chr 10].
(** Debug, lines 19-56: loop over arguments 2 to n-1, k of them *)
Fixpoint take_args (prefix : str) (k : nat) (s : stack str) (text : str) : outcome (stack str * str) :=
  match k with O => Ok (s, text) | S k' => do t <- top s; take_args prefix k' (pop 1 s) (text ++ t ++ prefix ++ lit "," ++ newline) end.
Definition combine_args (prefix label : str) (n : nat) (s : stack str) : outcome (stack str * str) :=
  let text := prefix ++ label in
  match n with
  | O => Ok (s, text ++ newline)
  | S m =>
      let text := text ++ lit "(" ++ newline in
      do t <- top s;
      let text := text ++ t ++ (if (0 <? m)%nat then prefix ++ lit "," ++ newline else []) in
      do r <- take_args prefix (m - 1) (pop 1 s) text;
      let (s, text) := r in
      do r <- (if (0 <? m)%nat then do t <- top s; Ok (pop 1 s, text ++ t) else Ok (s, text));
      let (s, text) := r in Ok (s, text ++ prefix ++ lit ")" ++ newline)
  end.
Fixpoint debug (prefix : str) (t : tree) (s : stack str) : outcome (stack str) :=
  match t with
  | Node label args =>
      do s1 <- fold_right (fun a acc => do s' <- acc; debug (prefix ++ tab) a s') (Ok s) args;
      do r <- combine_args prefix label (length args) s1; push (snd r) (fst r)
  end.

Section Nodes.
Context {N : Num}.
(** std::to_string of a double and of an integer; the constVal_ a variable holds while it is not constant (left over from earlier) *)
Variables (num_text : num -> str) (int_text : Z -> str) (held : str -> Z -> num).
Definition fuzz_text (z : fuzz) : str :=
  if isDiscrete z then lit "[DISCRETE,BOUNDS=" ++ num_text (lb z) ++ lit "," ++ num_text (rb z) ++ lit "]"
  else lit "[CONT,EPS=" ++ num_text (eps z) ++ lit "]".
(** lines 64-152: the labels *)
Definition bin_text (op : binop) : str :=
  lit match op with Add => "ADD" | Sub => "SUBTRACT" | Mul => "MULT" | Div => "DIV" | Pow => "POW" | Max => "MAX" | Min => "MIN" end.
Definition un_text (op : unop) : str := lit match op with UPlus => "UPLUS" | UMinus => "UMINUS" | Log => "LOG" | Sqrt => "SQRT" | Exp => "EXP" end.
Definition cmp_text (op : cmp) : str := lit match op with Equal => "EQUALZERO" | Sup => "GTZERO" | SupEqual => "GTEQUALZERO" end.
Definition var_text (a : ann) (name : str) (idx : Z) : str :=
  lit "VAR[" ++ name ++ lit "," ++ int_text idx ++ lit "," ++ num_text (match a with Some v => v | None => held name idx end) ++ lit "]".
Definition const_var_text (name : str) (idx : Z) (v : num) : str := lit "CONST_VAR[" ++ name ++ lit "," ++ int_text idx ++ lit "," ++ num_text v ++ lit "]".
Fixpoint expr_tree (e : expr) : tree :=
  match e with
  | EBin _ op l r extra => Node (bin_text op) (expr_tree l :: expr_tree r :: map expr_tree extra)
  | EUn _ op x => Node (un_text op) [expr_tree x]
  | ESpot _ => Node (lit "SPOT") []
  | EConst v => Node (lit "CONST[" ++ num_text v ++ lit "]") []
  | EVar a name idx => Node (var_text a name idx) []
  | EConstVar name idx v => Node (const_var_text name idx v) []
  end.
Fixpoint cond_tree (c : cond) : tree :=
  match c with
  | CCmp _ op z e => Node (cmp_text op ++ fuzz_text z) [expr_tree e]
  | CAnd _ a b => Node (lit "AND") [cond_tree a; cond_tree b]
  | COr _ a b => Node (lit "OR") [cond_tree a; cond_tree b]
  | CNot _ a => Node (lit "NOT") [cond_tree a]
  | CTrue => Node (lit "TRUE") []
  | CFalse => Node (lit "FALSE") []
  end.
Definition lhs_tree (v : lhs) : tree := match v with LVar a n i => Node (var_text a n i) [] | LConst n i c => Node (const_var_text n i c) [] end.
Fixpoint stmt_tree (s : stmt) : tree :=
  match s with
  | SAssign v e => Node (lit "ASSIGN") [lhs_tree v; expr_tree e]
  | SPays v e => Node (lit "PAYS") [lhs_tree v; expr_tree e]
  | SIf _ _ c thens elses =>
      let first_else := match elses with None => (-1)%Z | Some _ => Z.of_nat (length thens + 1) end in
      Node (lit "IF[FIRSTELSE=" ++ int_text first_else ++ lit "]")
        (cond_tree c :: map stmt_tree thens ++ match elses with None => [] | Some l => map stmt_tree l end)
  | SCollect l => Node (lit "COLLECT") (map stmt_tree l)
  end.
(** ScriptProduct_::Debug, lines 167-178, without the headings: one debugger visits every statement of every event, and what it has on top
    of its stack is printed after each *)
Fixpoint debug_all (l : list stmt) (s : stack str) : outcome (list str) :=
  match l with [] => Ok [] | st :: r => do s' <- debug [] (stmt_tree st) s; do t <- top s'; do rest <- debug_all r s'; Ok (t :: rest) end.
Definition debug_product (chunk : nat) (events : list (list stmt)) : outcome (list str) := debug_all (concat events) (stack_new chunk).
End Nodes.
