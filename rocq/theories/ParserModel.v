(** Model of dal/script/parser.cpp and parser.hpp. *)
From Coq Require Import String Ascii ZArith List Bool.
From Verif Require Import Base StringModel ScriptModel.
Import ListNotations.
Local Open Scope nat_scope.

(** An iterator into the token vector is the list of the tokens from it to the end of the vector; an inner end iterator
    is the number of tokens from it on.  Reading at the end of the vector is undefined. *)
Definition cursor := list str.
Definition at_end (cur : cursor) (stop : nat) : bool := length cur =? stop.
Definition deref (cur : cursor) : outcome str := match cur with t :: _ => Ok t | [] => UB end.
Definition advance (cur : cursor) : outcome cursor := match cur with _ :: r => Ok r | [] => UB end.
(** the first character of a token; the character after the last of a string is the null character *)
Definition first (t : str) : ascii := match t with c :: _ => c | [] => "000"%char end.
Definition is (t : str) (s : string) : bool := ci_eqb t (lit s).
Definition starts (t : str) (c : ascii) : bool := Ascii.eqb (first t) c.

(** parser.cpp:358-364 Tokenize: the matches of a regular expression, that is words of letters, digits, underscores and
    dots, one- and two-character marks; any other character is left out.  Simplified: no letters outside ASCII. *)
Definition word_char (c : ascii) : bool :=
  let n := code c in
  (((48 <=? n) && (n <=? 57)) || ((65 <=? n) && (n <=? 90)) || ((97 <=? n) && (n <=? 122)) || (n =? 95) || (n =? 46))%Z.
Definition in_chars (s : string) (c : ascii) : bool := existsb (Ascii.eqb c) (lit s).
Definition flush (word : str) (l : list str) : list str := match word with [] => l | _ => word :: l end.
Fixpoint tokens_from (word : str) (s : str) : list str :=
  match s with
  | [] => flush word []
  | c :: r =>
      if word_char c then tokens_from (word ++ [c]) r
      else flush word
        (match r with
         | d :: r' => if in_chars "!<>" c && Ascii.eqb d "=" then [c; d] :: tokens_from [] r'
                      else if in_chars "/-,;:()+*^<>=" c then [c] :: tokens_from [] r else tokens_from [] r
         | [] => if in_chars "/-,;:()+*^<>=" c then [[c]] else []
         end)
  end.
Definition tokenize (s : str) : list str := tokens_from [] s.

(** parser.hpp:23-37 FindMatch, after the opening bracket *)
Fixpoint find_match (opens : nat) (cur : cursor) (stop : nat) : outcome cursor :=
  if at_end cur stop then Throw
  else match cur with
       | [] => UB
       | t :: r =>
           let opens := opens + (if starts t "(" then 1 else 0) - (if starts t ")" then 1 else 0) in
           match opens with O => Ok cur | S _ => find_match opens r stop end
       end.

(** parser.cpp:14-17 RESERVED_KEY_WORDS *)
Definition reserved : list string :=
  ["IF"; "END"; "THEN"; "ELSE"; "DCF"; "PAYS"; "AND"; "OR"; "SPOT"; "MAX"; "MIN"; "LOG"; "SQRT"; "EXP"]%string.
Definition is_reserved (t : str) : bool := existsb (is t) reserved.

Section Parser.
Context {N : Num}.
(** strings.cpp:42-47 String::ToDouble (std::stod) *)
Variable to_double : str -> outcome num.
(** parser.cpp:290-291: the day count fraction of the named basis between two dates *)
Variable dcf : str -> str -> str -> outcome num.
(** parser.hpp:16 constVariables_ (a std::map whose order ignores case) *)
Variable consts : list (str * num).
Variable minus_one : num.

(** parser.cpp:131-143 ParseVar; the tree is used as an expression or as the left-hand side of a statement.  A new variable node is
    marked constant with value 0 (node.hpp:99-107) *)
Definition valid_name (t : str) : bool := let n := code (first t) in (((65 <=? n) && (n <=? 122))%Z && negb (is_reserved t)).
Definition const_value (t : str) : option num :=
  match find (fun p => ci_eqb (fst p) t) consts with Some p => Some (snd p) | None => None end.
Definition parse_var (t : str) : outcome expr :=
  if valid_name t then
    Ok (match const_value t with None => EVar (Some n_zero) t (-1) | Some v => EConstVar t (-1) v end)
  else Throw.
Definition parse_lhs (t : str) : outcome lhs :=
  if valid_name t then
    Ok (match const_value t with None => LVar (Some n_zero) t (-1) | Some v => LConst t (-1) v end)
  else Throw.

(** parser.cpp:255-292 ParseDCF *)
Fixpoint upto_comma (cur : cursor) (close : nat) : outcome (str * cursor) :=
  if at_end cur close then Ok ([], cur)
  else match cur with
       | [] => UB
       | t :: r => if starts t "," then Ok ([], cur) else do (s, r') <- upto_comma r close; Ok (t ++ s, r')
       end.
Fixpoint skip_commas (cur : cursor) (close : nat) : outcome cursor :=
  if at_end cur close then Ok cur
  else match cur with [] => UB | t :: r => if starts t "," then skip_commas r close else Ok cur end.
Definition parse_dcf (cur : cursor) (stop : nat) : outcome (num * cursor) :=
  do t <- deref cur;
  if negb (starts t "(") then Throw else
  do cur <- advance cur;
  do close <- find_match 1 cur stop;
  let k := length close in
  if at_end cur k then Throw else
  do (basis, cur) <- upto_comma cur k;
  do cur <- advance cur;
  do cur <- skip_commas cur k;
  if at_end cur k then Throw else
  do (from, cur) <- upto_comma cur k;
  do cur <- advance cur;
  do cur <- skip_commas cur k;
  if at_end cur k then Throw else
  do (to, _) <- upto_comma cur k;
  do cur <- advance close;
  do v <- dcf basis from to;
  Ok (v, cur).

(** the functions: parser.cpp:77-101, 110-116 *)
Inductive func := FSpot | FUn (op : unop) | FBin (op : binop) | FDcf.
Definition func_of (t : str) : option func :=
  if is t "SPOT" then Some FSpot
  else if is t "LOG" then Some (FUn Log)
  else if is t "SQRT" then Some (FUn Sqrt)
  else if is t "EXP" then Some (FUn Exp)
  else if is t "MIN" then Some (FBin Min)
  else if is t "MAX" then Some (FBin Max)
  else if is t "DCF" then Some FDcf
  else None.
Definition apply_func (g : func) (args : list expr) : outcome expr :=
  match g, args with
  | FSpot, [] => Ok (ESpot None)
  | FUn op, [x] => Ok (EUn None op x)
  | FBin op, a :: b :: extra => if length args <=? 1000 then Ok (EBin None op a b extra) else Throw
  | _, _ => Throw
  end.

(** The levels of expressions: L1 is ParseExpr (21-31), L2 ParseExprL2 (33-43), L3 ParseExprL3 (45-54), which differ only
    in their operators, and L4 ParseExprL4 (56-68) *)
Inductive level := L1 | L2 | L3 | L4.
Definition below (l : level) : level := match l with L1 => L2 | L2 => L3 | _ => L4 end.
Definition op_at (l : level) (c : ascii) : option binop :=
  match l with
  | L1 => if Ascii.eqb c "+" then Some Add else if Ascii.eqb c "-" then Some Sub else None
  | L2 => if Ascii.eqb c "*" then Some Mul else if Ascii.eqb c "/" then Some Div else None
  | L3 => if Ascii.eqb c "^" then Some Pow else None
  | L4 => None
  end.
Definition sign_of (c : ascii) : option unop :=
  if Ascii.eqb c "+" then Some UPlus else if Ascii.eqb c "-" then Some UMinus else None.
Definition is_digit (c : ascii) : bool := (Ascii.eqb c "." || ((48 <=? code c) && (code c <=? 57)))%Z.

Fixpoint parse_level (fuel : nat) (l : level) (cur : cursor) (stop : nat) : outcome (expr * cursor) :=
  match fuel with
  | O => OutOfFuel
  | S f =>
      match l with
      | L4 => parse_unary f cur stop
      | _ => do (a, r) <- parse_level f (below l) cur stop; level_loop f l a r stop
      end
  end
(** the while loops of 23-29, 35-41, 47-52 *)
with level_loop (fuel : nat) (l : level) (a : expr) (cur : cursor) (stop : nat) : outcome (expr * cursor) :=
  match fuel with
  | O => OutOfFuel
  | S f =>
      if at_end cur stop then Ok (a, cur) else
      do t <- deref cur;
      match op_at l (first t) with
      | None => Ok (a, cur)
      | Some op =>
          do cur <- advance cur;
          if at_end cur stop then Throw else
          do (b, r) <- parse_level f (below l) cur stop;
          level_loop f l (EBin None op a b []) r stop
      end
  end
(** parser.cpp:56-68 ParseExprL4 *)
with parse_unary (fuel : nat) (cur : cursor) (stop : nat) : outcome (expr * cursor) :=
  match fuel with
  | O => OutOfFuel
  | S f =>
      do sign <- (if at_end cur stop then Ok None else do t <- deref cur; Ok (sign_of (first t)));
      match sign with
      | Some op =>
          do cur <- advance cur;
          if at_end cur stop then Throw else
          do (x, r) <- parse_unary f cur stop; Ok (EUn None op x, r)
      | None => parse_paren f cur stop
      end
  end
(** parser.hpp:40-61 ParseParentheses for expressions *)
with parse_paren (fuel : nat) (cur : cursor) (stop : nat) : outcome (expr * cursor) :=
  match fuel with
  | O => OutOfFuel
  | S f =>
      do t <- deref cur;
      if is t "(" then
        do cur <- advance cur;
        do close <- find_match 1 cur stop;
        do (e, _) <- parse_level f L1 cur (length close);
        do cur <- advance close;
        Ok (e, cur)
      else parse_atom f cur stop
  end
(** parser.cpp:70-122 ParseVarConstFunc, 124-129 ParseConst *)
with parse_atom (fuel : nat) (cur : cursor) (stop : nat) : outcome (expr * cursor) :=
  match fuel with
  | O => OutOfFuel
  | S f =>
      do t <- deref cur;
      do cur <- advance cur;
      if is_digit (first t) then do v <- to_double t; Ok (EConst v, cur) else
      match func_of t with
      | Some FDcf => do (v, r) <- parse_dcf cur stop; Ok (EConst v, r)
      | Some g => do (args, r) <- parse_args f cur stop; do e <- apply_func g args; Ok (e, r)
      | None => do e <- parse_var t; Ok (e, cur)
      end
  end
(** parser.cpp:294-310 ParseFuncArg *)
with parse_args (fuel : nat) (cur : cursor) (stop : nat) : outcome (list expr * cursor) :=
  match fuel with
  | O => OutOfFuel
  | S f =>
      do t <- deref cur;
      if negb (starts t "(") then Throw else
      do cur <- advance cur;
      do close <- find_match 1 cur stop;
      do args <- args_loop f cur (length close) stop;
      do cur <- advance close;
      Ok (args, cur)
  end
with args_loop (fuel : nat) (cur : cursor) (close stop : nat) : outcome (list expr) :=
  match fuel with
  | O => OutOfFuel
  | S f =>
      if at_end cur close then Ok [] else
      do (e, r) <- parse_level f L1 cur stop;
      do t <- deref r;
      do r <- (if starts t "," then advance r else if at_end r close then Ok r else Throw);
      do es <- args_loop f r close stop;
      Ok (e :: es)
  end.

(** parser.cpp:244-253 ParseCondOptionals *)
Fixpoint optionals (e : num) (cur : cursor) (stop : nat) : outcome (num * cursor) :=
  match cur with
  | [] => UB
  | t :: r =>
      if is t ";" || is t ":" then
        if at_end r stop then Throw
        else match r with [] => UB | u :: r' => do e' <- to_double u; optionals e' r' stop end
      else Ok (e, cur)
  end.
(** parser.cpp:312-345 BuildEqual, BuildDifferent, BuildSuperior, BuildSupEqual *)
Definition no_flags : flags := Flags false false.
Definition compare (op : cmp) (a b : expr) (e : num) : cond := CCmp no_flags op (Fuzz false e n_zero n_zero) (EBin None Sub a b []).
(** parser.cpp:227-240: the comparators *)
Definition build (c : str) (a b : expr) (e : num) : outcome cond :=
  if is c "=" then Ok (compare Equal a b e)
  else if is c "!=" then Ok (CNot no_flags (compare Equal a b e))
  else if is c "<" then Ok (compare Sup b a e)
  else if is c ">" then Ok (compare Sup a b e)
  else if is c "<=" then Ok (compare SupEqual b a e)
  else if is c ">=" then Ok (compare SupEqual a b e)
  else Throw.
(** parser.cpp:216-242 ParseCondElem *)
Definition parse_elem (f : nat) (cur : cursor) (stop : nat) : outcome (cond * cursor) :=
  do (a, r) <- parse_level f L1 cur stop;
  if at_end r stop then Throw else
  do c <- deref r;
  do r <- advance r;
  if at_end r stop then Throw else
  do (b, r) <- parse_level f L1 r stop;
  do (e, r) <- optionals minus_one r stop;
  do x <- build c a b e;
  Ok (x, r).
(** parser.cpp:194-203 ParseCond, 205-214 ParseCondL2, parser.hpp:40-61 ParseParentheses for conditions *)
Fixpoint parse_cond (fuel : nat) (cur : cursor) (stop : nat) : outcome (cond * cursor) :=
  match fuel with
  | O => OutOfFuel
  | S f => do (a, r) <- parse_cond2 f cur stop; or_loop f a r stop
  end
with or_loop (fuel : nat) (a : cond) (cur : cursor) (stop : nat) : outcome (cond * cursor) :=
  match fuel with
  | O => OutOfFuel
  | S f =>
      if at_end cur stop then Ok (a, cur) else
      do t <- deref cur;
      if is t "OR" then
        do cur <- advance cur;
        if at_end cur stop then Throw else
        do (b, r) <- parse_cond2 f cur stop; or_loop f (COr no_flags a b) r stop
      else Ok (a, cur)
  end
with parse_cond2 (fuel : nat) (cur : cursor) (stop : nat) : outcome (cond * cursor) :=
  match fuel with
  | O => OutOfFuel
  | S f => do (a, r) <- cond_paren f cur stop; and_loop f a r stop
  end
with and_loop (fuel : nat) (a : cond) (cur : cursor) (stop : nat) : outcome (cond * cursor) :=
  match fuel with
  | O => OutOfFuel
  | S f =>
      if at_end cur stop then Ok (a, cur) else
      do t <- deref cur;
      if is t "AND" then
        do cur <- advance cur;
        if at_end cur stop then Throw else
        do (b, r) <- cond_paren f cur stop; and_loop f (CAnd no_flags a b) r stop
      else Ok (a, cur)
  end
with cond_paren (fuel : nat) (cur : cursor) (stop : nat) : outcome (cond * cursor) :=
  match fuel with
  | O => OutOfFuel
  | S f =>
      do t <- deref cur;
      if is t "(" then
        do cur <- advance cur;
        do close <- find_match 1 cur stop;
        do (c, _) <- parse_cond f cur (length close);
        do cur <- advance close;
        Ok (c, cur)
      else parse_elem f cur stop
  end.

(** parser.cpp:145-178 ParseIf, 180-192 ParseAssign and ParsePays, 347-356 ParseStatement.  The loop on ELSE (159-165) runs
    at most once, because its body stops at END. *)
Fixpoint parse_statement (fuel : nat) (cur : cursor) (stop : nat) : outcome (stmt * cursor) :=
  match fuel with
  | O => OutOfFuel
  | S f =>
      do t <- deref cur;
      if is t "IF" then
        do cur <- advance cur;
        if at_end cur stop then Throw else
        do (c, cur) <- parse_cond f cur stop;
        if at_end cur stop then Throw else
        do t <- deref cur;
        if negb (is t "then") then Throw else
        do cur <- advance cur;
        do (thens, cur) <- block f (fun t => is t "ELSE" || is t "END") cur stop;
        if at_end cur stop then Throw else
        do t <- deref cur;
        do (elses, cur) <-
          (if is t "ELSE" then
             do cur <- advance cur;
             do (l, cur) <- block f (fun t => is t "END") cur stop;
             if at_end cur stop then Throw else Ok (Some l, cur)
           else Ok (None, cur));
        do cur <- advance cur;
        Ok (SIf no_flags [] c thens elses, cur)
      else
        do v <- parse_lhs t;
        do cur <- advance cur;
        if at_end cur stop then Throw else
        do t <- deref cur;
        if is t "=" || is t "PAYS" then
          do cur <- advance cur;
          if at_end cur stop then Throw else
          do (e, cur) <- parse_level f L1 cur stop;
          Ok (if is t "=" then SAssign v e else SPays v e, cur)
        else Throw
  end
(** statements up to the end or to a token that ends the block *)
with block (fuel : nat) (ends : str -> bool) (cur : cursor) (stop : nat) : outcome (list stmt * cursor) :=
  match fuel with
  | O => OutOfFuel
  | S f =>
      if at_end cur stop then Ok ([], cur) else
      do t <- deref cur;
      if ends t then Ok ([], cur) else
      do (s, cur) <- parse_statement f cur stop;
      do (l, cur) <- block f ends cur stop;
      Ok (s :: l, cur)
  end.
Definition enough (toks : list str) : nat := 10 * length toks + 13.
(** parser.cpp:366-373 Parse, on the tokens *)
Definition parse_tokens (toks : list str) : outcome (list stmt) :=
  do (l, _) <- block (enough toks) (fun _ => false) toks 0; Ok l.
Definition parse (event : str) : outcome (list stmt) := parse_tokens (tokenize event).
End Parser.
