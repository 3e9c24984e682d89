(** The script language, as a grammar: which token sequences denote which trees.  Independent of the parser. *)
From Coq Require Import String Ascii ZArith List Bool.
From Verif Require Import Base StringModel StringSpec ScriptModel.
Import ListNotations.

(** words: names start with a letter or an underscore, numbers with a digit or a dot *)
Definition letters : str := lit "ABCDEFGHIJKLMNOPQRSTUVWXYZabcdefghijklmnopqrstuvwxyz_".
Definition digits : str := lit "0123456789.".
Definition keywords : list string :=
  ["IF"; "THEN"; "ELSE"; "END"; "PAYS"; "AND"; "OR"; "SPOT"; "LOG"; "SQRT"; "EXP"; "MIN"; "MAX"; "DCF"]%string.
Definition keyword (t : str) (k : string) : Prop := same_up_to_case t (lit k).
Definition name_token (t : str) : Prop :=
  (exists c r, t = c :: r /\ In c letters) /\ forall k, In k keywords -> ~ keyword t k.
Definition number_token (t : str) : Prop := exists c r, t = c :: r /\ In c digits.
(** a token inside the arguments of DCF: no bracket, no comma *)
Definition plain_token (t : str) : Prop := exists c r, t = c :: r /\ ~ In c (lit "(),").

(** binary operators by strength; all group to the left *)
Inductive strength := Sum | Product | Power | Tight.
Inductive operator : strength -> string -> binop -> Prop :=
| op_add : operator Sum "+" Add | op_sub : operator Sum "-" Sub
| op_mul : operator Product "*" Mul | op_div : operator Product "/" Div
| op_pow : operator Power "^" Pow.
Definition stronger (s : strength) : strength := match s with Sum => Product | Product => Power | _ => Tight end.
Inductive unary_operator : string -> unop -> Prop := un_plus : unary_operator "+" UPlus | un_minus : unary_operator "-" UMinus.
Inductive function1 : string -> unop -> Prop := fn_log : function1 "LOG" Log | fn_sqrt : function1 "SQRT" Sqrt | fn_exp : function1 "EXP" Exp.
Inductive function2 : string -> binop -> Prop := fn_min : function2 "MIN" Min | fn_max : function2 "MAX" Max.

Section Grammar.
Context {N : Num}.
(** the value of a number token, the day count fraction of a basis and two dates, the value of a named constant *)
Variable number : str -> outcome num.
Variable dcf : str -> str -> str -> outcome num.
Variable constant : str -> option num.
Variable no_width : num.

Definition variable_tree (t : str) : expr :=
  match constant t with None => EVar (Some n_zero) t (-1) | Some v => EConstVar t (-1) v end.
Definition target_tree (t : str) : lhs :=
  match constant t with None => LVar (Some n_zero) t (-1) | Some v => LConst t (-1) v end.

Inductive expression : strength -> list str -> expr -> Prop :=
| ex_stronger s l e : s <> Tight -> expression (stronger s) l e -> expression s l e
| ex_binary s l1 a k op l2 b : operator s k op -> expression s l1 a -> expression (stronger s) l2 b ->
    expression s (l1 ++ lit k :: l2) (EBin None op a b [])
| ex_unary k op l e : unary_operator k op -> expression Tight l e -> expression Tight (lit k :: l) (EUn None op e)
| ex_brackets l e : expression Sum l e -> expression Tight (lit "(" :: l ++ [lit ")"]) e
| ex_number t v : number_token t -> number t = Ok v -> expression Tight [t] (EConst v)
| ex_variable t : name_token t -> expression Tight [t] (variable_tree t)
| ex_spot t : keyword t "SPOT" -> expression Tight [t; lit "("; lit ")"] (ESpot None)
| ex_function1 t k op l e : function1 k op -> keyword t k -> expression Sum l e ->
    expression Tight (t :: lit "(" :: l ++ [lit ")"]) (EUn None op e)
| ex_function2 t k op l a b more : function2 k op -> keyword t k -> arguments l (a :: b :: more) -> (length more <= 998)%nat ->
    expression Tight (t :: lit "(" :: l ++ [lit ")"]) (EBin None op a b more)
| ex_dcf t b s e v : keyword t "DCF" -> b <> [] -> s <> [] -> e <> [] ->
    Forall plain_token b -> Forall plain_token s -> Forall plain_token e -> dcf (concat b) (concat s) (concat e) = Ok v ->
    expression Tight (t :: lit "(" :: b ++ lit "," :: s ++ lit "," :: e ++ [lit ")"]) (EConst v)
with arguments : list str -> list expr -> Prop :=
| ar_one l e : expression Sum l e -> arguments l [e]
| ar_more l e l' es : expression Sum l e -> arguments l' es -> arguments (l ++ lit "," :: l') (e :: es).

(** optional smoothing widths after a comparison; the last one counts *)
Inductive widths : num -> list str -> num -> Prop :=
| wd_none e : widths e [] e
| wd_more e k t v l e' : In k [";"; ":"]%string -> number_token t -> number t = Ok v -> widths v l e' -> widths e (lit k :: t :: l) e'.
(** comparisons: a tree tests the sign of a difference *)
Definition difference (op : cmp) (a b : expr) (e : num) : cond :=
  CCmp (Flags false false) op (Fuzz false e n_zero n_zero) (EBin None Sub a b []).
Inductive comparison : string -> expr -> expr -> num -> cond -> Prop :=
| cm_eq a b e : comparison "=" a b e (difference Equal a b e)
| cm_ne a b e : comparison "!=" a b e (CNot (Flags false false) (difference Equal a b e))
| cm_gt a b e : comparison ">" a b e (difference Sup a b e)
| cm_lt a b e : comparison "<" a b e (difference Sup b a e)
| cm_ge a b e : comparison ">=" a b e (difference SupEqual a b e)
| cm_le a b e : comparison "<=" a b e (difference SupEqual b a e).
(** conditions: OR weaker than AND, both group to the left.  A comparison must not start with a bracket: see
    C11_bracket_comparison_refuted. *)
Inductive cstrength := Disj | Conj | Single.
Inductive condition : cstrength -> list str -> cond -> Prop :=
| co_conj l c : condition Conj l c -> condition Disj l c
| co_single l c : condition Single l c -> condition Conj l c
| co_or l1 a t l2 b : keyword t "OR" -> condition Disj l1 a -> condition Conj l2 b -> condition Disj (l1 ++ t :: l2) (COr (Flags false false) a b)
| co_and l1 a t l2 b : keyword t "AND" -> condition Conj l1 a -> condition Single l2 b -> condition Conj (l1 ++ t :: l2) (CAnd (Flags false false) a b)
| co_brackets l c : condition Disj l c -> condition Single (lit "(" :: l ++ [lit ")"]) c
| co_compare l1 a k l2 b l3 e c : expression Sum l1 a -> hd [] l1 <> lit "(" -> expression Sum l2 b -> widths no_width l3 e ->
    comparison k a b e c -> condition Single (l1 ++ lit k :: l2 ++ l3) c.

Inductive statement : list str -> stmt -> Prop :=
| st_assign t l e : name_token t -> expression Sum l e -> statement (t :: lit "=" :: l) (SAssign (target_tree t) e)
| st_pays t p l e : name_token t -> keyword p "PAYS" -> expression Sum l e -> statement (t :: p :: l) (SPays (target_tree t) e)
| st_if i lc c th l1 s1 en : keyword i "IF" -> condition Disj lc c -> keyword th "THEN" -> statements l1 s1 -> keyword en "END" ->
    statement (i :: lc ++ th :: l1 ++ [en]) (SIf (Flags false false) [] c s1 None)
| st_else i lc c th l1 s1 el l2 s2 en : keyword i "IF" -> condition Disj lc c -> keyword th "THEN" -> statements l1 s1 ->
    keyword el "ELSE" -> statements l2 s2 -> keyword en "END" ->
    statement (i :: lc ++ th :: l1 ++ el :: l2 ++ [en]) (SIf (Flags false false) [] c s1 (Some s2))
with statements : list str -> list stmt -> Prop :=
| ss_none : statements [] []
| ss_more l s l' ss : statement l s -> statements l' ss -> statements (l ++ l') (s :: ss).
End Grammar.

(** * Token lists on which the parser is safe *)
Definition function_names : list string := ["SPOT"; "LOG"; "SQRT"; "EXP"; "MIN"; "MAX"; "DCF"]%string.
(** each DCF is followed by something that is not an opening bracket, or by a complete list of three arguments *)
Definition dcf_complete (toks : list str) : Prop := forall p t r, toks = p ++ t :: r -> keyword t "DCF" ->
  (exists u r', r = u :: r' /\ hd " "%char u <> "("%char) \/
  exists b s e R, b <> [] /\ s <> [] /\ e <> [] /\ Forall plain_token b /\ Forall plain_token s /\ Forall plain_token e /\
    r = lit "(" :: b ++ lit "," :: s ++ lit "," :: e ++ lit ")" :: R.
Definition guarded (toks : list str) : Prop :=
  dcf_complete toks /\
  (forall p t, toks = p ++ [t] -> forall k, In k function_names -> ~ keyword t k) /\
  ((exists t, In t toks /\ keyword t "IF") -> exists p t, toks = p ++ [t] /\ keyword t "END").

(** the same tokens, but for the case of letters in keywords *)
Definition recased (l l' : list str) : Prop := Forall2 (fun t t' => t = t' \/ exists k, In k keywords /\ keyword t k /\ keyword t' k) l l'.

(** * Layout: tokens in a text, with blanks where needed *)
Definition blank (c : ascii) : Prop := In c [" "%char; "009"%char; "010"%char; "013"%char].
Definition word_token (t : str) : Prop := t <> [] /\ Forall (fun c => In c (letters ++ digits)) t.
Definition mark_token (t : str) : Prop :=
  In t (map lit ["/"; "-"; ","; ";"; ":"; "("; ")"; "+"; "*"; "^"; "!="; ">="; "<="; "<"; ">"; "="]%string).
(** a word must not run into another, and < or > not into = *)
Definition apart (t rest : str) : Prop :=
  match rest with
  | [] => True
  | c :: _ => (word_token t -> ~ In c (letters ++ digits)) /\ (In t [lit "<"; lit ">"] -> c <> "="%char)
  end.
Inductive layout : list str -> str -> Prop :=
| lay_end s : Forall blank s -> layout [] s
| lay_token s t l rest : Forall blank s -> word_token t \/ mark_token t -> apart t rest -> layout l rest -> layout (t :: l) (s ++ t ++ rest).
(** one blank after each token *)
Definition spaced (l : list str) : str := concat (map (fun t => t ++ lit " ") l).

(** * Writing trees with the fewest brackets *)
Definition rank (s : strength) : nat := match s with Sum => 0 | Product => 1 | Power => 2 | Tight => 3 end.
Definition infix (op : binop) : option (strength * string) :=
  match op with
  | Add => Some (Sum, "+"%string) | Sub => Some (Sum, "-"%string) | Mul => Some (Product, "*"%string) | Div => Some (Product, "/"%string)
  | Pow => Some (Power, "^"%string) | Max | Min => None
  end.
Definition in_brackets (b : bool) (l : list str) : list str := if b then lit "(" :: l ++ [lit ")"] else l.
Definition cmp_sign (op : cmp) : string := match op with Equal => "=" | Sup => ">" | SupEqual => ">=" end.
Section Printer.
Context {N : Num}.
Variable show : num -> str.
Variable show_width : num -> list str.
Fixpoint print (s : strength) (e : expr) : list str :=
  match e with
  | EBin _ op a b more =>
      match infix op with
      | Some (so, k) => in_brackets (Nat.ltb (rank so) (rank s)) (print so a ++ lit k :: print (stronger so) b)
      | None => lit (match op with Max => "MAX" | _ => "MIN" end) :: lit "(" ::
                (print Sum a ++ lit "," :: print Sum b ++ concat (map (fun x => lit "," :: print Sum x) more)) ++ [lit ")"]
      end
  | EUn _ op x =>
      match op with
      | UPlus => lit "+" :: print Tight x
      | UMinus => lit "-" :: print Tight x
      | Log => lit "LOG" :: lit "(" :: print Sum x ++ [lit ")"]
      | Sqrt => lit "SQRT" :: lit "(" :: print Sum x ++ [lit ")"]
      | Exp => lit "EXP" :: lit "(" :: print Sum x ++ [lit ")"]
      end
  | ESpot _ => [lit "SPOT"; lit "("; lit ")"]
  | EConst v => [show v]
  | EVar _ n _ | EConstVar n _ _ => [n]
  end.
Definition print_compare (k : string) (e : expr) (w : num) : list str :=
  match e with EBin _ _ a b _ => print Sum a ++ lit k :: print Sum b ++ show_width w | _ => [] end.
Fixpoint print_cond (k : cstrength) (c : cond) : list str :=
  match c with
  | COr _ a b => in_brackets (match k with Disj => false | _ => true end) (print_cond Disj a ++ lit "OR" :: print_cond Conj b)
  | CAnd _ a b => in_brackets (match k with Single => true | _ => false end) (print_cond Conj a ++ lit "AND" :: print_cond Single b)
  | CNot _ (CCmp _ _ z e) => print_compare "!=" e (eps z)
  | CCmp _ op z e => print_compare (cmp_sign op) e (eps z)
  | _ => []
  end.
Definition target (v : lhs) : str := match v with LVar _ n _ => n | LConst n _ _ => n end.
Fixpoint print_stmt (s : stmt) : list str :=
  match s with
  | SAssign v e => target v :: lit "=" :: print Sum e
  | SPays v e => target v :: lit "PAYS" :: print Sum e
  | SIf _ _ c thens elses =>
      lit "IF" :: print_cond Disj c ++ lit "THEN" :: concat (map print_stmt thens) ++
      match elses with None => [lit "END"] | Some l => lit "ELSE" :: concat (map print_stmt l) ++ [lit "END"] end
  | SCollect _ => []
  end.
Definition print_script (ss : list stmt) : list str := concat (map print_stmt ss).

(** the trees a script can denote: no processing results in them, names are names, numbers can be written; and a comparison
    does not begin with a bracket when written *)
Variable number : str -> outcome num.
Variable constant : str -> option num.
Variable no_width : num.
Fixpoint source_expr (e : expr) : Prop :=
  match e with
  | EBin n op a b more => n = None /\ source_expr a /\ source_expr b /\
      match infix op with
      | Some _ => more = []
      | None => (length more <= 998)%nat /\ (fix all l := match l with [] => True | x :: r => source_expr x /\ all r end) more
      end
  | EUn n _ x => n = None /\ source_expr x
  | ESpot n => n = None
  | EConst v => number_token (show v) /\ number (show v) = Ok v
  | EVar _ n _ | EConstVar n _ _ => name_token n /\ e = variable_tree constant n
  end.
Inductive source_cond : cond -> Prop :=
| sc_compare op a b e : source_expr a -> source_expr b -> hd [] (print Sum a) <> lit "(" -> widths number no_width (show_width e) e ->
    source_cond (difference op a b e)
| sc_differ a b e : source_expr a -> source_expr b -> hd [] (print Sum a) <> lit "(" -> widths number no_width (show_width e) e ->
    source_cond (CNot (Flags false false) (difference Equal a b e))
| sc_and a b : source_cond a -> source_cond b -> source_cond (CAnd (Flags false false) a b)
| sc_or a b : source_cond a -> source_cond b -> source_cond (COr (Flags false false) a b).
Inductive source_stmt : stmt -> Prop :=
| so_assign t e : name_token t -> source_expr e -> source_stmt (SAssign (target_tree constant t) e)
| so_pays t e : name_token t -> source_expr e -> source_stmt (SPays (target_tree constant t) e)
| so_if c thens : source_cond c -> source_script thens -> source_stmt (SIf (Flags false false) [] c thens None)
| so_else c thens elses : source_cond c -> source_script thens -> source_script elses -> source_stmt (SIf (Flags false false) [] c thens (Some elses))
with source_script : list stmt -> Prop :=
| ss_nil : source_script []
| ss_cons s ss : source_stmt s -> source_script ss -> source_script (s :: ss).
End Printer.
