(** Words for stacks and printed trees. *)
From Coq Require Import String Ascii ZArith List Bool Arith.
From Verif Require Import Base StringModel StackModel DebugModel.
Import ListNotations.
Local Open Scope list_scope.
Section Spec.
Context {A : Type}.
(** What a stack should hold, top first, and whether it may be pushed on: not when made without room, cleared, or moved from. *)
Record pile := Pile { items : list A; usable : bool }.
Definition piles := nat -> pile.
Definition set_pile (st : piles) (k : nat) (p : pile) : piles := fun i => if (i =? k)%nat then p else st i.
Definition pile_op (o : op A) (st : piles) : option piles :=
  match o with
  | New k chunk => Some (set_pile st k (Pile [] (1 <=? chunk)%nat))
  | Push k v => if usable (st k) then Some (set_pile st k (Pile (v :: items (st k)) true)) else None
  | Pop k n => if (n <=? length (items (st k)))%nat then Some (set_pile st k (Pile (skipn n (items (st k))) (usable (st k)))) else None
  | Reset k => Some (set_pile st k (Pile [] (usable (st k))))
  | Clear k => Some (set_pile st k (Pile [] false))
  | CopyTo i k | AssignTo i k => Some (set_pile st k (st i))
  | MoveTo i k => Some (if (i =? k)%nat then st else set_pile (set_pile st k (st i)) i (Pile [] false))
  end.
Fixpoint pile_ops (os : list (op A)) (st : piles) : option piles :=
  match os with [] => Some st | o :: r => match pile_op o st with Some st' => pile_ops r st' | None => None end end.
(** the stack shows these items: size, emptiness, top, elements counted from the top *)
Definition shows (s : stack A) (l : list A) : Prop :=
  stack_size s = Z.of_nat (length l) /\ (is_empty s = true <-> l = []) /\ (forall v r, l = v :: r -> top s = Ok v) /\
  forall i v, nth_error l i = Some v -> at_ s i = Ok v.
End Spec.
Arguments pile : clear implicits.
Arguments piles : clear implicits.

(** A tree in functional form, one node to a line, arguments one tab further in. *)
Fixpoint text_of (prefix : str) (t : tree) : str :=
  match t with
  | Node label args =>
      let fix args_text (l : list tree) : str :=
        match l with
        | [] => []
        | [a] => text_of (prefix ++ tab) a ++ prefix ++ lit ")"
        | a :: r => text_of (prefix ++ tab) a ++ prefix ++ lit "," ++ newline ++ args_text r
        end in
      prefix ++ label ++ (match args with [] => [] | _ => lit "(" ++ newline ++ args_text args end) ++ newline
  end.
(** no label has an opening parenthesis or an end of line *)
Fixpoint plain (t : tree) : Prop :=
  match t with Node label args => ~ In "("%char label /\ ~ In (chr 10) label /\ fold_right (fun a P => plain a /\ P) True args end.

From Verif Require Import ScriptModel.
Section Names.
Context {N : Num}.
(** the variable names in a statement *)
Fixpoint expr_names (e : expr) : list str :=
  match e with
  | EBin _ _ l r extra => expr_names l ++ expr_names r ++ flat_map expr_names extra
  | EUn _ _ x => expr_names x
  | EVar _ n _ | EConstVar n _ _ => [n]
  | ESpot _ | EConst _ => []
  end.
Fixpoint cond_names (c : cond) : list str :=
  match c with CCmp _ _ _ e => expr_names e | CAnd _ a b | COr _ a b => cond_names a ++ cond_names b | CNot _ a => cond_names a | CTrue | CFalse => [] end.
Definition lhs_names (v : lhs) : list str := match v with LVar _ n _ | LConst n _ _ => [n] end.
Fixpoint stmt_names (s : stmt) : list str :=
  match s with
  | SAssign v e | SPays v e => lhs_names v ++ expr_names e
  | SIf _ _ c thens elses => cond_names c ++ flat_map stmt_names thens ++ match elses with None => [] | Some l => flat_map stmt_names l end
  | SCollect l => flat_map stmt_names l
  end.
Definition plain_text (t : str) : Prop := ~ In "("%char t /\ ~ In (chr 10) t.
End Names.
