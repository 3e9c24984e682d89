(** What valuing a script means: the script is read as written, with variables known by their names (whatever the case), all zero at
    first; no indices, trees of marks, stacks, streams or threads. *)
From Coq Require Import ZArith List Bool Permutation.
From Verif Require Import Base StringModel StringSpec ScriptModel ScriptSpec ScriptEval ScriptIndex SimModel.
Import ListNotations.
Open Scope Z_scope.

Section Written.
Context {N : Num}.
Definition values := str -> num.
Definition all_zero : values := fun _ => n_zero.
Definition assign (env : values) (n : str) (v : num) : values := fun n' => if ci_eqb n n' then v else env n'.
(** in the past SPOT() is 30 (pastevaluator.hpp:29-32) and payments are not counted *)
Section Meaning.
  Variable past : bool.
  Variable smp : sample.
  Variable env : values.
  Fixpoint amount (e : expr) : num :=
    match e with
    | EBin _ op l r _ => bin op (amount l) (amount r)
    | EUn _ op x => un op (amount x)
    | ESpot _ => if past then n_thirty else spot smp
    | EConst v => v
    | EVar _ n _ => env n
    | EConstVar _ _ v => v
    end.
  Fixpoint true_in (c : cond) : bool :=
    match c with
    | CCmp _ op _ e => test op (amount e)
    | CAnd _ a b => true_in a && true_in b
    | COr _ a b => true_in a || true_in b
    | CNot _ a => negb (true_in a)
    | CTrue => true
    | CFalse => false
    end.
End Meaning.
Fixpoint perform (past : bool) (smp : sample) (s : stmt) (env : values) : values :=
  match s with
  | SAssign (LVar _ n _) e => assign env n (amount past smp env e)
  | SPays (LVar _ n _) e => if past then env else assign env n (n_add (env n) (n_div (amount past smp env e) (numeraire smp)))
  | SAssign (LConst _ _ _) _ | SPays (LConst _ _ _) _ => env
  | SIf _ _ c t e =>
      if true_in past smp env c then fold_left (fun env s => perform past smp s env) t env
      else match e with None => env | Some l => fold_left (fun env s => perform past smp s env) l env end
  | SCollect l => fold_left (fun env s => perform past smp s env) l env
  end.
Definition perform_all (past : bool) (smp : sample) (l : list stmt) (env : values) : values := fold_left (fun env s => perform past smp s env) l env.
(** the past events in order, then the future ones, each with the market of its date *)
Definition perform_past (l : list (list stmt)) (env : values) : values := fold_left (fun env evt => perform_all true (Sample n_zero n_zero) evt env) l env.
Fixpoint perform_future (l : list (list stmt)) (scenario : list sample) (env : values) : values :=
  match l, scenario with
  | evt :: r, smp :: ss => perform_future r ss (perform_all false smp evt env)
  | _, _ => env
  end.
(** the final value of the variable [n] on a path *)
Definition final (past future : list (list stmt)) (n : str) (scenario : list sample) : num := perform_future future scenario (perform_past past all_zero) n.
(** the variables of a script, in the order in which they appear in it, and the one that is its payoff: the one with the given name or,
    without one, the last to appear *)
Definition variables_of (l : list (list stmt)) : list str := first_names [] (map fst (all_vars l)).
Definition is_payoff (name : str) (l : list (list stmt)) (n : str) : Prop :=
  (In n (variables_of l) /\ same_up_to_case n name) \/
  ((forall m, In m (variables_of l) -> ~ same_up_to_case m name) /\ exists r, variables_of l = r ++ [n]).
(** A script the parser can make (C11) that fits the evaluators' stacks (C19): assignments and payments go to variables, a constant has one
    value throughout, expressions need at most [d] places and those of past payments stay on the stack. *)
Definition valid (d : Z) (past future : list (list stmt)) : Prop :=
  Forall (Forall var_targets) (past ++ future) /\ one_value (all_consts (past ++ future)) /\ Forall (fits_all d) (past ++ future) /\ payments_events past + d <= 128.
(** the tasks in any order, each run by some thread of the pool *)
Definition any_schedule (pool tasks : nat) (order : list (nat * nat)) : Prop :=
  Permutation (map fst order) (seq 0 tasks) /\ Forall (fun p => In (snd p) (thread_numbers pool)) order.
(** sums from left to right: of the values of a function at 0 .. k-1, and of these over batches *)
Definition sum_up (k : nat) (f : nat -> num) : num := fold_left n_add (map f (seq 0 k)) n_zero.
Definition sum_batches (ts : list (Z * Z)) (f : Z -> nat -> num) : num := fold_left n_add (map (fun t => sum_up (Z.to_nat (snd t)) (f (fst t))) ts) n_zero.
End Written.

(** * Paths inside what the analysis of domains assumes (DomainSpec), read by names: no division by zero, square roots and logarithms not
    negative, numeraires positive; only what is evaluated counts.  MAX and MIN have two arguments. *)
From Coq Require Import Reals.
From Verif Require Import ScriptModel ScriptSpec DomainModel DomainSpec.
Section Safe.
Variables (f_log f_sqrt f_exp : R -> R) (f_pow : R -> R -> R).
Local Notation RN := (RNum f_log f_sqrt f_exp f_pow).
Local Open Scope R_scope.
Section Market.
  Variable past : bool.
  Variable smp : @sample RN.
  Fixpoint safe_expr (w : @values RN) (e : @expr RN) : Prop :=
    match e with
    | EBin _ op l r x => x = [] /\ safe_expr w l /\ safe_expr w r /\ (op = Div -> amount past smp w r <> 0)
    | EUn _ op x => safe_expr w x /\ (op = Log -> 0 <= f_log (amount past smp w x)) /\ (op = Sqrt -> 0 <= f_sqrt (amount past smp w x))
    | _ => True
    end.
  Fixpoint safe_cond (w : @values RN) (c : @cond RN) : Prop :=
    match c with
    | CCmp _ _ _ e => safe_expr w e
    | CAnd _ a b => safe_cond w a /\ (true_in past smp w a = true -> safe_cond w b)
    | COr _ a b => safe_cond w a /\ (true_in past smp w a = false -> safe_cond w b)
    | CNot _ a => safe_cond w a
    | CTrue | CFalse => True
    end.
  Fixpoint safe (s : @stmt RN) (w : @values RN) : Prop :=
    let fix all (l : list stmt) (w : values) : Prop := match l with [] => True | x :: r => safe x w /\ all r (perform past smp x w) end in
    match s with
    | SAssign _ e => safe_expr w e
    | SPays _ e => safe_expr w e /\ (past = false -> 0 < numeraire smp)
    | SIf _ _ c t e => safe_cond w c /\ if true_in past smp w c then all t w else match e with None => True | Some l => all l w end
    | SCollect l => all l w
    end.
  Fixpoint safe_all (l : list (@stmt RN)) (w : @values RN) : Prop :=
    match l with [] => True | x :: r => safe x w /\ safe_all r (perform past smp x w) end.
End Market.
Fixpoint safe_past (l : list (list (@stmt RN))) (w : @values RN) : Prop :=
  match l with [] => True | e :: r => safe_all true (@Sample RN 0 0) e w /\ safe_past r (perform_all true (@Sample RN 0 0) e w) end.
Fixpoint safe_future (l : list (list (@stmt RN))) (scenario : list (@sample RN)) (w : @values RN) : Prop :=
  match l, scenario with
  | e :: r, smp :: ss => safe_all false smp e w /\ safe_future r ss (perform_all false smp e w)
  | _, _ => True
  end.
End Safe.
