(** What a script means, independently of stacks, streams and visitors. *)
From Coq Require Import ZArith List Bool.
From Verif Require Import Base StringModel StringSpec ScriptModel.
Import ListNotations.
Open Scope Z_scope.

Section Spec.
Context {N : Num}.

(** Variables by index. *)
Definition lookup (env : list num) (i : Z) : num := nth (Z.to_nat i) env n_zero.
Definition store (env : list num) (i : Z) (v : num) : list num := firstn (Z.to_nat i) env ++ v :: skipn (S (Z.to_nat i)) env.

Section Meaning.
  Variable past : bool.
  Variable smp : sample.
  Variable env : list num.
  (** The value of an expression. *)
  Fixpoint meaning (e : expr) : num :=
    match e with
    | EBin _ op l r _ => bin op (meaning l) (meaning r)
    | EUn _ op x => un op (meaning x)
    | ESpot _ => if past then n_thirty else spot smp
    | EConst v => v
    | EVar _ _ i => lookup env i
    | EConstVar _ _ v => v
    end.
  Fixpoint truth (c : cond) : bool :=
    match c with
    | CCmp _ op _ e => test op (meaning e)
    | CAnd _ a b => truth a && truth b
    | COr _ a b => truth a || truth b
    | CNot _ a => negb (truth a)
    | CTrue => true
    | CFalse => false
    end.
End Meaning.
(** The effect of a statement.  A payment adds the amount in units of the numeraire; past payments are not counted. *)
Fixpoint exec (past : bool) (smp : sample) (s : stmt) (env : list num) : list num :=
  match s with
  | SAssign v e => store env (lhs_index v) (meaning past smp env e)
  | SPays v e => if past then env
                 else store env (lhs_index v) (n_add (lookup env (lhs_index v)) (n_div (meaning past smp env e) (numeraire smp)))
  | SIf _ _ c t e =>
      if truth past smp env c then fold_left (fun env s => exec past smp s env) t env
      else match e with None => env | Some l => fold_left (fun env s => exec past smp s env) l env end
  | SCollect l => fold_left (fun env s => exec past smp s env) l env
  end.
Definition exec_all (past : bool) (smp : sample) (l : list stmt) (env : list num) : list num :=
  fold_left (fun env s => exec past smp s env) l env.
(** Future events: the i-th runs on the i-th sample. *)
Fixpoint exec_events (events : list (list stmt)) (scenario : list sample) (env : list num) : list num :=
  match events, scenario with
  | evt :: r, smp :: ss => exec_events r ss (exec_all false smp evt env)
  | _, _ => env
  end.
Definition exec_past (events : list (list stmt)) (env : list num) : list num :=
  fold_left (fun env evt => exec_all true (Sample n_zero n_zero) evt env) events env.

(** ** Indexed trees: every variable index is in range, every constant variable points at its value, and only
    variables are assigned or paid into. *)
Section Wf.
  Variable nv : Z.
  Variable consts : list num.
  Fixpoint wf_expr (e : expr) : Prop :=
    match e with
    | EBin _ _ l r x => wf_expr l /\ wf_expr r /\ fold_right (fun y P => wf_expr y /\ P) True x
    | EUn _ _ x => wf_expr x
    | ESpot _ | EConst _ => True
    | EVar _ _ i => 0 <= i < nv
    | EConstVar _ i v => 0 <= i /\ nth_error consts (Z.to_nat i) = Some v
    end.
  Fixpoint wf_cond (c : cond) : Prop :=
    match c with
    | CCmp _ _ _ e => wf_expr e
    | CAnd _ a b | COr _ a b => wf_cond a /\ wf_cond b
    | CNot _ a => wf_cond a
    | CTrue | CFalse => True
    end.
  Definition wf_lhs (v : lhs) : Prop := match v with LVar _ _ i => 0 <= i < nv | LConst _ _ _ => False end.
  Fixpoint wf_stmt (s : stmt) : Prop :=
    match s with
    | SAssign v e | SPays v e => wf_lhs v /\ wf_expr e
    | SIf _ _ c t e => wf_cond c /\ fold_right (fun s P => wf_stmt s /\ P) True t /\
        match e with None => True | Some l => fold_right (fun s P => wf_stmt s /\ P) True l end
    | SCollect l => fold_right (fun s P => wf_stmt s /\ P) True l
    end.
  Definition wf_all (l : list stmt) : Prop := Forall wf_stmt l.
End Wf.

(** ** Stack use: how many elements an expression or condition needs at most. *)
Fixpoint need (e : expr) : Z :=
  match e with
  | EBin _ _ l r _ => Z.max (need l) (1 + need r)
  | EUn _ _ x => need x
  | _ => 1
  end.
Fixpoint cneed (c : cond) : Z := (* numbers *)
  match c with
  | CCmp _ _ _ e => need e
  | CAnd _ a b | COr _ a b => Z.max (cneed a) (cneed b)
  | CNot _ a => cneed a
  | CTrue | CFalse => 0
  end.
Fixpoint bneed (c : cond) : Z := (* truth values *)
  match c with
  | CCmp _ _ _ _ | CTrue | CFalse => 1
  | CAnd _ a b | COr _ a b => Z.max (bneed a) (1 + bneed b)
  | CNot _ a => bneed a
  end.
(** nothing in the statement needs more than [d] numbers or 128 truth values *)
Fixpoint fits (d : Z) (s : stmt) : Prop :=
  match s with
  | SAssign _ e | SPays _ e => need e <= d
  | SIf _ _ c t e => cneed c <= d /\ bneed c <= 128 /\ fold_right (fun s P => fits d s /\ P) True t /\
      match e with None => True | Some l => fold_right (fun s P => fits d s /\ P) True l end
  | SCollect l => fold_right (fun s P => fits d s /\ P) True l
  end.
Definition fits_all (d : Z) (l : list stmt) : Prop := Forall (fits d) l.
(** the number of payments in a statement *)
Fixpoint payments (s : stmt) : Z :=
  match s with
  | SAssign _ _ => 0
  | SPays _ _ => 1
  | SIf _ _ _ t e => fold_right (fun s n => payments s + n) 0 t +
                     match e with None => 0 | Some l => fold_right (fun s n => payments s + n) 0 l end
  | SCollect l => fold_right (fun s n => payments s + n) 0 l
  end.
Definition payments_all (l : list stmt) : Z := fold_right (fun s n => payments s + n) 0 l.

(** ** Trees as the parser leaves them: no computed node is marked constant. *)
Fixpoint fresh_expr (e : expr) : Prop :=
  match e with
  | EBin a _ l r x => a = None /\ fresh_expr l /\ fresh_expr r /\ fold_right (fun y P => fresh_expr y /\ P) True x
  | EUn a _ x => a = None /\ fresh_expr x
  | ESpot a => a = None
  | _ => True
  end.
Fixpoint fresh_cond (c : cond) : Prop :=
  match c with
  | CCmp _ _ _ e => fresh_expr e
  | CAnd _ a b | COr _ a b => fresh_cond a /\ fresh_cond b
  | CNot _ a => fresh_cond a
  | CTrue | CFalse => True
  end.
Fixpoint fresh_stmt (s : stmt) : Prop :=
  match s with
  | SAssign _ e | SPays _ e => fresh_expr e
  | SIf _ _ c t e => fresh_cond c /\ fold_right (fun s P => fresh_stmt s /\ P) True t /\
      match e with None => True | Some l => fold_right (fun s P => fresh_stmt s /\ P) True l end
  | SCollect l => fold_right (fun s P => fresh_stmt s /\ P) True l
  end.

(** ** Constant marks that are right: where the code will be executed in [env], a node marked with a constant has that
    value.  Statements are followed along their execution. *)
Section Marks.
  Variable past : bool.
  Variable smp : sample.
  Fixpoint marks_expr (env : list num) (e : expr) : Prop :=
    match ann_of e with None => True | Some v => meaning past smp env e = v end /\
    match e with
    | EBin _ _ l r _ => marks_expr env l /\ marks_expr env r
    | EUn _ _ x => marks_expr env x
    | _ => True
    end.
  Fixpoint marks_cond (env : list num) (c : cond) : Prop :=
    match c with
    | CCmp _ _ _ e => marks_expr env e
    | CAnd _ a b | COr _ a b => marks_cond env a /\ marks_cond env b
    | CNot _ a => marks_cond env a
    | CTrue | CFalse => True
    end.
  Fixpoint marks_stmt (env : list num) (s : stmt) : Prop :=
    let fix all (env : list num) (l : list stmt) : Prop :=
      match l with [] => True | x :: r => marks_stmt env x /\ all (exec past smp x env) r end in
    match s with
    | SAssign _ e | SPays _ e => marks_expr env e
    | SIf _ _ c t e => marks_cond env c /\
        if truth past smp env c then all env t else match e with None => True | Some l => all env l end
    | SCollect l => all env l
    end.
  Fixpoint marks_all (env : list num) (l : list stmt) : Prop :=
    match l with [] => True | x :: r => marks_stmt env x /\ marks_all (exec past smp x env) r end.
End Marks.

(** ** The laws the compiler relies on when it folds constants: it swaps the operands of sums, products, maxima and
    minima with a constant on the left, and it tests constants against zero with its own tolerance. *)
Record laws : Prop := {
  add_swap : forall x y, n_add x y = n_add y x;
  mul_swap : forall x y, n_mul x y = n_mul y x;
  max_swap : forall x y, bin Max x y = bin Max y x;
  min_swap : forall x y, bin Min x y = bin Min y x;
  ge0_same : forall x, ge0_const x = ge0 x }.

(** ** Where the truth-value stack of the compiled evaluator can be: [low lo est l] tells whether running [l] from a
    stack pointer between [est] and -1 never touches an element below [lo], and how low the pointer can be afterwards.
    A taken branch of an IF with ELSE leaves the pointer one below where its inner run left it. *)
Section Low.
Variable lo : Z.
Fixpoint low (est : Z) (s : stmt) : option Z :=
  let fix all (est : Z) (l : list stmt) : option Z :=
    match l with [] => Some est | x :: r => match low est x with None => None | Some e => all e r end end in
  match s with
  | SAssign _ _ | SPays _ _ => Some est
  | SIf _ _ _ t None => if lo <=? est + 1 then match all est t with None => None | Some e => Some (Z.min est e) end else None
  | SIf _ _ _ t (Some l) =>
      if lo <=? est + 1 then
        match all (-1) t, all est l with Some a, Some b => Some (Z.min (a - 1) b) | _, _ => None end
      else None
  | SCollect l => all est l
  end.
Fixpoint low_all (est : Z) (l : list stmt) : option Z :=
  match l with [] => Some est | x :: r => match low est x with None => None | Some e => low_all e r end end.
End Low.
(** IFs nested in the true branch of an IF with ELSE. *)
Fixpoint else_depth (s : stmt) : Z :=
  match s with
  | SAssign _ _ | SPays _ _ => 0
  | SIf _ _ _ t e =>
      let dt := fold_right (fun s n => Z.max (else_depth s) n) 0 t in
      match e with None => dt | Some l => Z.max (1 + dt) (fold_right (fun s n => Z.max (else_depth s) n) 0 l) end
  | SCollect l => fold_right (fun s n => Z.max (else_depth s) n) 0 l
  end.
Fixpoint no_else (s : stmt) : bool :=
  match s with
  | SAssign _ _ | SPays _ _ => true
  | SIf _ _ _ t None => forallb no_else t
  | SIf _ _ _ _ (Some _) => false
  | SCollect l => forallb no_else l
  end.

(** ** Names *)
(** all the indexed occurrences of variables and constant variables in a tree *)
Fixpoint expr_vars (e : expr) : list (str * Z) :=
  match e with
  | EBin _ _ l r x => expr_vars l ++ expr_vars r ++ fold_right (fun y acc => expr_vars y ++ acc) [] x
  | EUn _ _ x => expr_vars x
  | EVar _ n i => [(n, i)]
  | _ => []
  end.
Fixpoint expr_consts (e : expr) : list (str * Z * num) :=
  match e with
  | EBin _ _ l r x => expr_consts l ++ expr_consts r ++ fold_right (fun y acc => expr_consts y ++ acc) [] x
  | EUn _ _ x => expr_consts x
  | EConstVar n i v => [(n, i, v)]
  | _ => []
  end.
Fixpoint cond_vars (c : cond) : list (str * Z) :=
  match c with
  | CCmp _ _ _ e => expr_vars e
  | CAnd _ a b | COr _ a b => cond_vars a ++ cond_vars b
  | CNot _ a => cond_vars a
  | CTrue | CFalse => []
  end.
Fixpoint cond_consts (c : cond) : list (str * Z * num) :=
  match c with
  | CCmp _ _ _ e => expr_consts e
  | CAnd _ a b | COr _ a b => cond_consts a ++ cond_consts b
  | CNot _ a => cond_consts a
  | CTrue | CFalse => []
  end.
Definition lhs_vars (v : lhs) : list (str * Z) := match v with LVar _ n i => [(n, i)] | LConst _ _ _ => [] end.
Definition lhs_consts (v : lhs) : list (str * Z * num) := match v with LVar _ _ _ => [] | LConst n i x => [(n, i, x)] end.
Fixpoint stmt_vars (s : stmt) : list (str * Z) :=
  match s with
  | SAssign v e | SPays v e => lhs_vars v ++ expr_vars e
  | SIf _ _ c t e => cond_vars c ++ fold_right (fun s acc => stmt_vars s ++ acc) [] t ++
      match e with None => [] | Some l => fold_right (fun s acc => stmt_vars s ++ acc) [] l end
  | SCollect l => fold_right (fun s acc => stmt_vars s ++ acc) [] l
  end.
Fixpoint stmt_consts (s : stmt) : list (str * Z * num) :=
  match s with
  | SAssign v e | SPays v e => lhs_consts v ++ expr_consts e
  | SIf _ _ c t e => cond_consts c ++ fold_right (fun s acc => stmt_consts s ++ acc) [] t ++
      match e with None => [] | Some l => fold_right (fun s acc => stmt_consts s ++ acc) [] l end
  | SCollect l => fold_right (fun s acc => stmt_consts s ++ acc) [] l
  end.
(** the same tree with the indices wiped out *)
Fixpoint plain_expr (e : expr) : expr :=
  match e with
  | EBin a op l r x => EBin a op (plain_expr l) (plain_expr r) (map plain_expr x)
  | EUn a op x => EUn a op (plain_expr x)
  | EVar a n _ => EVar a n (-1)
  | EConstVar n _ v => EConstVar n (-1) v
  | _ => e
  end.
Fixpoint plain_cond (c : cond) : cond :=
  match c with
  | CCmp f op z e => CCmp f op z (plain_expr e)
  | CAnd f a b => CAnd f (plain_cond a) (plain_cond b)
  | COr f a b => COr f (plain_cond a) (plain_cond b)
  | CNot f a => CNot f (plain_cond a)
  | _ => c
  end.
Definition plain_lhs (v : lhs) : lhs := match v with LVar a n _ => LVar a n (-1) | LConst n _ x => LConst n (-1) x end.
Fixpoint plain_stmt (s : stmt) : stmt :=
  match s with
  | SAssign v e => SAssign (plain_lhs v) (plain_expr e)
  | SPays v e => SPays (plain_lhs v) (plain_expr e)
  | SIf f af c t e => SIf f af (plain_cond c) (map plain_stmt t) (option_map (map plain_stmt) e)
  | SCollect l => SCollect (map plain_stmt l)
  end.
(** only variables are assigned or paid into *)
Fixpoint var_targets (s : stmt) : Prop :=
  match s with
  | SAssign v _ | SPays v _ => match v with LVar _ _ _ => True | LConst _ _ _ => False end
  | SIf _ _ _ t e => fold_right (fun s P => var_targets s /\ P) True t /\
      match e with None => True | Some l => fold_right (fun s P => var_targets s /\ P) True l end
  | SCollect l => fold_right (fun s P => var_targets s /\ P) True l
  end.
(** the names of a list without the repetitions (up to case), each where it first occurs *)
Fixpoint first_names (seen : list str) (l : list str) : list str :=
  match l with
  | [] => []
  | n :: r => if existsb (fun x => ci_eqb x n) seen then first_names seen r else n :: first_names (n :: seen) r
  end.
Definition all_vars (events : list (list stmt)) : list (str * Z) := flat_map (flat_map stmt_vars) events.
Definition all_consts (events : list (list stmt)) : list (str * Z * num) := flat_map (flat_map stmt_consts) events.
End Spec.
