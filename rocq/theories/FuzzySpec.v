(** What an IF changes, and what the fuzzy evaluation of a script means. *)
From Coq Require Import ZArith List Bool.
From Verif Require Import Base StringModel ScriptModel ScriptSpec FuzzyModel.
Import ListNotations.
Open Scope Z_scope.

Section Assigned.
Context {N : Num}.
Definition target (v : lhs) : list Z := match v with LVar _ _ i => [i] | LConst _ _ _ => [] end.
(** the variables a statement assigns or pays into, on some path through it *)
Fixpoint assigned (s : stmt) : list Z :=
  match s with
  | SAssign v _ | SPays v _ => target v
  | SIf _ _ _ t e => flat_map assigned t ++ match e with None => [] | Some l => flat_map assigned l end
  | SCollect l => flat_map assigned l
  end.
(** an increasing list without repetition with the elements of [l] *)
Fixpoint increasing (l : list Z) : Prop :=
  match l with [] => True | x :: r => Forall (fun y => x < y) r /\ increasing r end.
Definition set_of (af l : list Z) : Prop := increasing af /\ forall i, In i af <-> In i l.
(** every IF in the statement carries exactly the variables assigned in its branches *)
Fixpoint marked (s : stmt) : Prop :=
  match s with
  | SAssign _ _ | SPays _ _ => True
  | SIf _ af _ t e =>
      set_of af (flat_map assigned t ++ match e with None => [] | Some l => flat_map assigned l end) /\
      fold_right (fun s P => marked s /\ P) True t /\ match e with None => True | Some l => fold_right (fun s P => marked s /\ P) True l end
  | SCollect l => fold_right (fun s P => marked s /\ P) True l
  end.
(** the statement with these lists wiped out *)
Fixpoint unmarked (s : stmt) : stmt :=
  match s with
  | SAssign _ _ | SPays _ _ => s
  | SIf f _ c t e => SIf f [] c (map unmarked t) (option_map (map unmarked) e)
  | SCollect l => SCollect (map unmarked l)
  end.
(** how deep IFs are nested *)
Fixpoint depth (s : stmt) : Z :=
  match s with
  | SAssign _ _ | SPays _ _ => 0
  | SIf _ _ _ t e => 1 + Z.max (fold_right (fun s n => Z.max (depth s) n) 0 t) match e with None => 0 | Some l => fold_right (fun s n => Z.max (depth s) n) 0 l end
  | SCollect l => fold_right (fun s n => Z.max (depth s) n) 0 l
  end.
Definition depth_all (l : list stmt) : Z := fold_right (fun s n => Z.max (depth s) n) 0 l.
Definition depth_events (l : list (list stmt)) : Z := fold_right (fun evt n => Z.max (depth_all evt) n) 0 l.
End Assigned.

Section Fuzzy.
Context {N : Num} {F : FuzzyNum N}.
Section Meaning.
  Variable defEps : num.
  Variable smp : sample.
  (** The degree of truth of a condition: comparisons by spreads and butterflies, combined as independent probabilities. *)
  Fixpoint degree (env : list num) (c : cond) : num :=
    match c with
    | CCmp _ op z e => degree_cmp defEps op z (meaning false smp env e)
    | CAnd _ a b => n_mul (degree env b) (degree env a)
    | COr _ a b => n_sub (n_add (degree env b) (degree env a)) (n_mul (degree env b) (degree env a))
    | CNot _ a => n_sub n_one (degree env a)
    | CTrue => n_one
    | CFalse => n_zero
    end.
  (** variable by variable: a combination where the IF assigns, untouched elsewhere *)
  Definition mix (dt : num) (af : list Z) (env1 env0 : list num) : list num :=
    map (fun k => if existsb (Z.eqb (Z.of_nat k)) af
                  then n_add (n_mul dt (lookup env1 (Z.of_nat k))) (n_mul (n_sub n_one dt) (lookup env0 (Z.of_nat k)))
                  else lookup env0 (Z.of_nat k)) (seq 0 (length env0)).
  Fixpoint fexec (s : stmt) (env : list num) : list num :=
    match s with
    | SAssign _ _ | SPays _ _ => exec false smp s env
    | SIf _ _ c t e =>
        let yes := fold_left (fun env s => fexec s env) t env in
        let no := match e with None => env | Some l => fold_left (fun env s => fexec s env) l env end in
        let dt := degree env c in
        if surely dt then yes else if never dt then no else mix dt (assigned s) yes no
    | SCollect l => fold_left (fun env s => fexec s env) l env
    end.
  Definition fexec_all (l : list stmt) (env : list num) : list num := fold_left (fun env s => fexec s env) l env.
End Meaning.
Fixpoint fexec_events (defEps : num) (events : list (list stmt)) (scenario : list sample) (env : list num) : list num :=
  match events, scenario with
  | evt :: r, smp :: ss => fexec_events defEps r ss (fexec_all defEps smp evt env)
  | _, _ => env
  end.
(** no negation (no [!=]) *)
Fixpoint no_not_cond (c : cond) : Prop :=
  match c with
  | CAnd _ a b | COr _ a b => no_not_cond a /\ no_not_cond b
  | CNot _ _ => False
  | _ => True
  end.
Fixpoint no_not (s : stmt) : Prop :=
  match s with
  | SAssign _ _ | SPays _ _ => True
  | SIf _ _ c t e => no_not_cond c /\ fold_right (fun s P => no_not s /\ P) True t /\
      match e with None => True | Some l => fold_right (fun s P => no_not s /\ P) True l end
  | SCollect l => fold_right (fun s P => no_not s /\ P) True l
  end.
(** the stack of degrees: both sides of a combination are evaluated *)
Fixpoint fneed (c : cond) : Z :=
  match c with
  | CAnd _ a b | COr _ a b => Z.max (fneed a) (1 + fneed b)
  | CNot _ a => fneed a
  | _ => 1
  end.
Fixpoint ffits (s : stmt) : Prop :=
  match s with
  | SAssign _ e | SPays _ e => need e <= 128
  | SIf _ _ c t e => cneed c <= 128 /\ fneed c <= 128 /\ fold_right (fun s P => ffits s /\ P) True t /\
      match e with None => True | Some l => fold_right (fun s P => ffits s /\ P) True l end
  | SCollect l => fold_right (fun s P => ffits s /\ P) True l
  end.

(** ** Clear conditions: every comparison met is at least half the smoothing width away from its switching point (or,
    for an equality, exactly there). *)
Definition half_width (e : num) : num := n_mul n_half e.
Definition clear_cmp (defEps : num) (op : cmp) (z : fuzz) (x : num) : Prop :=
  let e := if n_ltb (eps z) n_zero then defEps else eps z in
  let l := if isDiscrete z then lb z else n_neg (half_width e) in
  let r := if isDiscrete z then rb z else half_width e in
  match op with
  | Equal => n_ltb x l = true \/ n_ltb r x = true \/ x = n_zero
  | Sup | SupEqual => n_ltb x l = true \/ n_ltb r x = true \/ x = l \/ x = r
  end.
(** a usable smoothing zone around the switching point *)
Definition zone (defEps : num) (op : cmp) (z : fuzz) : Prop :=
  if isDiscrete z
  then match op with
       | Equal => n_ltb (lb z) n_zero = true /\ n_ltb n_zero (rb z) = true
       | Sup => n_ltb n_zero (lb z) = false /\ n_ltb n_zero (rb z) = true
       | SupEqual => n_ltb (lb z) n_zero = true /\ n_ltb (rb z) n_zero = false
       end
  else n_ltb n_zero (if n_ltb (eps z) n_zero then defEps else eps z) = true.
Section Clear.
  Variable defEps : num.
  Variable smp : sample.
  Fixpoint clear_cond (env : list num) (c : cond) : Prop :=
    match c with
    | CCmp _ op z e => zone defEps op z /\ clear_cmp defEps op z (meaning false smp env e)
    | CAnd _ a b | COr _ a b => clear_cond env a /\ clear_cond env b
    | CNot _ a => clear_cond env a
    | CTrue | CFalse => True
    end.
  (** followed along the ordinary execution *)
  Fixpoint clear_stmt (env : list num) (s : stmt) : Prop :=
    let fix all (env : list num) (l : list stmt) : Prop :=
      match l with [] => True | x :: r => clear_stmt env x /\ all (exec false smp x env) r end in
    match s with
    | SAssign _ _ | SPays _ _ => True
    | SIf _ _ c t e => clear_cond env c /\
        if truth false smp env c then all env t else match e with None => True | Some l => all env l end
    | SCollect l => all env l
    end.
  Fixpoint clear_all (env : list num) (l : list stmt) : Prop :=
    match l with [] => True | x :: r => clear_stmt env x /\ clear_all (exec false smp x env) r end.
End Clear.
Fixpoint clear_events (defEps : num) (events : list (list stmt)) (scenario : list sample) (env : list num) : Prop :=
  match events, scenario with
  | evt :: r, smp :: ss => clear_all defEps smp env evt /\ clear_events defEps r ss (exec_all false smp evt env)
  | _, _ => True
  end.
(** What is needed of the arithmetic: [ltb] is a strict order compatible with the tests against zero; 0 and 1 behave; and
    the quotients at the edges of the zones are 0 and 1. *)
Record clear_laws : Prop := {
  lt_irrefl : forall x, n_ltb x x = false;
  lt_trans : forall x y z, n_ltb x y = true -> n_ltb y z = true -> n_ltb x z = true;
  lt_total : forall x y, n_ltb x y = false -> n_ltb y x = false -> x = y;
  eq0_is : forall x, eq0 x = true <-> x = n_zero;
  gt0_is : forall x, gt0 x = n_ltb n_zero x;
  ge0_is : forall x, ge0 x = negb (n_ltb x n_zero);
  half_pos : forall e, n_ltb n_zero e = true -> n_ltb n_zero (half_width e) = true /\ n_ltb (n_neg (half_width e)) n_zero = true;
  edge_low : forall e, n_ltb n_zero e = true -> n_div (n_add (n_neg (half_width e)) (half_width e)) e = n_zero;
  edge_high : forall e, n_ltb n_zero e = true -> n_div (n_add (half_width e) (half_width e)) e = n_one;
  edge_mid : forall e, n_ltb n_zero e = true -> n_div (n_sub e (n_abs n_zero)) e = n_one;
  edge2_low : forall l r, n_ltb l r = true -> n_div (n_sub l l) (n_sub r l) = n_zero;
  edge2_high : forall l r, n_ltb l r = true -> n_div (n_sub r l) (n_sub r l) = n_one;
  edge2_mid : forall r, n_ltb n_zero r = true -> n_sub n_one (n_div n_zero r) = n_one;
  mul_1_1 : n_mul n_one n_one = n_one; mul_0_1 : n_mul n_zero n_one = n_zero; mul_1_0 : n_mul n_one n_zero = n_zero; mul_0_0 : n_mul n_zero n_zero = n_zero;
  or_1_1 : n_sub (n_add n_one n_one) n_one = n_one; or_1_0 : n_sub (n_add n_one n_zero) n_zero = n_one;
  or_0_1 : n_sub (n_add n_zero n_one) n_zero = n_one; or_0_0 : n_sub (n_add n_zero n_zero) n_zero = n_zero;
  not_1 : n_sub n_one n_one = n_zero; not_0 : n_sub n_one n_zero = n_one;
  surely_1 : surely n_one = true; surely_0 : surely n_zero = false; never_0 : never n_zero = true }.
End Fuzzy.
