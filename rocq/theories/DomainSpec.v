(** What the domain analysis of a script has to respect: real numbers, exact comparisons, and the paths it assumes. *)
From Coq Require Import ZArith List Bool Reals Sorted.
From Verif Require Import Base StringModel ScriptModel ScriptSpec DomainModel.
Import ListNotations.
Local Open Scope R_scope.

Definition rltb (x y : R) : bool := if Rlt_dec x y then true else false.
Definition reqb (x y : R) : bool := if Req_EM_T x y then true else false.
Definition r_eps : R := 2 / 10 ^ 14. (** platform.hpp:55 *)
Definition r_inf : R := 10 ^ 29. (** platform.hpp:56 *)
(** The real numbers, with any functions in place of log, sqrt, exp and pow. *)
Definition RNum (f_log f_sqrt f_exp : R -> R) (f_pow : R -> R -> R) : Num := {|
  num := R; n_zero := 0; n_thirty := 30; n_add := Rplus; n_sub := Rminus; n_mul := Rmult; n_div := Rdiv; n_pow := f_pow;
  n_neg := Ropp; n_log := f_log; n_sqrt := f_sqrt; n_exp := f_exp; n_ltb := rltb;
  eq0 := fun x => reqb x 0; gt0 := rltb 0; ge0 := fun x => negb (rltb x 0); ge0_const := rltb (- r_eps) |}.

Section Real.
Variables (f_log f_sqrt f_exp : R -> R) (f_pow : R -> R -> R).
Local Notation RN := (RNum f_log f_sqrt f_exp f_pow).
(** * Exact comparison of bounds *)
Definition blt (a b : @bound RN) : bool :=
  match a, b with
  | MInf, MInf | PInf, _ | Fin _, MInf => false
  | MInf, _ | Fin _, PInf => true
  | Fin x, Fin y => rltb x y
  end.
Definition beq (a b : @bound RN) : bool := negb (blt a b) && negb (blt b a).
(** the analysis with every comparison exact *)
Definition exact_tests : DomNum RN :=
  @Build_DomNum RN 1 (/ 2) r_inf blt (fun a b => blt b a) beq
    (fun strict b => if strict then blt (Fin (0 : @num RN)) b else negb (blt b (Fin (0 : @num RN))))
    (fun strict b => if strict then blt b (Fin (0 : @num RN)) else negb (blt (Fin (0 : @num RN)) b))
    (fun b => beq b (Fin (0 : @num RN))).
(** the analysis of the code, on real numbers *)
Definition real_code_tests : DomNum RN := @code_tests RN 1 (/ 2) r_eps r_inf Rabs.

(** * What a domain stands for *)
Definition inI (x : R) (i : @interval RN) : Prop := blt (@Fin RN x) (ileft i) = false /\ blt (iright i) (@Fin RN x) = false.
Definition mem (x : R) (d : @domain RN) : Prop := Exists (inI x) d.
(** intervals with their ends in order, and domains of disjoint intervals in order *)
Definition valid (i : @interval RN) : Prop := blt (iright i) (ileft i) = false /\ ileft i <> PInf /\ iright i <> MInf.
Definition before (i j : @interval RN) : Prop := blt (iright i) (ileft j) = true.
Definition good (d : @domain RN) : Prop := Forall valid d /\ StronglySorted before d.
Definition dom_ok (d : @domain RN) : Prop := good d /\ d <> [].
(** the domains of the variables, and the states they allow *)
Definition doms_ok (vd : list (@domain RN)) : Prop := forall i d, vget vd i = Ok d -> dom_ok d.
Definition env_in (env : list R) (vd : list (@domain RN)) : Prop :=
  length env = length vd /\ forall i d, vget vd i = Ok d -> mem (@lookup RN env i) d.

(** * Paths inside the assumed domains: no division by zero, square roots and logarithms not negative, numeraires
    positive.  Only what is evaluated counts.  MAX and MIN have two arguments. *)
Section Inside.
  Variable past : bool.
  Variable smp : @sample RN.
  Fixpoint inside_expr (env : list R) (e : @expr RN) : Prop :=
    match e with
    | EBin _ op l r x => x = [] /\ inside_expr env l /\ inside_expr env r /\ (op = Div -> meaning past smp env r <> 0)
    | EUn _ op x => inside_expr env x /\ (op = Log -> 0 <= f_log (meaning past smp env x)) /\ (op = Sqrt -> 0 <= f_sqrt (meaning past smp env x))
    | _ => True
    end.
  Fixpoint inside_cond (env : list R) (c : @cond RN) : Prop :=
    match c with
    | CCmp _ _ _ e => inside_expr env e
    | CAnd _ a b => inside_cond env a /\ (truth past smp env a = true -> inside_cond env b)
    | COr _ a b => inside_cond env a /\ (truth past smp env a = false -> inside_cond env b)
    | CNot _ a => inside_cond env a
    | CTrue | CFalse => True
    end.
  Fixpoint inside (s : @stmt RN) (env : list R) : Prop :=
    let fix all (l : list stmt) (env : list R) : Prop := match l with [] => True | x :: r => inside x env /\ all r (exec past smp x env) end in
    match s with
    | SAssign _ e => inside_expr env e
    | SPays _ e => inside_expr env e /\ (past = false -> 0 < numeraire smp)
    | SIf _ _ c t e => inside_cond env c /\ if truth past smp env c then all t env else match e with None => True | Some l => all l env end
    | SCollect l => all l env
    end.
  Fixpoint inside_all (l : list (@stmt RN)) (env : list R) : Prop :=
    match l with [] => True | x :: r => inside x env /\ inside_all r (exec past smp x env) end.
End Inside.
(** past events, then the future ones on a path *)
Fixpoint inside_past (events : list (list (@stmt RN))) (env : list R) : Prop :=
  match events with [] => True | e :: r => inside_all true (@Sample RN 0 0) e env /\ inside_past r (exec_all true (@Sample RN 0 0) e env) end.
Fixpoint inside_future (events : list (list (@stmt RN))) (scenario : list (@sample RN)) (env : list R) : Prop :=
  match events, scenario with
  | e :: r, smp :: ss => inside_all false smp e env /\ inside_future r ss (exec_all false smp e env)
  | _, _ => True
  end.

(** * Scripts far from the tolerances: every bound is a multiple of 1/d of at most m, where 1/d is more than EPSILON = 2e-14
    and m at most 1e28, well below INF = 1e29.  [plain D M e d m]: if this holds of the variables with D and M, it holds of
    the expression with d and m.  Functions are only applied to SPOT(), and divisors are constants. *)
Definition room (d : Z) (m : R) : Prop := (0 < d)%Z /\ IZR d * r_eps < 1 /\ 0 <= m <= 10 ^ 28.
Definition on_grid (d : Z) (m v : R) : Prop := (exists z, v * IZR d = IZR z) /\ Rabs v <= m.
Inductive plain (D : Z) (M : R) : @expr RN -> Z -> R -> Prop :=
| plain_more e d m d' m' : plain D M e d m -> (d | d')%Z -> m <= m' -> room d' m' -> plain D M e d' m'
| plain_const v d m : room d m -> on_grid d m v -> plain D M (@EConst RN v) d m
| plain_cvar n i v d m : room d m -> on_grid d m v -> plain D M (@EConstVar RN n i v) d m
| plain_var a n i : room D M -> plain D M (@EVar RN a n i) D M
| plain_spot a d m : room d m -> plain D M (@ESpot RN a) d m
| plain_fun a b op d m : op = Log \/ op = Sqrt \/ op = Exp -> room d m -> plain D M (@EUn RN a op (@ESpot RN b)) d m
| plain_sign a op e d m : op = UPlus \/ op = UMinus -> plain D M e d m -> plain D M (@EUn RN a op e) d m
| plain_add a op l r d m1 m2 : op = Add \/ op = Sub -> plain D M l d m1 -> plain D M r d m2 -> room d (m1 + m2) -> plain D M (@EBin RN a op l r []) d (m1 + m2)
| plain_mul a l r d1 m1 d2 m2 : plain D M l d1 m1 -> plain D M r d2 m2 -> room (d1 * d2) (m1 * m2) -> plain D M (@EBin RN a Mul l r []) (d1 * d2) (m1 * m2)
| plain_div a l v d0 m0 d1 m1 d2 m2 : plain D M l d1 m1 -> v <> 0 -> room d0 m0 -> on_grid d0 m0 v -> room d2 m2 -> on_grid d2 m2 (1 / v) -> room (d1 * d2) (m1 * m2) ->
    plain D M (@EBin RN a Div l (@EConst RN v) []) (d1 * d2) (m1 * m2)
| plain_max a op l r d m : op = Max \/ op = Min -> plain D M l d m -> plain D M r d m -> plain D M (@EBin RN a op l r []) d m.
Fixpoint plain_cond (D : Z) (M : R) (c : @cond RN) : Prop :=
  match c with
  | CCmp _ _ _ e => exists d m, plain D M e d m
  | CAnd _ a b | COr _ a b => plain_cond D M a /\ plain_cond D M b
  | CNot _ a => plain_cond D M a
  | CTrue | CFalse => True
  end.
(** [plain_stmt D M s D' M']: likewise for the variables before and after a statement *)
Inductive plain_stmt : Z -> R -> @stmt RN -> Z -> R -> Prop :=
| plain_assign D M v e D' M' : (D | D')%Z -> M <= M' -> plain D M e D' M' -> plain_stmt D M (SAssign v e) D' M'
| plain_pays D M v e D' m : (D | D')%Z -> room D' M -> plain D M e D' m -> plain_stmt D M (SPays v e) D' M
| plain_if D M f af c t D1 M1 : plain_cond D M c -> plain_all D M t D1 M1 -> plain_stmt D M (SIf f af c t None) D1 M1
| plain_else D M f af c t D1 M1 l D2 M2 : plain_cond D M c -> plain_all D M t D1 M1 -> plain_all D1 M1 l D2 M2 -> plain_stmt D M (SIf f af c t (Some l)) D2 M2
| plain_collect D M l D1 M1 : plain_all D M l D1 M1 -> plain_stmt D M (SCollect l) D1 M1
with plain_all : Z -> R -> list (@stmt RN) -> Z -> R -> Prop :=
| plain_nil D M : room D M -> plain_all D M [] D M
| plain_cons D M s D1 M1 l D2 M2 : plain_stmt D M s D1 M1 -> plain_all D1 M1 l D2 M2 -> plain_all D M (s :: l) D2 M2.
Inductive plain_events : Z -> R -> list (list (@stmt RN)) -> Prop :=
| plain_enil D M : plain_events D M []
| plain_econs D M e D1 M1 l : plain_all D M e D1 M1 -> plain_events D1 M1 l -> plain_events D M (e :: l).
End Real.
