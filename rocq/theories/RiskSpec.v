(** How a number came about: expressions in the inputs (model parameters, then constant variables), and arithmetic on them. *)
From Coq Require Import Reals ZArith List Bool.
From Verif Require Import Base AadModel AadSpec AadRealSpec DomainSpec FuzzyModel FuzzyProps RiskHom ScriptModel.
Import ListNotations.
Open Scope R_scope.

Inductive sym := SIn (i : nat) | SCon (v : R) | SBin (o : bop) (a b : sym) | SUn (o : uop) (a : sym).
Section Sym.
Variables ncdf erfc : R -> R.
(** the value at the inputs [x] *)
Fixpoint den (x : nat -> R) (s : sym) : R :=
  match s with SIn i => x i | SCon v => v | SBin o a b => r_beval o (den x a) (den x b) | SUn o a => r_ueval ncdf erfc o (den x a) 0 end.
(** an operation applied to constants gives a constant *)
Definition mk_bin (o : bop) (a b : sym) : sym := match a, b with SCon u, SCon v => SCon (r_beval o u v) | _, _ => SBin o a b end.
Definition mk_fun (o : uop) (a : sym) : sym := match a with SCon u => SCon (r_ueval ncdf erfc o u 0) | _ => SUn o a end.
(** an operation with a double is the operation with a constant *)
Definition mk_un (o : uop) (a : sym) (d : R) : sym :=
  match o with
  | OPMultD => mk_bin OPMult a (SCon d) | OPAddD => mk_bin OPAdd a (SCon d) | OPSubDL => mk_bin OPSub (SCon d) a | OPSubDR => mk_bin OPSub a (SCon d)
  | OPDivDL => mk_bin OPDiv (SCon d) a | OPDivDR => mk_bin OPDiv a (SCon d) | OPPowDL => mk_bin OPPow (SCon d) a | OPPowDR => mk_bin OPPow a (SCon d)
  | OPMaxD => mk_bin OPMax a (SCon d) | OPMinD => mk_bin OPMin a (SCon d)
  | _ => mk_fun o a
  end.
(** the numbers a recorded program makes after those in [us] *)
Fixpoint sym_expr (us : list sym) (e : AadModel.expr R nat) : sym :=
  match e with AadModel.Num k => nth k us (SCon 0) | Bin o l r => mk_bin o (sym_expr us l) (sym_expr us r) | Un o a d => mk_un o (sym_expr us a) d end.
Definition sym_stmt (us : list sym) (s : AadModel.stmt R) : sym := match s with Input i => SIn i | Const v => SCon v | Expr e => sym_expr us e end.
Fixpoint numbers_of (p : list (AadModel.stmt R)) (us : list sym) : list sym :=
  match p with [] => us | s :: r => numbers_of r (us ++ [sym_stmt us s]) end.

(** * Arithmetic on these.  [T a b] decides whether [a] is less than [b]. *)
Definition SymNum (T : sym -> sym -> bool) : Num := {|
  num := sym; n_zero := SCon 0; n_thirty := SCon 30; n_add := mk_bin OPAdd; n_sub := mk_bin OPSub; n_mul := mk_bin OPMult; n_div := mk_bin OPDiv;
  n_pow := mk_bin OPPow; n_neg := mk_bin OPSub (SCon 0); n_log := mk_fun OPLog; n_sqrt := mk_fun OPSqrt; n_exp := mk_fun OPExp; n_ltb := T;
  eq0 := fun a => negb (T a (SCon 0)) && negb (T (SCon 0) a); gt0 := T (SCon 0); ge0 := fun a => negb (T a (SCon 0)); ge0_const := T (SCon (- r_eps)) |}.
Definition SymFuzzy (T : sym -> sym -> bool) : FuzzyNum (SymNum T) := @Build_FuzzyNum (SymNum T)
  (SCon 1) (SCon (1 / 2)) (mk_fun OPFabs) (fun a => T (SCon (1 - r_eps)) a) (fun a => T a (SCon r_eps)).
(** comparisons as they turn out at the inputs [x] *)
Definition less_at (x : nat -> R) (a b : sym) : bool := rltb (den x a) (den x b).
(** * The real numbers themselves (as C15 and C68 take them) *)
Definition RN : Num := RNum ln sqrt exp Rpower.
Definition RFuzzy : FuzzyNum RN := @Build_FuzzyNum RN 1 (1 / 2) Rabs (fun a => rltb (1 - r_eps) a) (fun a => rltb a r_eps).

(** * A task: scripts evaluated path after path.  A path is given by how its spots and numeraires came about. *)
Definition path := list (sym * sym).
Section Task.
Variables (defEps : R) (init : list R) (events : list (list (@stmt RN))) (rows : nat).
Variable consts : list sym.
(** the real evaluation at the inputs [x]: what the script pays on each path, as the fuzzy evaluator computes it *)
Definition real_path (x : nat -> R) (p : path) : list (@sample RN) := map (fun s => @Sample RN (den x (fst s)) (den x (snd s))) p.
Definition real_task (x : nat -> R) (ps : list path) : outcome (list (list R)) :=
  @fuzzy_simulate RN RFuzzy (map (den x) consts) defEps init events (map (real_path x) ps) (@fuzzy_new RN init rows).
(** the same evaluation of how the numbers come about *)
Definition sym_path (T : sym -> sym -> bool) (p : path) : list (@sample (SymNum T)) := map (fun s => @Sample (SymNum T) (fst s) (snd s)) p.
Definition sym_task (T : sym -> sym -> bool) (ps : list path) : outcome (list (list sym)) :=
  @fuzzy_simulate (SymNum T) (SymFuzzy T) consts (SCon defEps) (map SCon init) (@lift_events (SymNum T) RN SCon events) (map (sym_path T) ps)
    (@fuzzy_new (SymNum T) (map SCon init) rows).
(** the sum of the payoffs, 0 if the evaluation fails *)
Definition payoffs (at_ : nat) (r : outcome (list (list R))) : R :=
  match r with Ok l => fold_right Rplus 0 (map (fun vs => nth at_ vs 0) l) | _ => 0 end.
End Task.

(** ** What is recorded.  [pre] is the part of the tape up to the mark, and each path is recorded after it; [result] is the rank of the payoff. *)
Definition recorded (at_ : nat) (traces : list (list sym)) (pre : list (AadModel.stmt R)) (l : list (list (AadModel.stmt R) * nat)) : Prop :=
  map (fun vs => nth_error vs at_) traces = map (fun c => nth_error (numbers_of (fst c) (numbers_of pre [])) (snd c)) l.
(** what C32_paths asks of a recording: names refer back, room on the tape, results after the mark, and no operation at a point where it has no
    derivative *)
Definition proper (BD : nat) (x : nat -> R) (pre : list (AadModel.stmt R)) (l : list (list (AadModel.stmt R) * nat)) : Prop :=
  scoped pre 0 /\ leaves_fit BD pre /\ pre <> [] /\ smooth_program ncdf erfc x pre [] /\
  Forall (fun c => scoped (fst c) (length pre) /\ leaves_fit BD (fst c) /\ (length pre <= snd c < length pre + length (fst c))%nat /\
                   smooth_program ncdf erfc x (fst c) (r_values ncdf erfc x pre [])) l.
(** every input is put on the tape once, in order, before anything else *)
Definition starts_with_inputs (m : nat) (pre : list (AadModel.stmt R)) (l : list (list (AadModel.stmt R) * nat)) : Prop :=
  (exists rest, pre = map Input (seq 0 m) ++ rest /\ Forall (fun s => forall i, s <> Input i) rest) /\
  Forall (fun c => Forall (fun s => forall i, s <> Input i) (fst c)) l.
(** the comparisons made turn out the same when input [i] moves a little *)
Definition steady (x : nat -> R) (i : nat) (run : (sym -> sym -> bool) -> outcome (list (list sym))) : Prop :=
  exists d, 0 < d /\ forall y, Rabs (y - x i) < d -> run (less_at (with_input x i y)) = run (less_at x).

(** ** Comparisons that are not ties *)
Fixpoint smooth_sym (x : nat -> R) (s : sym) : Prop :=
  match s with
  | SIn _ | SCon _ => True
  | SBin o a b => smooth_sym x a /\ smooth_sym x b /\ b_smooth o (den x a) (den x b)
  | SUn o a => smooth_sym x a /\ u_smooth ncdf erfc o (den x a) 0
  end.
Definition clear_at (x : nat -> R) (p : sym * sym) : Prop := den x (fst p) <> den x (snd p) /\ smooth_sym x (fst p) /\ smooth_sym x (snd p).
(** the comparisons in [l] decide what the evaluation does *)
Definition decided_by (x : nat -> R) (l : list (sym * sym)) (run : (sym -> sym -> bool) -> outcome (list (list sym))) : Prop :=
  forall T, Forall (fun p => T (fst p) (snd p) = less_at x (fst p) (snd p)) l -> run T = run (less_at x).
End Sym.
