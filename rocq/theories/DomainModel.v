(** Model of the domain analysis of scripts (visitor/domain.hpp, visitor/domainproc.hpp) and of the removal of constant
    conditions (visitor/constcondprocessor.hpp). *)
From Coq Require Import ZArith List Bool.
From Verif Require Import Base StringModel ScriptModel.
Import ListNotations.
Open Scope Z_scope.

(** domain.hpp:24-40 Bound_: a number, or one of the flags isMinusInf_, isPlusInf_ *)
Inductive bound {N : Num} := MInf | Fin (v : num) | PInf.
Definition is_minus {N : Num} (b : bound) : bool := match b with MInf => true | _ => false end.
Definition is_plus {N : Num} (b : bound) : bool := match b with PInf => true | _ => false end.

(** What the analysis asks of bounds.  [code_tests] below is what the code does; the theorems also use exact tests. *)
Class DomNum (N : Num) := {
  d_one : num; d_half : num; d_inf : num;
  t_lt : bound -> bound -> bool; t_gt : bound -> bound -> bool; t_eq : bound -> bound -> bool;
  t_pos : bool -> bound -> bool; t_neg : bool -> bound -> bool; t_zero : bound -> bool }.

(** * The comparisons of the code *)
Section Tests.
Context {N : Num}.
Variables one half eps inf : num. (** EPSILON = 2e-14 and INF = 1e29, platform.hpp:55-56 *)
Variable abs : num -> num.
(** domain.hpp:38-40: the infinite bounds hold the numbers INF and -INF *)
Definition real (b : bound) : num := match b with MInf => n_neg inf | Fin v => v | PInf => inf end.
(** domain.hpp:81-83 *)
Definition code_eq (a b : bound) : bool := is_plus a && is_plus b || is_minus a && is_minus b || n_ltb (abs (n_sub (real a) (real b))) eps.
(** domain.hpp:87-89 *)
Definition code_lt (a b : bound) : bool := is_minus a && negb (is_minus b) || negb (is_plus a) && is_plus b || n_ltb (real a) (n_sub (real b) eps).
(** domain.hpp:91-93 *)
Definition code_gt (a b : bound) : bool := negb (is_minus a) && is_minus b || is_plus a && negb (is_plus b) || n_ltb (n_add (real b) eps) (real a).
(** domain.hpp:73-75 *)
Definition code_pos (strict : bool) (a : bound) : bool := is_plus a || n_ltb (if strict then eps else n_neg eps) (real a).
Definition code_neg (strict : bool) (a : bound) : bool := is_minus a || n_ltb (real a) (if strict then n_neg eps else eps).
Definition code_zero (a : bound) : bool := negb (is_plus a || is_minus a) && n_ltb (abs (real a)) eps.
Definition code_tests : DomNum N := {|
  d_one := one; d_half := half; d_inf := inf; t_lt := code_lt; t_gt := code_gt; t_eq := code_eq; t_pos := code_pos; t_neg := code_neg; t_zero := code_zero |}.
End Tests.

Section Domain.
Context {N : Num} {D : DomNum N}.
(** domain.hpp:78 Val() *)
Definition val (b : bound) : num := match b with MInf => n_neg d_inf | Fin v => v | PInf => d_inf end.
Definition infinite (b : bound) : bool := is_plus b || is_minus b.
(** domain.hpp:118-130: here 0 * inf = inf *)
Definition b_mul (a b : bound) : bound :=
  if infinite a || infinite b then
    if t_pos true a && t_pos true b || t_neg true a && t_neg true b then PInf
    else if t_zero a then b else if t_zero b then a else MInf
  else Fin (n_mul (val a) (val b)).
(** domain.hpp:133-140 *)
Definition b_neg (a : bound) : bound := match a with MInf => PInf | PInf => MInf | Fin v => Fin (n_neg v) end.

(** * Interval_ *)
Record interval := Interval { ileft : bound; iright : bound }.
(** domain.hpp:149 *)
Definition single (v : num) : interval := Interval (Fin v) (Fin v).
(** domain.hpp:152-154 "Inconsistent bounds" *)
Definition mk (l r : bound) : outcome interval :=
  if negb (t_eq l PInf) && negb (t_eq r MInf) && negb (t_gt l r) then Ok (Interval l r) else Throw.
Definition line : interval := Interval MInf PInf.
(** domain.hpp:167-176 *)
Definition is_infinite (i : interval) : bool := infinite (ileft i) || infinite (iright i).
Definition is_single (i : interval) : bool := negb (is_infinite i) && t_eq (ileft i) (iright i).
(** domain.hpp:178 *)
Definition is_zero (i : interval) : bool := is_single i && t_zero (ileft i).
(** domain.hpp:201-203 *)
Definition ilt (i j : interval) : bool := t_lt (ileft i) (ileft j) || t_eq (ileft i) (ileft j) && t_lt (iright i) (iright j).
(** domain.hpp:215-229 *)
Definition i_add (i j : interval) : outcome interval :=
  mk (if is_minus (ileft i) || is_minus (ileft j) then MInf else Fin (n_add (val (ileft i)) (val (ileft j))))
     (if is_plus (iright i) || is_plus (iright j) then PInf else Fin (n_add (val (iright i)) (val (iright j)))).
(** domain.hpp:237-240 *)
Definition i_neg (i : interval) : outcome interval := mk (b_neg (iright i)) (b_neg (ileft i)).
Definition i_sub (i j : interval) : outcome interval := do k <- i_neg j; i_add i k.
(** std::min_element and std::max_element: the first smallest, the first largest *)
Fixpoint min_of (m : bound) (l : list bound) : bound := match l with [] => m | x :: r => min_of (if t_lt x m then x else m) r end.
Fixpoint max_of (m : bound) (l : list bound) : bound := match l with [] => m | x :: r => max_of (if t_lt m x then x else m) r end.
(** domain.hpp:248-261 *)
Definition i_mul (i j : interval) : outcome interval :=
  if is_zero i || is_zero j then Ok (single n_zero)
  else let b0 := b_mul (iright i) (iright j) in let b1 := b_mul (iright i) (ileft j) in
       let b2 := b_mul (ileft i) (iright j) in let b3 := b_mul (ileft i) (ileft j) in
       mk (min_of b0 [b1; b2; b3]) (max_of b0 [b1; b2; b3]).
(** domain.hpp:264-300; inverting {0} throws "Division by {0}" *)
Definition inv (b : bound) : bound := Fin (n_div d_one (val b)).
Definition i_inv (i : interval) : outcome interval :=
  if is_zero i then Throw
  else if is_single i then Ok (single (n_div d_one (val (ileft i))))
  else if t_pos true (ileft i) || t_neg true (iright i) then
    if is_infinite i then
      if t_pos false (ileft i) then mk (Fin n_zero) (inv (ileft i)) else mk (inv (iright i)) (Fin n_zero)
    else mk (inv (iright i)) (inv (ileft i))
  else if t_zero (ileft i) || t_zero (iright i) then
    if is_infinite i then
      if t_pos false (ileft i) then mk (Fin n_zero) PInf else mk MInf (Fin n_zero)
    else if t_pos false (ileft i) then mk (inv (iright i)) PInf else mk MInf (inv (ileft i))
  else mk MInf PInf.
(** domain.hpp:303 *)
Definition i_div (i j : interval) : outcome interval := do k <- i_inv j; i_mul i k.
(** domain.hpp:306-328 *)
Definition i_min (i j : interval) : outcome interval :=
  mk (if t_lt (ileft j) (ileft i) then ileft j else ileft i) (if t_lt (iright j) (iright i) then iright j else iright i).
Definition i_max (i j : interval) : outcome interval :=
  mk (if t_gt (ileft j) (ileft i) then ileft j else ileft i) (if t_gt (iright j) (iright i) then iright j else iright i).
(** domain.hpp:371: left <= x and right >= x, where <= is "not >" and >= is "not <" *)
Definition i_includes (i : interval) (x : num) : bool := negb (t_gt (ileft i) (Fin x)) && negb (t_lt (iright i) (Fin x)).
(** domain.hpp:436-441 Merge *)
Definition i_merge (i j : interval) : interval :=
  Interval (if t_lt (ileft j) (ileft i) then ileft j else ileft i) (if t_gt (iright j) (iright i) then iright j else iright i).

(** * Domain_: std::set<Interval_>, as the list of its elements in order *)
Definition domain := list interval.
(** std::set::insert: nothing happens when an equivalent element is there.  Searches are modelled from the first element
    on; with comparisons that are no order (tolerances) the tree search of std::set may take another route. *)
Fixpoint set_ins (i : interval) (d : domain) : domain :=
  match d with [] => [i] | j :: r => if ilt j i then j :: set_ins i r else if ilt i j then i :: d else d end.
(** std::set::lower_bound: the elements before it, and the rest *)
Fixpoint span_lt (i : interval) (d : domain) : domain * domain :=
  match d with [] => ([], []) | j :: r => if ilt j i then let '(a, b) := span_lt i r in (j :: a, b) else ([], d) end.
(** domain.hpp:496-517: an interval of the domain that meets [i], with the rest of the domain *)
Definition hit (i : interval) (d : domain) : outcome (option (interval * domain)) :=
  match d with
  | [] => Ok None
  | first :: _ =>
      if t_gt (ileft first) (iright i) then Ok None
      else if t_lt (iright (last d first)) (ileft i) then Ok None
      else
        let '(a, b) := span_lt i d in
        let back := match rev a with [] => UB | j :: ra => Ok (j, rev ra ++ b) end in
        do p <- match b with [] => back | j :: b' => if t_gt (ileft j) (iright i) then back else Ok (j, a ++ b') end;
        if t_lt (iright (fst p)) (ileft i) then Ok None else Ok (Some p)
  end.
(** domain.hpp:470-541; each round removes one interval, so one more round than there are intervals is enough *)
Fixpoint add_rounds (fuel : nat) (i : interval) (d : domain) : outcome domain :=
  match fuel with
  | O => OutOfFuel
  | S f =>
      match d with
      | [] => Ok [i]
      | _ =>
          if is_minus (ileft i) && is_plus (iright i) then Ok [line]
          else do h <- hit i d;
               match h with None => Ok (set_ins i d) | Some (j, d') => add_rounds f (i_merge i j) d' end
      end
  end.
Definition add_interval (i : interval) (d : domain) : outcome domain := add_rounds (S (length d)) i d.
(** domain.hpp:543-546 *)
Fixpoint add_domain (d e : domain) : outcome domain :=
  match e with [] => Ok d | i :: r => do d' <- add_interval i d; add_domain d' r end.
Definition dom_of (v : num) : domain := [single v].
(** domain.hpp:582-593 GetSingletons: empty when some interval is not a single value *)
Fixpoint singles (d : domain) : option (list num) :=
  match d with [] => Some [] | i :: r => if is_single i then option_map (cons (val (ileft i))) (singles r) else None end.
Definition get_singles (d : domain) : list num := match singles d with Some l => l | None => [] end.
(** domain.hpp:674-740, 768-790: the results for all pairs of intervals, gathered *)
Fixpoint over_right (f : interval -> interval -> outcome interval) (i : interval) (e : domain) (acc : domain) : outcome domain :=
  match e with [] => Ok acc | j :: r => do k <- f i j; do acc' <- add_interval k acc; over_right f i r acc' end.
Fixpoint over_pairs (f : interval -> interval -> outcome interval) (d e : domain) (acc : domain) : outcome domain :=
  match d with [] => Ok acc | i :: r => do acc' <- over_right f i e acc; over_pairs f r e acc' end.
Definition lift2 (f : interval -> interval -> outcome interval) (d e : domain) : outcome domain := over_pairs f d e [].
Fixpoint over_all (f : interval -> outcome interval) (d acc : domain) : outcome domain :=
  match d with [] => Ok acc | i :: r => do k <- f i; do acc' <- add_interval k acc; over_all f r acc' end.
Definition lift1 (f : interval -> outcome interval) (d : domain) : outcome domain := over_all f d [].
(** domain.hpp:793-833 ApplyFunc and ApplyFunc2 (log, sqrt, exp and pow do not throw) *)
Fixpoint add_all (l : list num) (acc : domain) : outcome domain :=
  match l with [] => Ok acc | v :: r => do acc' <- add_interval (single v) acc; add_all r acc' end.
Definition apply1 (f : num -> num) (range : interval) (d : domain) : outcome domain :=
  match get_singles d with [] => Ok [range] | l => add_all (map f l) [] end.
Definition apply2 (f : num -> num -> num) (range : interval) (d e : domain) : outcome domain :=
  match get_singles d, get_singles e with
  | [], _ | _, [] => Ok [range]
  | l, m => add_all (flat_map (fun x => map (f x) m) l) []
  end.
(** domain.hpp:836-840, 849-885.  CanBePositive and CanBeNegative compare Val(), which for an infinite bound is 1e29 or
    -1e29: the same answer as Bound_::IsPositive and IsNegative. *)
Definition can_be_zero (d : domain) : bool := existsb (fun i => i_includes i n_zero) d.
Definition can_be_nonzero (d : domain) : bool := match d with [] => false | [i] => negb (is_zero i) | _ => true end.
Definition zero_is_discrete (d : domain) : bool := existsb is_zero d.
Definition can_be_positive (strict : bool) (d : domain) : bool := match d with [] => false | i :: _ => t_pos strict (iright (last d i)) end.
Definition can_be_negative (strict : bool) (d : domain) : bool := match d with [] => false | i :: _ => t_neg strict (ileft i) end.
(** domain.hpp:888-909, both with strict = true, the only use *)
Definition smallest_pos_lb (d : domain) : option num :=
  match d with
  | [] => None
  | i :: _ => if t_neg false (ileft (last d i)) then None
              else option_map (fun j => val (ileft j)) (find (fun j => negb (t_neg false (ileft j))) d)
  end.
Definition biggest_neg_rb (d : domain) : option num :=
  match d with
  | [] => None
  | i :: _ => if t_pos false (iright i) then None
              else option_map (fun j => val (iright j)) (find (fun j => negb (t_pos false (iright j))) (rev d))
  end.

(** * DomainProcessor_.  The two stacks of domains and verdicts are modelled by the recursion (their capacity, 128, is
    not); a constant variable on the left of an assignment, which the evaluators do not support, is not modelled. *)
Inductive verdict := AlwaysTrue | AlwaysFalse | TrueOrFalse.
Definition flags_of (v : verdict) : flags := match v with AlwaysTrue => Flags true false | AlwaysFalse => Flags false true | TrueOrFalse => Flags false false end.
Section Process.
  Variable fuzzy : bool.
  (** domainproc.hpp:79-162, 417-434.  MAX and MIN run through all their arguments from the last to the first. *)
  Fixpoint dom_expr (vd : list domain) (e : expr) : outcome domain :=
    match e with
    | EBin _ op l r x =>
        do dl <- dom_expr vd l; do dr <- dom_expr vd r;
        do dx <- (fix go (x : list expr) : outcome (list domain) :=
                    match x with [] => Ok [] | y :: ys => do d <- dom_expr vd y; do ds <- go ys; Ok (d :: ds) end) x;
        let fold f := match rev (dl :: dr :: dx) with [] => UB | d :: ds => fold_left (fun acc d => do a <- acc; lift2 f a d) ds (Ok d) end in
        match op with
        | Add => lift2 i_add dl dr
        | Sub => lift2 i_sub dl dr
        | Mul => lift2 i_mul dl dr
        | Div => lift2 i_div dl dr
        | Pow => apply2 n_pow line dl dr
        | Max => fold i_max
        | Min => fold i_min
        end
    | EUn _ op x =>
        do d <- dom_expr vd x;
        match op with
        | UPlus => Ok d
        | UMinus => lift1 i_neg d
        | Log => apply1 n_log (Interval (Fin n_zero) PInf) d
        | Sqrt => apply1 n_sqrt (Interval (Fin n_zero) PInf) d
        | Exp => apply1 n_exp line d
        end
    | ESpot _ => Ok [line]
    | EConst v => Ok (dom_of v)
    | EVar _ _ i => vget vd i
    | EConstVar _ _ v => Ok (dom_of v)
    end.
  (** domainproc.hpp:166-203 *)
  Definition judge_equal (d : domain) (z : fuzz) : verdict * fuzz :=
    if negb (can_be_zero d) then (AlwaysFalse, z)
    else if negb (can_be_nonzero d) then (AlwaysTrue, z)
    else (TrueOrFalse,
          if fuzzy then
            if zero_is_discrete d then
              Fuzz true (eps z) (match biggest_neg_rb d with Some v => v | None => n_neg d_half end)
                                (match smallest_pos_lb d with Some v => v | None => d_half end)
            else Fuzz false (eps z) (lb z) (rb z)
          else z).
  (** domainproc.hpp:225-272 *)
  Definition judge_sup (strict : bool) (d : domain) (z : fuzz) : verdict * fuzz :=
    if negb (can_be_positive strict d) then (AlwaysFalse, z)
    else if negb (can_be_negative (negb strict) d) then (AlwaysTrue, z)
    else (TrueOrFalse,
          if fuzzy then
            let disc := negb (can_be_zero d) || zero_is_discrete d in
            if disc then
              let up old := match smallest_pos_lb d with Some v => v | None => old end in
              let down old := match biggest_neg_rb d with Some v => v | None => old end in
              if negb (can_be_zero d) then Fuzz true (eps z) (down (lb z)) (up (rb z))
              else if strict then Fuzz true (eps z) n_zero (up (rb z)) else Fuzz true (eps z) (down (lb z)) n_zero
            else Fuzz false (eps z) (lb z) (rb z)
          else z).
  Definition judge (op : cmp) (d : domain) (z : fuzz) : verdict * fuzz :=
    match op with Equal => judge_equal d z | Sup => judge_sup true d z | SupEqual => judge_sup false d z end.
  (** domainproc.hpp:205-222, 278-317; nothing is pushed for the nodes true and false, so the next read finds no verdict *)
  Definition v_not (v : verdict) : verdict := match v with AlwaysTrue => AlwaysFalse | AlwaysFalse => AlwaysTrue | TrueOrFalse => TrueOrFalse end.
  Definition v_and (v w : verdict) : verdict :=
    match v, w with AlwaysTrue, AlwaysTrue => AlwaysTrue | AlwaysFalse, _ | _, AlwaysFalse => AlwaysFalse | _, _ => TrueOrFalse end.
  Definition v_or (v w : verdict) : verdict :=
    match v, w with AlwaysTrue, _ | _, AlwaysTrue => AlwaysTrue | AlwaysFalse, AlwaysFalse => AlwaysFalse | _, _ => TrueOrFalse end.
  Fixpoint dom_cond (vd : list domain) (c : cond) : outcome (verdict * cond) :=
    match c with
    | CCmp _ op z e => do d <- dom_expr vd e; let '(v, z') := judge op d z in Ok (v, CCmp (flags_of v) op z' e)
    | CAnd _ a b => do p <- dom_cond vd a; do q <- dom_cond vd b; let v := v_and (fst p) (fst q) in Ok (v, CAnd (flags_of v) (snd p) (snd q))
    | COr _ a b => do p <- dom_cond vd a; do q <- dom_cond vd b; let v := v_or (fst p) (fst q) in Ok (v, COr (flags_of v) (snd p) (snd q))
    | CNot _ a => do p <- dom_cond vd a; let v := v_not (fst p) in Ok (v, CNot (flags_of v) (snd p))
    | CTrue | CFalse => UB
    end.
  (** domainproc.hpp:347-372: the domains of the affected variables put back, and merged *)
  Fixpoint restore (af : list Z) (old new : list domain) : outcome (list domain) :=
    match af with [] => Ok new | i :: r => do d <- vget old i; do new' <- vput new i d; restore r old new' end.
  Fixpoint merge_in (af : list Z) (stored cur : list domain) : outcome (list domain) :=
    match af with
    | [] => Ok cur
    | i :: r => do d <- vget cur i; do e <- vget stored i; do m <- add_domain d e; do cur' <- vput cur i m; merge_in r stored cur'
    end.
  (** domainproc.hpp:320-414 *)
  Fixpoint dom_stmt (st : stmt) (vd : list domain) : outcome (list domain * stmt) :=
    let fix all (l : list stmt) (vd : list domain) : outcome (list domain * list stmt) :=
      match l with [] => Ok (vd, []) | x :: r => do p <- dom_stmt x vd; do q <- all r (fst p); Ok (fst q, snd p :: snd q) end in
    match st with
    | SAssign (LVar a n i) e => do d <- dom_expr vd e; do vd' <- vput vd i d; Ok (vd', SAssign (LVar a n i) e)
    | SPays (LVar a n i) e =>
        do d <- dom_expr vd e; do pay <- lift2 i_div d [Interval (Fin n_zero) PInf];
        do old <- vget vd i; do sum <- lift2 i_add old pay; do vd' <- vput vd i sum; Ok (vd', SPays (LVar a n i) e)
    | SAssign (LConst _ _ _) _ | SPays (LConst _ _ _) _ => UB
    | SIf _ af c t e =>
        do p <- dom_cond vd c;
        let '(v, c') := p in
        match v with
        | AlwaysTrue => do q <- all t vd; Ok (fst q, SIf (flags_of v) af c' (snd q) e)
        | AlwaysFalse =>
            match e with
            | None => Ok (vd, SIf (flags_of v) af c' t None)
            | Some l => do q <- all l vd; Ok (fst q, SIf (flags_of v) af c' t (Some (snd q)))
            end
        | TrueOrFalse =>
            do q <- all t vd;
            do vd0 <- restore af vd (fst q);
            match e with
            | None => do vd2 <- merge_in af (fst q) vd0; Ok (vd2, SIf (flags_of v) af c' (snd q) None)
            | Some l => do q2 <- all l vd0; do vd2 <- merge_in af (fst q) (fst q2); Ok (vd2, SIf (flags_of v) af c' (snd q) (Some (snd q2)))
            end
        end
    | SCollect l => do q <- all l vd; Ok (fst q, SCollect (snd q))
    end.
  Fixpoint dom_all (l : list stmt) (vd : list domain) : outcome (list domain * list stmt) :=
    match l with [] => Ok (vd, []) | x :: r => do p <- dom_stmt x vd; do q <- dom_all r (fst p); Ok (fst q, snd p :: snd q) end.
  (** event.cpp:116-119, event.hpp: one processor for the past and the future events, in this order *)
  Fixpoint dom_events (l : list (list stmt)) (vd : list domain) : outcome (list domain * list (list stmt)) :=
    match l with [] => Ok (vd, []) | x :: r => do p <- dom_all x vd; do q <- dom_events r (fst p); Ok (fst q, snd p :: snd q) end.
  (** domainproc.hpp:66-67 *)
  Definition dom_init (nvars : nat) : list domain := repeat (dom_of n_zero) nvars.
End Process.

(** * ConstCondProcessor_ (constcondprocessor.hpp:45-105) *)
Definition cond_flags (c : cond) : flags :=
  match c with CCmp f _ _ _ | CAnd f _ _ | COr f _ _ | CNot f _ => f | CTrue | CFalse => Flags false false end.
Fixpoint cc_cond (c : cond) : cond :=
  let f := cond_flags c in
  if alwaysTrue f then CTrue else if alwaysFalse f then CFalse
  else match c with
       | CCmp _ _ _ _ | CTrue | CFalse => c
       | CAnd f a b => CAnd f (cc_cond a) (cc_cond b)
       | COr f a b => COr f (cc_cond a) (cc_cond b)
       | CNot f a => CNot f (cc_cond a)
       end.
Fixpoint cc_stmt (s : stmt) : stmt :=
  match s with
  | SAssign _ _ | SPays _ _ => s
  | SIf f af c t e =>
      if alwaysTrue f then SCollect (map cc_stmt t)
      else if alwaysFalse f then SCollect match e with None => [] | Some l => map cc_stmt l end
      else SIf f af (cc_cond c) (map cc_stmt t) (option_map (map cc_stmt) e)
  | SCollect l => SCollect (map cc_stmt l)
  end.
Definition cc_events (l : list (list stmt)) : list (list stmt) := map (map cc_stmt) l.
End Domain.
