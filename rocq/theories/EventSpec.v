(** Specification of the event timeline of a script product. *)
From Coq Require Import String Ascii ZArith List Bool Sorted Permutation.
From Verif Require Import Base DateModel StringModel StringSpec EventModel.
Import ListNotations.
Open Scope Z_scope.

(** Replacing a name everywhere: reading from the left, every occurrence of the name (in any letter case) gives the value,
    every other character is kept. *)
Inductive replaced (name value : str) : str -> str -> Prop :=
| rep_end : replaced name value [] []
| rep_hit o t t' : same_up_to_case name o -> replaced name value t t' -> replaced name value (o ++ t) (value ++ t')
| rep_keep c t t' : (forall o u, c :: t = o ++ u -> ~ same_up_to_case name o) -> replaced name value t t' ->
    replaced name value (c :: t) (c :: t').
(** Macros one after the other. *)
Inductive expanded : list (str * str) -> str -> str -> Prop :=
| exp_none t : expanded [] t t
| exp_one n v ms t u w : replaced n v t u -> expanded ms u w -> expanded ((n, v) :: ms) t w.

Definition is_schedule (desc : str) : Prop := In ":"%char desc.
(** The definitions among the rows, in the order written. *)
Definition is_definition (r : row) : bool := match r with Dated _ _ => false | Named d _ => negb (existsb (Ascii.eqb ":"%char) d) end.
Definition text_of (r : row) : str := match r with Dated _ t => t | Named _ t => t end.
Definition name_of (r : row) : str := match r with Dated _ _ => [] | Named d _ => d end.
Definition macro_rows {N} (number : str -> option N) (rows : list row) : list (str * str) :=
  flat_map (fun r => if is_definition r then match number (text_of r) with None => [(name_of r, text_of r)] | Some _ => [] end else []) rows.
Definition const_rows {N} (number : str -> option N) (rows : list row) : list (str * N) :=
  flat_map (fun r => if is_definition r then match number (text_of r) with None => [] | Some v => [(name_of r, v)] end else []) rows.
(** The names in increasing order, all different up to letter case. *)
Definition arranged {A} (sorted_ given : list (str * A)) : Prop :=
  Permutation sorted_ given /\ StronglySorted (fun p q => ci_compare (fst p) (fst q) = Lt) sorted_.

(** The dated statements that the rows stand for, in the order written: a row with a date is one statement, a schedule one
    statement per period, at the fixing date of the period. *)
Inductive entries (sched : str -> list (Z * Z * Z) -> Prop) (ms : list (str * str)) : list row -> list (Z * str) -> Prop :=
| ent_none : entries sched ms [] []
| ent_dated d t t' rs es : expanded ms t t' -> entries sched ms rs es -> entries sched ms (Dated d t :: rs) ((d, t') :: es)
| ent_schedule desc t t' ps es1 rs es : is_schedule desc -> sched desc ps -> expanded ms t t' ->
    Forall2 (fun (p : Z * Z * Z) (e : Z * str) => let '(s, f, fix_) := p in fst e = fix_ /\
      expanded [(lit "PeriodBegin", lit (to_string s)); (lit "PeriodEnd", lit (to_string f))] t' (snd e)) ps es1 ->
    entries sched ms rs es -> entries sched ms (Named desc t :: rs) (es1 ++ es)
| ent_definition desc t rs es : ~ is_schedule desc -> entries sched ms rs es -> entries sched ms (Named desc t :: rs) es.

(** The statements of one date, in the order written. *)
Definition texts_on (d : Z) (es : list (Z * str)) : list str := map snd (filter (fun e => fst e =? d) es).

(** [past] and [future] are the timeline of the statements [es] as seen from [eval_date]. *)
Record timeline_of {Prog} (parse : str -> outcome Prog) (eval_date : Z) (es : list (Z * str)) (past future : list (Z * Prog)) : Prop := {
  in_order : StronglySorted Z.lt (map fst (past ++ future));
  past_is_past : Forall (fun e => fst e < eval_date) past;
  future_is_not : Forall (fun e => eval_date <= fst e) future;
  every_date : forall d, In d (map fst (past ++ future)) <-> In d (map fst es);
  programs : forall d p, In (d, p) (past ++ future) -> parse (join "010"%char (texts_on d es)) = Ok p }.
