(** What the auditors should do, said with a page for each auditor on which entries are written in order of time. *)
From Coq Require Import List Bool.
From Verif Require Import Base StringModel StringSpec AuditModel.
Import ListNotations.

Record page := Page { p_mode : option mode; p_log : list (str * handle) }.
Definition blank : page := Page None [].
(** the objects written under a key, in order of time; upper and lower case are the same in keys *)
Definition told (key : str) (log : list (str * handle)) : list handle := map snd (filter (fun p => ci_eqb (fst p) key) log).
Definition others (key : str) (log : list (str * handle)) := filter (fun p => negb (ci_eqb (fst p) key)) log.
(** one more entry: an exclusive reader keeps only the latest under each key *)
Definition jot (p : page) (key : str) (v : handle) : page :=
  match p_mode p with
  | Some READING => Page (p_mode p) (p_log p ++ [(key, v)])
  | Some READING_EXCLUSIVE => Page (p_mode p) (others key (p_log p) ++ [(key, v)])
  | _ => p
  end.
Definition reading (m : option mode) : Prop := m = Some READING \/ m = Some READING_EXCLUSIVE.
Definition readingb (m : option mode) : bool := match m with Some READING | Some READING_EXCLUSIVE => true | _ => false end.
Fixpoint at_page (ps : list page) (i : nat) (f : page -> page) : list page :=
  match ps, i with [], _ => [] | p :: r, O => f p :: r | p :: r, S j => p :: at_page r j f end.
Definition mode_of (ps : list page) (i : nat) : option mode := match nth_error ps i with Some p => p_mode p | None => None end.
(** the auditors an object is shown to: those of the environment up to the first that is not reading *)
Fixpoint reached (ps : list page) (e : env) : list nat :=
  match e with
  | [] => []
  | EOther :: r => reached ps r
  | EAuditor i :: r => if readingb (mode_of ps i) then i :: reached ps r else []
  end.
Definition after1 (ps : list page) (x : event) : list page :=
  match x with
  | Make => ps ++ [blank]
  | SetMode i m => at_page ps i (fun p => Page (Some m) (p_log p))
  | Show e key v => fold_left (fun q i => at_page q i (fun p => jot p key v)) (reached ps e) ps
  | Ask _ _ _ _ => ps
  end.
(** the pages after a history *)
Definition after (xs : list event) : list page := fold_left after1 xs [].

(** the auditors of an environment, in order *)
Fixpoint auditors_of (e : env) : list nat :=
  match e with [] => [] | EOther :: r => auditors_of r | EAuditor i :: r => i :: auditors_of r end.
(** what an auditor shows of a key: nothing unless it is showing *)
Definition shows (key : str) (p : page) : list handle := match p_mode p with Some SHOWING => told key (p_log p) | _ => [] end.
(** the objects of type T_ that the auditors of the environment show under the key, in order *)
Definition shown (is_T : nat -> bool) (ps : list page) (e : env) (key : str) : list nat :=
  flat_map (fun i => match nth_error ps i with
                     | Some p => flat_map (fun h => match h with Some x => if is_T x then [x] else [] | None => [] end) (shows key p)
                     | None => [] end) (auditors_of e).
(** the auditors of an environment all exist and have been given a mode *)
Definition set_up (ps : list page) (e : env) : Prop := forall i, In i (auditors_of e) -> exists m, mode_of ps i = Some m.
(** an earlier question has reached an auditor, or the first auditor of the environment has something in its bag *)
Definition warm (w : world) (ps : list page) (e : env) : Prop :=
  w_second w = true \/ match auditors_of e with [] => True | i :: _ => exists p, nth_error ps i = Some p /\ p_log p <> [] end.
