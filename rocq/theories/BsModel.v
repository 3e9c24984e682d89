(** Model of dal/model/blackscholes.hpp over the real numbers (AAD numbers are treated as their values). *)
From Coq Require Import Reals List Arith Bool.
From Verif Require Import Base Vec.
Import ListNotations.
Local Open Scope R_scope.

(** math/aad/sample.hpp:30-35 the part of a sample these models fill *)
Record sample := { s_spot : R; s_numeraire : R }.
(** model/blackscholes.hpp:27-30 *)
Record bs := { b_spot : R; b_vol : R; b_rate : R; b_div : R }.
(** model/blackscholes.hpp:32-38 *)
Record state := { timeline : list R; today : bool; stds : list R; drifts : list R; numeraires : list R }.
(** math/vectors.hpp Vector_::Resize: what fits is kept, new entries are 0 *)
Definition resize (l : list R) (n : nat) : list R := firstn n l ++ repeat 0 (n - length l).
(** for (size_t i = first; i < first + n; ++i) *)
Fixpoint loop {T} (n first : nat) (body : nat -> T -> outcome T) (s : T) : outcome T :=
  match n with O => Ok s | S k => do s' <- body first s; loop k (S first) body s' end.
(** model/blackscholes.hpp:89-106 Allocate; reading the first of no times is undefined *)
Definition allocate (st : state) (times : list R) : outcome state :=
  let tl := 0 :: filter (fun t => if Rlt_dec 0 t then true else false) times in
  do t0 <- get times 0;
  Ok {| timeline := tl; today := if Req_EM_T t0 0 then true else false;
        stds := resize (stds st) (length tl - 1); drifts := resize (drifts st) (length tl - 1);
        numeraires := resize (numeraires st) (length times) |}.
(** model/blackscholes.hpp:112-117 one step of the first loop of Init (the square root of a negative number, which is
    NaN, is 0 here) *)
Definition init_step (m : bs) (i : nat) (st : state) : outcome state :=
  do t1 <- get (timeline st) (S i); do t0 <- get (timeline st) i;
  let dt := t1 - t0 in
  do ss <- put (stds st) i (b_vol m * sqrt dt);
  do ds <- put (drifts st) i ((b_rate m - b_div m - 1/2 * b_vol m * b_vol m) * dt);
  Ok {| timeline := timeline st; today := today st; stds := ss; drifts := ds; numeraires := numeraires st |}.
(** model/blackscholes.hpp:120-122; a definition is here its numeraire_ flag *)
Definition init_numeraire (rate : R) (times : list R) (defs : list bool) (i : nat) (ns : list R) : outcome (list R) :=
  do d <- get defs i;
  if (d : bool) then do t <- get times i; put ns i (exp (rate * t)) else Ok ns.
(** model/blackscholes.hpp:108-123 Init *)
Definition init (m : bs) (times : list R) (defs : list bool) (st : state) : outcome state :=
  do st1 <- loop (length (timeline st) - 1) 0 (init_step m) st;
  do ns <- loop (length times) 0 (init_numeraire (b_rate m) times defs) (numeraires st1);
  Ok {| timeline := timeline st1; today := today st1; stds := stds st1; drifts := drifts st1; numeraires := ns |}.
(** model/blackscholes.hpp:125 SimDim *)
Definition sim_dim (st : state) : nat := length (timeline st) - 1.
(** model/blackscholes.hpp:50-54 FillScenario on entry idx of the path *)
Definition fill_scenario (ns : list R) (defs : list bool) (idx : nat) (spot : R) (path : list sample) : outcome (list sample) :=
  do old <- get path idx; do d <- get defs idx;
  do n <- (if (d : bool) then get ns idx else Ok (s_numeraire old));
  put path idx {| s_spot := spot; s_numeraire := n |}.
(** model/blackscholes.hpp:137-141 one step of the loop over the idx, the logarithm of the spot and the path *)
Definition path_step (defs : list bool) (st : state) (gauss : list R) (i : nat) (s : nat * R * list sample) : outcome (nat * R * list sample) :=
  let '(idx, log_spot, path) := s in
  do d <- get (drifts st) i; do sd <- get (stds st) i; do g <- get gauss i;
  let l := log_spot + (d + sd * g) in
  do p <- fill_scenario (numeraires st) defs idx (exp l) path;
  Ok (S idx, l, p).
(** model/blackscholes.hpp:127-142 GeneratePath *)
Definition generate_path (m : bs) (defs : list bool) (st : state) (gauss : list R) (path : list sample) : outcome (list sample) :=
  do s0 <- (if today st then do p <- fill_scenario (numeraires st) defs 0 (b_spot m) path; Ok (1%nat, p) else Ok (O, path));
  let '(idx, p) := s0 in
  do r <- loop (sim_dim st) 0 (path_step defs st gauss) (idx, ln (b_spot m), p);
  Ok (snd r).
(** script/simulation.hpp:80-81, :132 what a simulation does with a model: Allocate and Init once, then a path *)
Definition simulate (m : bs) (st : state) (times : list R) (defs : list bool) (gauss : list R) (path : list sample) : outcome (nat * list sample) :=
  do st1 <- allocate st times;
  do st2 <- init m times defs st1;
  do p <- generate_path m defs st2 gauss path;
  Ok (sim_dim st2, p).
