(** Model of the simulation part of dal/model/dupire.hpp over the real numbers (AAD numbers are treated as their values). *)
From Coq Require Import Reals ZArith List Arith Bool.
From Verif Require Import Base Vec DateTimeModel InterpModel FillModel BsModel.
Import ListNotations.
Local Open Scope R_scope.

(** math/aad/sample.hpp:30-35 *)
Record dsample := { d_spot : R; d_numeraire : R; d_discounts : list R; d_forwards : list (list R) }.
(** math/aad/sample.hpp:15-28: whether the numeraire is wanted, and the maturities of the discounts *)
Record ddef := { w_numeraire : bool; w_discounts : list R }.
(** model/dupire.hpp:37-45; vols has one row for each spot (simplified: rows beyond the spots are not ignored) *)
Record dupire := { u_spot : R; u_r : R; u_q : R; u_spots : list R; u_times : list R; u_vols : list (list R); u_max_dt : R }.
(** model/dupire.hpp:46-52 *)
Record dstate := { v_timeline : list R; v_common : list bool; v_vols : list (list R); v_drifts : list R;
                   v_numeraires : list R; v_discounts : list (list R) }.
(** model/dupire.hpp:18 *)
Definition half_day : R := 136986301369863 / 10 ^ 17.
Fixpoint mapm {A B} (f : A -> outcome B) (l : list A) : outcome (list B) :=
  match l with [] => Ok [] | x :: r => do y <- f x; do s <- mapm f r; Ok (y :: s) end.
(** std::binary_search on an ascending vector: the first entry not below t is not above it *)
Definition binary_search (l : list R) (t : R) : bool :=
  match nth_error l (lower_bound l t) with Some y => if Rlt_dec t y then false else true | None => false end.
(** model/dupire.hpp:102-116 Allocate: the timeline and which of its times are product dates; resized tables *)
Definition dallocate (fuel : nat) (m : dupire) (st : dstate) (times : list R) : outcome dstate :=
  do tl <- fill_data (A := RealArith) fuel times (u_max_dt m) half_day [0];
  Ok {| v_timeline := tl; v_common := map (binary_search times) tl; v_vols := v_vols st; v_drifts := v_drifts st;
        v_numeraires := resize (v_numeraires st) (length times); v_discounts := v_discounts st |}.
(** model/dupire.hpp:121-128: the steps, their drifts and, for each spot of the surface, their volatilities *)
Fixpoint init_rows (m : dupire) (tl : list R) : outcome (list R * list (list R)) :=
  match tl with
  | t0 :: ((t1 :: _) as rest) =>
      let dt := t1 - t0 in
      do row <- mapm (fun r => do v <- interp_linear (u_times m) r t0; Ok (sqrt dt * v)) (u_vols m);
      do more <- init_rows m rest;
      Ok (dt * (u_r m - u_q m) :: fst more, row :: snd more)
  | _ => Ok ([], [])
  end.
(** model/dupire.hpp:118-139 Init; every entry of the tables is assigned, except numeraires not asked for *)
Definition dinit (m : dupire) (times : list R) (defs : list ddef) (st : dstate) : outcome dstate :=
  do rows <- init_rows m (v_timeline st);
  do ns <- loop (length times) 0 (init_numeraire (u_r m) times (map w_numeraire defs)) (v_numeraires st);
  Ok {| v_timeline := v_timeline st; v_common := v_common st; v_vols := snd rows; v_drifts := fst rows; v_numeraires := ns;
        v_discounts := map (fun e => map (fun T => exp (- u_r m * (T - fst e))) (w_discounts (snd e))) (combine times defs) |}.
(** model/dupire.hpp:178-184 FillScenario on entry idx of the path: front() of no forwards is undefined, and discounts
    of another size throw (utilities/algorithms.hpp:47-50) *)
Definition dfill (st : dstate) (defs : list ddef) (idx : nat) (spot : R) (path : list dsample) : outcome (list dsample) :=
  do old <- get path idx; do d <- get defs idx;
  do n <- (if w_numeraire d then get (v_numeraires st) idx else Ok (d_numeraire old));
  match d_forwards old with
  | [] => UB
  | f :: fs =>
      do ds <- get (v_discounts st) idx;
      if (length ds =? length (d_discounts old))%nat then
        put path idx {| d_spot := spot; d_numeraire := n; d_discounts := ds; d_forwards := map (fun _ => spot) f :: fs |}
      else Throw
  end.
(** model/dupire.hpp:153-160 one step *)
Definition dpath_step (m : dupire) (defs : list ddef) (st : dstate) (gauss : list R) (i : nat) (s : nat * R * list dsample) : outcome (nat * R * list dsample) :=
  let '(idx, log_spot, path) := s in
  do row <- get (v_vols st) i;
  do vol <- interp_linear (map ln (u_spots m)) row log_spot;
  do d <- get (v_drifts st) i; do g <- get gauss i;
  let l := log_spot + (d + vol * (- (1/2) * vol + g)) in
  do c <- get (v_common st) (S i);
  if (c : bool) then do p <- dfill st defs idx (exp l) path; Ok (S idx, l, p) else Ok (idx, l, path).
(** model/dupire.hpp:143-161 GeneratePath *)
Definition dgenerate (m : dupire) (defs : list ddef) (st : dstate) (gauss : list R) (path : list dsample) : outcome (list dsample) :=
  let l := ln (u_spot m) in
  do c <- get (v_common st) 0;
  do s0 <- (if (c : bool) then do p <- dfill st defs 0 (exp l) path; Ok (1%nat, p) else Ok (O, path));
  do r <- loop (length (v_timeline st) - 1) 0 (dpath_step m defs st gauss) (fst s0, l, snd s0);
  Ok (snd r).
(** script/simulation.hpp:80-81, :132; the number is SimDim (model/dupire.hpp:141) *)
Definition dsimulate (fuel : nat) (m : dupire) (st : dstate) (times : list R) (defs : list ddef) (gauss : list R) (path : list dsample) : outcome (list R * nat * list dsample) :=
  do st1 <- dallocate fuel m st times;
  do st2 <- dinit m times defs st1;
  do p <- dgenerate m defs st2 gauss path;
  Ok (v_timeline st2, (length (v_timeline st2) - 1)%nat, p).
