(** Model of dal/math/rootfind.hpp and rootfind.cpp over the real numbers. *)
From Coq Require Import Reals List Bool.
From Verif Require Import Base.
Import ListNotations.
Open Scope R_scope.

Definition rltb (x y : R) : bool := if Rlt_dec x y then true else false.
Definition rleb (x y : R) : bool := if Rle_dec x y then true else false.
Definition reqb (x y : R) : bool := if Req_EM_T x y then true else false.
(** The double d_: not yet written, not a number, or a number. *)
Inductive slot := Unset | NotANumber | Val (x : R).
(** rootfind.hpp:28-32 BracketedBrent_; a point is abscissa and value *)
Record brent := Brent { pa : R * R; pb : R * R; pc : R * R; tol : R; bisect : bool; slot_d : slot }.
(** rootfind.cpp:18-26 Initialize, for an object whose d_ is dd *)
Definition initialize (t : R) (dd : slot) (low high : R * R) : outcome brent :=
  if rleb (snd low * snd high) 0 then
    let '(a, b) := if rltb (Rabs (snd low)) (Rabs (snd high)) then (high, low) else (low, high) in
    Ok (Brent a b a t true dd)
  else Throw.
(** rootfind.cpp:11-16: the public constructor does not write d_ *)
Definition new_brent (low high : R * R) (t : R) : outcome brent := initialize t Unset low high.
(** A quotient of doubles.  A zero denominator occurs below only with a zero numerator (both end values
    zero), where the result is not a number. *)
Definition quotient (x y : R) : option R := if reqb y 0 then None else Some (x / y).
(** rootfind.cpp:29-36: the interpolated point *)
Definition interpolated (s : brent) : option R :=
  let '(ax, ay) := pa s in let '(bx, by_) := pb s in let '(cx, cy) := pc s in
  if negb (reqb cy ay) && negb (reqb cy by_) then
    match quotient (ax * by_ * cy) ((ay - by_) * (ay - cy)), quotient (bx * ay * cy) ((by_ - ay) * (by_ - cy)), quotient (cx * ay * by_) ((cy - ay) * (cy - by_)) with
    | Some u, Some v, Some w => Some (u + v + w)
    | _, _, _ => None
    end
  else quotient (ax * by_ - bx * ay) (by_ - ay).
(** rootfind.cpp:28-46 NextX: the proposal and the state afterwards.  Comparisons with not-a-number are false. *)
Definition next_x (s : brent) : outcome (slot * brent) :=
  let ax := fst (pa s) in let bx := fst (pb s) in let cx := fst (pc s) in
  do dist <- (if bisect s then Ok (Some (Rabs (cx - bx)))
              else match slot_d s with Unset => UB | NotANumber => Ok None | Val d => Ok (Some (Rabs (cx - d))) end);
  let close := match dist with Some c => rltb c (tol s) | None => false end in
  let p := interpolated s in
  let bis := match p with
             | Some x => rleb 0 ((x - bx) * (x - 3 / 4 * ax - 1 / 4 * bx)) || match dist with Some c => rltb (1 / 2 * c) (Rabs (x - bx)) | None => false end || close
             | None => close
             end in
  let d := if bis then Val (1 / 2 * (ax + bx)) else match p with Some x => Val x | None => NotANumber end in
  Ok (d, Brent (pa s) (pb s) (pc s) (tol s) bis d).
(** rootfind.cpp:48-59 PutY.  The model stops when the abscissa is not a number. *)
Definition put_y (s : brent) (y : R) : outcome brent :=
  match slot_d s with
  | Val x =>
    let '(a, b) := if rltb 0 (y * snd (pa s)) then ((x, y), pb s) else (pa s, (x, y)) in
    let '(a', b') := if rltb (Rabs (snd a)) (Rabs (snd b)) then (b, a) else (a, b) in
    Ok (Brent a' b' (pb s) (tol s) (bisect s) (Val (fst (pc s))))
  | _ => UB
  end.
(** rootfind.hpp:44 BracketWidth *)
Definition width (s : brent) : R := Rabs (fst (pa s) - fst (pb s)).
(** one round of a search: a proposal is asked for and the function value is reported *)
Definition round (s : brent) (f : R -> R) : outcome brent :=
  do (x, s1) <- next_x s; match x with Val x => put_y s1 (f x) | _ => UB end.

(** rootfind.hpp:47-59 Brent_.  BracketWidth is infinite before the bracket is found; the known point before the
    first value, which nobody reads, is left out.  The private constructor sets d_ to 0 (rootfind.hpp:35). *)
Inductive search := Start (trial step : R) (incr : bool) (t : R)
                  | Hunt (known : R * R) (trial step : R) (incr : bool) (t : R)
                  | Bracketed (b : brent).
(** rootfind.cpp:63-66 *)
Definition new_search (guess t step : R) : search :=
  Start guess (if rltb 0 step then step else 1 / 10 * Rmax (1 / 100) (Rabs guess)) true t.
Definition pick (b : bool) : R := if b then 1 else -1.
(** rootfind.cpp:68 NextX *)
Definition search_next (s : search) : outcome (slot * search) :=
  match s with
  | Start x _ _ _ | Hunt _ x _ _ _ => Ok (Val x, s)
  | Bracketed b => do (x, b') <- next_x b; Ok (x, Bracketed b')
  end.
(** rootfind.cpp:70-95 PutY *)
Definition search_put (s : search) (y : R) : outcome search :=
  match s with
  | Start x step incr t => Ok (Hunt (x, y) (x + step * pick incr * pick (rltb y 0)) step incr t)
  | Bracketed b => do b' <- put_y b y; Ok (Bracketed b')
  | Hunt known x step incr t =>
    if rleb (y * snd known) 0 then do b <- initialize t (Val 0) known (x, y); Ok (Bracketed b)
    else let '(incr', known') := if rltb (Rabs (snd known)) (Rabs y) then (negb incr, known) else (incr, (x, y)) in
         let step' := step * exp 1 in
         Ok (Hunt known' (fst known' + pick incr' * pick (rltb (snd known') 0) * step') step' incr' t)
  end.
(** one round *)
Definition search_round (s : search) (f : R -> R) : outcome search :=
  do (x, s1) <- search_next s; match x with Val x => search_put s1 (f x) | _ => UB end.
(** rootfind.hpp:18-26 Converged_: the value is reported and the test made; an infinite width is never below the tolerance *)
Definition converged (x_tol f_tol : R) (s : search) (y : R) : outcome (bool * search) :=
  do s' <- search_put s y;
  Ok (rltb (Rabs y) f_tol || match s' with Bracketed b => rltb (width b) x_tol | _ => false end, s').
