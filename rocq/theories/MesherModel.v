(** Model of the one-dimensional meshes of dal/math/pde/meshers, over the real numbers. *)
From Coq Require Import Reals List Arith ZArith Bool.
From Verif Require Import Base InterpModel.
Import ListNotations.
Local Open Scope R_scope.
(** fdm1dmesher.hpp:10-25 FDM1DMesher_; a missing distance (Null_) is None *)
Record mesh := { locations : list R; dplus : list (option R); dminus : list (option R) }.
(** uniform1dmesher.hpp:18-24, concentrating1dmesher.cpp:52-55: the first point has no distance below, the last none above *)
Definition up (n : nat) (d : nat -> R) (i : nat) : option R := if (i =? n - 1)%nat then None else Some (d i).
Definition down (d : nat -> R) (i : nat) : option R := match i with O => None | S j => Some (d j) end.
Definition rgt (x y : R) : bool := if Rlt_dec y x then true else false.
Definition rge (x y : R) : bool := if Rle_dec y x then true else false.
(** uniform1dmesher.hpp:13-25 Uniform1DMesher_ (size not negative); back() of an empty vector is undefined *)
Definition uniform (start stop : R) (n : nat) : outcome mesh :=
  if negb (rgt stop start) then Throw
  else if (n =? 0)%nat then UB
  else
    let dx := (stop - start) / (INR n - 1) in
    Ok {| locations := map (fun i => if (i =? n - 1)%nat then stop else start + INR i * dx) (seq 0 n);
          dplus := map (up n (fun _ => dx)) (seq 0 n);
          dminus := map (down (fun _ => dx)) (seq 0 n) |}.
(** platform.hpp:68-75 IsClose *)
Definition tolerance : R := 42 * epsilon.
Definition is_close (x y : R) : bool :=
  let diff := Rabs (x - y) in
  if (if Req_EM_T x 0 then true else if Req_EM_T y 0 then true else false)
  then rgt (tolerance * tolerance) diff
  else rge (tolerance * Rabs x) diff && rge (tolerance * Rabs y) diff.
(** std::lround: to the nearest whole number, halves away from zero *)
Definition lround (x : R) : Z := if Rle_dec 0 x then Int_part (x + 1/2) else (- Int_part (- x + 1/2))%Z.
(** concentrating1dmesher.cpp:28-42: the knots of the transform; with one point 1/0 is infinite, and the check that the
    knots ascend (interp.cpp:30) rejects it *)
Definition knots (start stop c c1 c2 : R) (n : nat) : outcome (list R * list R) :=
  if is_close c start || is_close c stop then Ok ([0; 1], [0; 1])
  else
    let z0 := - c1 / (c2 - c1) in
    let k := Z.max (Z.min (lround (z0 * (INR n - 1))) (Z.of_nat n - 2)) 1 in
    if (n =? 1)%nat then Throw else
    let u := [0; IZR k / (INR n - 1); 1] in
    if is_monotonic u then Ok (u, [0; z0; 1]) else Throw.
Fixpoint mapm {A B} (f : A -> outcome B) (l : list A) : outcome (list B) :=
  match l with [] => Ok [] | x :: r => do y <- f x; do s <- mapm f r; Ok (y :: s) end.
(** concentrating1dmesher.cpp:44-47: one point *)
Definition point (start stop c density c1 c2 : R) (transform : R -> outcome R) (n i : nat) : outcome R :=
  if (i =? n - 1)%nat then Ok stop
  else if (i =? 0)%nat then Ok start
  else do l <- transform (INR i * (1 / (INR n - 1)));
       Ok (c + density * sinh (c1 * (1 - l) + c2 * l)).
(** concentrating1dmesher.cpp:13-56 Concentrating1dMesher_ *)
Definition concentrating (start stop : R) (n : nat) (c d : R) (require : bool) : outcome mesh :=
  let density := d * (stop - start) in
  if negb (rge c start && rge stop c) then Throw
  else if negb (rgt density 0) then Throw
  else
    let c1 := arcsinh ((start - c) / density) in
    let c2 := arcsinh ((stop - c) / density) in
    do transform <- (if require then do uz <- knots start stop c c1 c2 n; Ok (interp_linear (fst uz) (snd uz)) else Ok (fun x => Ok x));
    if (n =? 0)%nat then UB else
    do loc <- mapm (point start stop c density c1 c2 transform n) (seq 0 n);
    let dist i := nth (S i) loc 0 - nth i loc 0 in
    Ok {| locations := loc; dplus := map (up n dist) (seq 0 n); dminus := map (down dist) (seq 0 n) |}.
