(** Words of the curve property. *)
From Coq Require Import Reals List ZArith.
From Verif Require Import Base CurveModel.
Import ListNotations.
Open Scope R_scope.
Definition ascending (ks : list Z) : Prop := forall i j, (i < j < length ks)%nat -> (nth i ks 0 < nth j ks 0)%Z.
Definition nondecreasing (ks : list Z) : Prop := forall i j, (i < j < length ks)%nat -> (nth i ks 0 <= nth j ks 0)%Z.
(** v a + v (a+1) + ... over n days *)
Fixpoint day_sum (v : Z -> R) (a : Z) (n : nat) : R := match n with O => 0 | S k => v a + day_sum v (a + 1) k end.
(** the piecewise constant function: the right value of the last knot on or before the date, nothing before the first *)
Definition is_constant_value (ks : list Z) (fr : list R) (d : Z) (v : R) : Prop :=
  ((forall i, (i < length ks)%nat -> (d < nth i ks 0)%Z) /\ v = 0) \/
  (exists i, (i < length ks)%nat /\ (nth i ks 0 <= d)%Z /\ (forall j, (i < j < length ks)%nat -> (d < nth j ks 0)%Z) /\ v = nth i fr 0).
(** the straight line through (x0, y0) and (x1, y1) *)
Definition line (x0 : Z) (y0 : R) (x1 : Z) (y1 : R) (x : Z) : R := y0 + (y1 - y0) * (IZR x - IZR x0) / (IZR x1 - IZR x0).
(** the limit from the right or from the left of the piecewise linear function *)
Definition is_linear_value (ks : list Z) (fl fr : list R) (d : Z) (right : bool) (v : R) : Prop :=
  let before k := if right then (k <= d)%Z else (k < d)%Z in
  let n := length ks in
  ((~ before (nth 0 ks 0)%Z) /\ v = nth 0 fl 0) \/
  (before (nth (n - 1) ks 0%Z) /\ v = nth (n - 1) fr 0) \/
  (exists i, (S i < n)%nat /\ before (nth i ks 0%Z) /\ ~ before (nth (S i) ks 0%Z) /\ v = line (nth i ks 0%Z) (nth i fr 0) (nth (S i) ks 0%Z) (nth (S i) fl 0) d).
(** a value for an outcome, 0 standing for failure: only used where success is stated too *)
Definition val (o : outcome R) : R := match o with Ok x => x | _ => 0 end.
(** curves all of whose forwards are well formed *)
Definition good_pwl (p : pwl) : Prop := exists ks fl fr, ks <> [] /\ nondecreasing ks /\ length fl = length ks /\ length fr = length ks /\ new_pwl ks fl fr = Ok p.
Fixpoint good_curve (c : discount) : Prop := match c with DiscountPWLF p b => good_pwl p /\ match b with Some c' => good_curve c' | None => True end end.
(** all the forward rates in a curve and its bases are not negative *)
Fixpoint nonnegative (c : discount) : Prop := match c with DiscountPWLF p b => (forall x, In x (l_left p) -> 0 <= x) /\ (forall x, In x (l_right p) -> 0 <= x) /\ match b with Some c' => nonnegative c' | None => True end end.
(** the forward rate of a day: the mean of the values at its two ends, added over the bases *)
Fixpoint day_rate (c : discount) (d : Z) : R :=
  match c with DiscountPWLF p b => (val (pwl_value p d true) + val (pwl_value p (d + 1) false)) / 2 + match b with Some c' => day_rate c' d | None => 0 end end.
