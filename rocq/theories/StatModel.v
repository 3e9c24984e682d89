(** Model of the vector statistics of dal/utilities/numerics.hpp (elements of type double). *)
From Coq Require Import List Arith Bool.
From Verif Require Import Base LinNum.
Import ListNotations.
Section Stat.
Context {L : Lin}.
(** The literal 1e-14. [epsilon] is 2e-14, so halving it gives exactly the same number, in binary64 as well. *)
Definition tiny : num := ndiv epsilon (of_nat 2).
(** fabs; a negative zero is left as it is, which no sum can tell *)
Definition absolute (x : num) : num := if nltb x zero then nopp x else x.
(** Accumulate(src, op), numerics.hpp:18-21: std::accumulate from zero, from the left *)
Definition accumulate (src : list num) (op : num -> num -> num) : num := fold_left op src zero.
(** Accumulate(src), lines 23-26 *)
Definition accumulate_sum (src : list num) : num := accumulate src nadd.
(** InnerProduct, lines 28-31: walks over src1, reading src2 beside it without looking at its size *)
Fixpoint inner_from (acc : num) (src1 src2 : list num) : outcome num :=
  match src1, src2 with
  | [], _ => Ok acc
  | _ :: _, [] => UB
  | x :: s1, y :: s2 => inner_from (nadd acc (nmul x y)) s1 s2
  end.
Definition inner_product (src1 src2 : list num) : outcome num := inner_from zero src1 src2.
(** L1Normalized, lines 34-40 *)
Definition l1_normalized (base : list num) : list num :=
  let l1 := accumulate base (fun x y => nadd x (absolute y)) in map (fun x => ndiv x (nadd l1 tiny)) base.
(** L2Normalized, lines 42-48 *)
Definition l2_normalized (base : list num) : list num :=
  let l2 := nsqrt (accumulate base (fun x y => nadd x (nmul y y))) in map (fun x => ndiv x (nadd l2 tiny)) base.
(** Centralized, lines 50-56 *)
Definition centralized (base : list num) : list num :=
  let mean := ndiv (accumulate_sum base) (of_nat (length base)) in map (fun x => nsub x mean) base.
(** Covariance, lines 58-64 *)
Definition covariance (src1 src2 : list num) : outcome num :=
  if negb (length src1 =? length src2) then Throw
  else do p <- inner_product (centralized src1) (centralized src2); Ok (ndiv p (of_nat (length src1))).
(** Correlation, lines 66-71 *)
Definition correlation (src1 src2 : list num) : outcome num :=
  if negb (length src1 =? length src2) then Throw
  else inner_product (l2_normalized (centralized src1)) (l2_normalized (centralized src2)).
End Stat.
