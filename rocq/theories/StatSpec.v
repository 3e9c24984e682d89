(** Words for vector statistics. *)
From Coq Require Import Reals List.
Import ListNotations.
Local Open Scope R_scope.
Definition total (x : list R) : R := fold_right Rplus 0 x.
Definition mean (x : list R) : R := total x / INR (length x).
(** entry by entry *)
Fixpoint entrywise (op : R -> R -> R) (x y : list R) : list R :=
  match x, y with a :: x', b :: y' => op a b :: entrywise op x' y' | _, _ => [] end.
Definition times (x y : list R) : list R := entrywise Rmult x y.
Definition plus (x y : list R) : list R := entrywise Rplus x y.
Definition scale (a : R) (x : list R) : list R := map (Rmult a) x.
Definition shift (c : R) (x : list R) : list R := map (fun v => v + c) x.
(** sum of absolute values, and the Euclidean length *)
Definition l1_norm (x : list R) : R := total (map Rabs x).
Definition l2_norm (x : list R) : R := sqrt (total (times x x)).
(** the textbook covariance *)
Definition cov (x y : list R) : R := mean (times x y) - mean x * mean y.
Definition constant (x : list R) : Prop := forall v w, In v x -> In w x -> v = w.
