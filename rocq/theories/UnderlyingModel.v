(** Model of dal/protocol/underlying.hpp/.cpp: what a set of trades depends on. *)
From Coq Require Import ZArith List Bool Reals.
From Verif Require Import Base OMap StringModel DateModel DateTimeModel.
Import ListNotations.

Section Merge.
Context {K V : Type}.
Variable cmp : K -> K -> comparison.
Variable ltb : V -> V -> bool.
(** std::max(a, b). *)
Definition vmax (a b : V) : V := if ltb a b then b else a.
(** underlying.cpp:12-19, and the three Include functions at 29-51: m[k] = max(m[k], v) when the key is there, m[k] = v otherwise. *)
Definition include (m : omap K V) (k : K) (v : V) : omap K V :=
  match mfind cmp m k with Some w => massign cmp m k (vmax w v) | None => massign cmp m k v end.
(** underlying.cpp:11-19. *)
Definition merge_max (base other : omap K V) : omap K V := fold_left (fun m p => include m (fst p) (snd p)) other base.
End Merge.

(** underlying.hpp:15-29. A currency is the position of its alternative in the enumeration; an index key is compared by the name of the
    index (index.hpp:33-42), so it is represented by the name; fractions of a day are real numbers. [parent] stands for the handle. *)
Definition when : Type := Z * R.
Record underlying := Underlying { parent : option nat; pay_ccys : omap Z Z; indices : omap str when; credits : omap str Z }.
Definition nothing : underlying := Underlying None [] [] [].
Definition when_ltb (a b : when) : bool := dt_ltb (A := RealArith) a b.
(** underlying.cpp:22-27: the parent of the left-hand side stays. *)
Definition add_to (u more : underlying) : underlying :=
  Underlying (parent u) (merge_max Z.compare Z.ltb (pay_ccys u) (pay_ccys more)) (merge_max ci_compare when_ltb (indices u) (indices more))
    (merge_max ci_compare Z.ltb (credits u) (credits more)).
(** underlying.cpp:29-35. *)
Definition include_ccy (u : underlying) (c d : Z) : underlying := Underlying (parent u) (include Z.compare Z.ltb (pay_ccys u) c d) (indices u) (credits u).
(** underlying.cpp:37-43. *)
Definition include_index (u : underlying) (i : str) (t : when) : underlying := Underlying (parent u) (pay_ccys u) (include ci_compare when_ltb (indices u) i t) (credits u).
(** underlying.cpp:45-51. *)
Definition include_credit (u : underlying) (n : str) (d : Z) : underlying := Underlying (parent u) (pay_ccys u) (indices u) (include ci_compare Z.ltb (credits u) n d).
