(** Vocabulary for the interest-rate indices. *)
From Coq Require Import String Ascii ZArith List Bool.
From Verif Require Import Base StringModel StringSpec DateModel IndexModel RateModel.
Import ListNotations.
Local Open Scope Z_scope.

(** A piece of a name that cannot be mistaken: it is not empty, has no comma and does not read as a date. *)
Definition plain (s : str) : Prop := s <> [] /\ ~ In ","%char s /\ is_date_string (string_of_list_ascii s) = false.
Definition offset_plain (o : offset) : Prop :=
  match o with OText s => plain s | ODate d => 1 <= d < 65536 | _ => True end.
(** No currency, tenor, start or maturity can be mistaken for another; the tenor of a swap is not that of a Libor. *)
Definition clear (i : ir_index) : Prop :=
  match i with
  | Libor _ _ s => offset_plain s
  | Swap _ t s => ~ In ","%char t /\ (forall r, ~ same_up_to_case t (rate_string r)) /\ offset_plain s
  | Df _ m s _ => offset_plain m /\ offset_plain s
  end.
(** The same start or maturity, the letters of a text in either case. *)
Definition same_offset (a b : offset) : Prop :=
  match a, b with
  | ONothing, ONothing => True
  | ODate d, ODate e => d = e
  | OText s, OText t => same_up_to_case s t
  | _, _ => False
  end.
Definition same_index (i j : ir_index) : Prop :=
  match i, j with
  | Libor c r s, Libor c' r' s' => c = c' /\ r = r' /\ same_offset s s'
  | Swap c t s, Swap c' t' s' => c = c' /\ same_up_to_case t t' /\ same_offset s s'
  | Df c m s _, Df c' m' s' _ => c = c' /\ same_offset m m' /\ same_offset s s'
  | _, _ => False
  end.
(** What can be written in a name: nothing, a date or a text. *)
Definition nameable (o : offset) : Prop := match o with ONothing | ODate _ | OText _ => True | _ => False end.
Definition has_name (i : ir_index) : Prop :=
  match i with
  | Libor _ _ s | Swap _ _ s => nameable s
  | Df _ m s _ => nameable m /\ m <> ONothing /\ nameable s
  end.
(** The start-date convention of an index: its start cell, and whether the market's fixing lag applies to it. *)
Definition start_of (i : ir_index) : offset := match i with Libor _ _ s | Swap _ _ s | Df _ _ s _ => s end.
Definition ccy_of (i : ir_index) : ccy := match i with Libor c _ _ | Swap c _ _ | Df c _ _ _ => c end.
Definition forward_rate (i : ir_index) : Prop := match i with Libor _ _ _ | Swap _ _ _ => True | _ => False end.
