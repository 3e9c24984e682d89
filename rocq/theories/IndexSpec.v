(** Vocabulary for the names and fixings of indices. *)
From Coq Require Import Ascii ZArith List Reals.
From Verif Require Import OMap StringModel DateSpec DateModel DateTimeModel IndexModel PathSpec.
Import ListNotations.

(** Names that can be told apart: no closing bracket in the equity name; a delivery date is a date of the library. *)
Definition proper (i : index) : Prop :=
  match i with
  | Equity n d => ~ In "]"%char n /\ match d with At day => (1 <= day < 65536)%Z | _ => True end
  | Fx _ _ => True
  end.
(** Dates that the library reads back wrongly (see C01). *)
Definition delivery_misread (i : index) : Prop :=
  match i with Equity _ (At day) => in_bad_window (ymd day) = true | _ => False end.
(** The value recorded for a name at a moment; names that differ in case only are the same. *)
Definition recorded (h : access (A := RealArith)) (name : str) (t : Z * R) : option R :=
  match mfind ci_compare h name with Some (Some f) => fixed_at f (moment t) | _ => None end.
Definition histories_ok (h : access (A := RealArith)) : Prop :=
  forall name f, In (name, Some f) h -> Forall (fun p => good_time (fst p)) f.
