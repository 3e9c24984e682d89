(** Vocabulary for the start-up and the market conventions. *)
From Coq Require Import ZArith List Bool.
From Verif Require Import Base StringModel StringSpec HolidayModel HolidaySpec IndexModel SetupModel.
Import ListNotations.
Local Open Scope Z_scope.

(** What a history of writes means for a currency: the last value written for it, or else the last default. *)
Fixpoint last_for {T} (c : ccy) (ws : list (write T)) : option T :=
  match ws with
  | [] => None
  | w :: r => match last_for c r, w with Some v, _ => Some v | None, For c' v => if ccy_eq_dec c' c then Some v else None | None, _ => None end
  end.
Fixpoint last_default {T} (ws : list (write T)) : option T :=
  match ws with
  | [] => None
  | w :: r => match last_default r, w with Some v, _ => Some v | None, ByDefault v => Some v | None, _ => None end
  end.
Definition meaning {T} (ws : list (write T)) (c : ccy) : outcome T :=
  match last_for c ws with Some v => Ok v | None => match last_default ws with Some v => Ok v | None => Throw end end.
Definition written {T} (ws : list (write T)) : fact T := fold_left put_fact ws fact_empty.
(** A write replaces the value a currency has after [ws]. *)
Definition replaces {T} (ws : list (write T)) (c : ccy) (w : write T) : Prop :=
  match w with
  | For c' _ => c' = c /\ last_for c ws <> None
  | ByDefault _ => last_for c ws = None
  end.

(** Histories of a process: the dates registered are 16-bit; the names of the shipped calendars are left alone. *)
Definition in_range (es : list event) : Prop :=
  forall c h k, In (AddCenter c h k) es -> Forall (fun d => 0 <= d < 65536) h /\ Forall (fun d => 0 <= d < 65536) k.
Definition shipped (c : str) : Prop := same_up_to_case c sse \/ same_up_to_case c ib.
Definition names_free (es : list event) : Prop := forall c h k, In (AddCenter c h k) es -> ~ shipped c.
(** The writes in a history. *)
Fixpoint days_written (es : list event) : list (write Z) :=
  match es with [] => [] | SetDays w :: r => w :: days_written r | _ :: r => days_written r end.
Fixpoint fixing_written (es : list event) : list (write holidays) :=
  match es with [] => [] | SetFixing w :: r => w :: fixing_written r | _ :: r => fixing_written r end.
(** The two calendars shipped. *)
Definition sse_center : center := Center sse sse_holidays [].
Definition ib_center : center := Center ib ib_holidays ib_weekends.
