(** Models as independent lists of named numbers. *)
From Coq Require Import String List Arith.
From Verif Require Import Base Vec StringModel JsonModel DealModel MarketModel.
Import ListNotations.
Open Scope list_scope.

Section Spec.
Context {N : Type}.
Variable fixed : N -> str.
(** names and values of the parameters, or None when the model has been destroyed *)
Definition state : Type := list (option (list str * list N)).
Definition params_of (m : market N) : list N :=
  match m with BlackScholes s v r d => [s; v; r; d] | Dupire s r q _ _ _ vols => s :: r :: q :: concat vols end.
Definition described (d : option (model_data N)) : outcome (list str * list N) :=
  match d with
  | Some (BSData _ spot vol rate div) => Ok ([lit "spot"; lit "vol"; lit "rate"; lit "div"], [spot; vol; rate; div])
  | Some (DupireData _ spot rate repo spots times cols vols) =>
      do l <- dupire_labels fixed spots times (length vols) cols; Ok (l, spot :: rate :: repo :: concat vols)
  | _ => Throw
  end.
Definition there (s : state) (i : nat) : outcome (list str * list N) := match nth_error s i with Some (Some p) => Ok p | _ => UB end.
Definition next (s : state) (o : op N) : outcome state :=
  match o with
  | Create d => do p <- described d; Ok (s ++ [Some p])
  | Clone i => do p <- there s i; Ok (s ++ [Some p])
  | Destroy i => do _ <- there s i; put s i None
  | Assign i k v => do p <- there s i; do vs <- put (snd p) k v; put s i (Some (fst p, vs))
  end.
Fixpoint history (s : state) (l : list (op N)) : outcome state :=
  match l with
  | [] => Ok s
  | o :: r => match next s o with Ok s' => history s' r | Throw => history s r | UB => UB | OutOfFuel => OutOfFuel end
  end.
(** a matrix of volatilities has rows of equal size *)
Definition rectangular (d : model_data N) : Prop :=
  match d with DupireData _ _ _ _ _ _ cols vols => Forall (fun row => length row = cols) vols | _ => True end.
Definition sound_op (o : op N) : Prop := match o with Create (Some d) => rectangular d | _ => True end.
(** [o] does not change or destroy model [i] *)
Definition spares (i : nat) (o : op N) : Prop := match o with Destroy j => j <> i | Assign j _ _ => j <> i | _ => True end.
End Spec.
