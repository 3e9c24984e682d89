(** What a JSON archive keeps, and which objects it can store. *)
From Coq Require Import String Ascii ZArith List Bool.
From Verif Require Import Base DateModel DateSpec StringModel StringSpec DictModel SplatModel SplatFileModel JsonModel.
Import ListNotations.
Open Scope Z_scope.

(** Texts that JSON can quote as they are: no quote, no backslash, no control character. *)
Definition safe (s : str) : Prop := Forall (fun c => c <> quote /\ c <> "\"%char /\ (32 <= nat_of_ascii c)%nat) s.
(** A decimal number with a point: optional sign, whole part without leading zeros, digits. *)
Definition digits (s : str) : Prop := s <> [] /\ Forall (fun c => SplatFileModel.digit c = true) s.
Definition decimal (t : str) : Prop :=
  exists m i f, t = m ++ i ++ "."%char :: f /\ (m = [] \/ m = lit "-") /\ digits i /\ digits f /\ (i = lit "0" \/ hd "0"%char i <> "0"%char).

Section Spec.
Variables N T : Type.
Variable show_double : N -> str.
Variable value_of : str -> N.
Variable show_time : T -> str.
Variable read_time : str -> outcome T.
Notation atom := (atom N T).
Notation value := (value N T).
Notation object := (object N T).

(** ** Values *)
(** A date that its text keeps (C01). *)
Definition kept_date (d : Z) : Prop := 1 <= d < 65536 /\ in_bad_window (ymd d) = false.
Definition kept_time (t : T) : Prop := safe (show_time t) /\ read_time (show_time t) = Ok t.
Definition like_date (s : str) : Prop := matches date_pattern s = true.
Definition like_time (s : str) : Prop := matches time_pattern s = true.
(** What can be an element of a vector or matrix. *)
Definition storable (a : atom) : Prop :=
  match a with
  | ANum x | ACell (CNum x) => decimal (show_double x)
  | AInt _ => False
  | ABool _ | ACell (CBool _) | ACell CEmpty => True
  | AStr s => safe s
  | ACell (CStr s) => safe s /\ ~ like_date s /\ ~ like_time s
  | ADate d | ACell (CDate d) => kept_date d
  | ATime t => kept_time t
  | ACell (CTime t) => kept_time t /\ like_time (show_time t)
  end.
(** What comes back: a number is what its printed text says, and an empty cell is an empty text. *)
Definition as_stored (a : atom) : atom :=
  match a with
  | ANum x => ANum (value_of (show_double x))
  | ACell (CNum x) => ACell (CNum (value_of (show_double x)))
  | ACell CEmpty => ACell (CStr [])
  | _ => a
  end.
(** Single values, vectors of one kind, and matrices of one kind with rows of equal length. *)
Definition storable_value (v : value) : Prop :=
  match v with
  | VOne a => storable a /\ (akind_of a = KNum \/ akind_of a = KStr \/ akind_of a = KDate)
  | VVec k l => Forall (fun a => storable a /\ akind_of a = k) l
  | VMat k w m => 0 < w <= 2147483647 /\ Forall (fun r => zlen r = w /\ Forall (fun a => storable a /\ akind_of a = k) r) m
  | VRef _ => True
  end.
Definition value_stored (v : value) : value :=
  match v with
  | VOne a => VOne (as_stored a)
  | VVec k l => VVec k (map as_stored l)
  | VMat k w m => VMat k w (map (map as_stored) m)
  | VRef b => VRef b
  end.

(** ** Objects *)
(** The members [l] of an object with names [names] are what the fields of its class ask for. *)
Definition numbered_name (n : str) (i : nat) : str := n ++ show_int (Z.of_nat i).
Inductive fits (names : list str) : list field -> list (str * value) -> Prop :=
| fits_nil : fits names [] []
| fits_always n v fs l : fits names fs l -> fits names ((n, Always, kind_of v) :: fs) ((n, v) :: l)
| fits_there n v fs l : fits names fs l -> fits names ((n, Optional, kind_of v) :: fs) ((n, v) :: l)
| fits_missing n k fs l : ~ In n names -> fits names fs l -> fits names ((n, Optional, k) :: fs) l
| fits_multiple (n : str) k (vs : list value) fs l : Forall (fun v => kind_of v = k) vs -> ~ In (numbered_name n (length vs)) names -> fits names fs l ->
    fits names ((n, Multiple, k) :: fs) (combine (map (numbered_name n) (seq 0 (length vs))) vs ++ l).
Definition labels : list str := [lit "$tag"; lit "~type"].
(** An object that can be archived. *)
Definition archivable (schema : str -> option (list field)) (o : object) : Prop :=
  otype o <> [] /\ safe (otype o) /\
  (exists fs, schema (otype o) = Some fs /\ fits (labels ++ map fst (members o)) fs (members o)) /\
  Forall (fun p => safe (fst p) /\ ~ In (fst p) labels /\ storable_value (snd p)) (members o) /\
  ForallOrdPairs (fun p q => ~ same_up_to_case (fst p) (fst q)) (members o).

Variable heap : nat -> object.
(** Members copied: same names, values as stored; a reference to [a] becomes a reference to the copy of [a]. *)
Definition member_copy (copy : nat -> nat -> Prop) (p q : str * value) : Prop :=
  fst p = fst q /\ match snd p, snd q with
                   | VRef a, VRef h => copy a h
                   | VRef _, _ | _, VRef _ => False
                   | x, y => value_stored x = y
                   end.
(** [b], from position [h] on, is a copy of what [root] refers to: one copy for each object, different for different objects. *)
Definition is_copy (root : nat) (h : nat) (b : list object) : Prop :=
  exists copy : nat -> nat -> Prop,
    copy root h /\
    (forall a k, copy a k -> exists o, nth_error b k = Some o /\ otype o = otype (heap a) /\ Forall2 (member_copy copy) (members (heap a)) (members o)) /\
    (forall a k k', copy a k -> copy a k' -> k = k') /\
    (forall a a' k, copy a k -> copy a' k -> a = a').
(** The objects [root] refers to, directly or not. *)
Inductive reachable (root : nat) : nat -> Prop :=
| reachable_root : reachable root root
| reachable_ref a n b : reachable root a -> In (n, VRef b) (members (heap a)) -> reachable root b.
(** References go down in [rank]: there are no cycles. *)
Definition acyclic (root : nat) (rank : nat -> nat) : Prop :=
  forall a n b, reachable root a -> In (n, VRef b) (members (heap a)) -> (rank b < rank a)%nat.
End Spec.
Arguments kept_time {T}. Arguments storable {N T}. Arguments as_stored {N T}. Arguments storable_value {N T}. Arguments value_stored {N T}.
Arguments fits {N T}. Arguments archivable {N T}. Arguments member_copy {N T}. Arguments is_copy {N T}. Arguments reachable {N T}. Arguments acyclic {N T}.
