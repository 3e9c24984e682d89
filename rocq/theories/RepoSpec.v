(** What a repository of named objects is: a set of objects.  Independent of how it is stored. *)
From Coq Require Import String Ascii ZArith List Bool.
From Verif Require Import Base StringModel StringSpec RepoModel.
Import ListNotations.
Open Scope Z_scope.

Section Spec.
  Context {P : Type}.
  Variable uniq : Z -> str.
  Variable regex : str -> option (str -> bool).
  Notation obj := (object P).
  Notation tag := (@tag P uniq).
  Definition contents_t := obj -> Prop.
  (** the tag of an object: its type, its name and its address *)
  Definition tag_text (s : obj) : str := lit "~" ++ otype s ++ lit "~" ++ oname s ++ lit "~" ++ uniq (oaddr s).

  (** which objects adding [s] removes *)
  Definition replaced (mode : erase_mode) (s x : obj) : Prop :=
    match mode with
    | ENone => False
    | EName => same_up_to_case (otype x) (otype s) /\ same_up_to_case (oname x) (oname s)
    | ENameNonempty => oname s <> [] /\ same_up_to_case (otype x) (otype s) /\ same_up_to_case (oname x) (oname s)
    | EType => same_up_to_case (otype x) (otype s)
    end.
  (** [l] lists the objects with property [Q], each once *)
  Definition lists (l : list obj) (Q : obj -> Prop) : Prop := NoDup l /\ forall x, In x l <-> Q x.
  Definition counts (n : Z) (Q : obj -> Prop) : Prop := exists l, lists l Q /\ n = Z.of_nat (length l).

  Definition spec_step (C : contents_t) (o : op) (r : result) (C' : contents_t) : Prop :=
    match o with
    | OAdd s mode => r = RTag (tag_text s) /\ forall x, C' x <-> x = s \/ (C x /\ ~ replaced mode s x)
    | OErase p =>
        match regex p with
        | None => r = RThrow /\ forall x, C' x <-> C x
        | Some f => (exists n, r = RCount n /\ counts n (fun x => C x /\ f (tag_text x) = true)) /\
                    forall x, C' x <-> C x /\ f (tag_text x) = false
        end
    | OEraseObject s => (exists b, r = RBool b /\ (b = true <-> C s)) /\ forall x, C' x <-> C x /\ x <> s
    | OEraseList l => (exists n, r = RCount n /\ counts n (fun x => C x /\ In x l)) /\ forall x, C' x <-> C x /\ ~ In x l
    | OSize => (exists n, r = RCount n /\ counts n C) /\ forall x, C' x <-> C x
    | OFind p =>
        match regex p with
        | None => r = RThrow
        | Some f => exists l, r = RObjects l /\ lists l (fun x => C x /\ f (tag_text x) = true)
        end /\ forall x, C' x <-> C x
    | OFetch t quiet =>
        ((exists x, C x /\ same_up_to_case (tag_text x) t /\ r = RObject (Some x)) \/
         ((forall x, C x -> ~ same_up_to_case (tag_text x) t) /\ r = if quiet then RObject None else RThrow)) /\
        forall x, C' x <-> C x
    end.

  (** An object handed to the repository is alive, so it does not share its address with another stored object; its type and
      name contain no tilde. *)
  Definition presentable (C : contents_t) (s : obj) : Prop :=
    ~ In "~"%char (otype s) /\ ~ In "~"%char (oname s) /\ forall x, C x -> oaddr x = oaddr s -> x = s.
  Definition admissible (C : contents_t) (o : op) : Prop :=
    match o with
    | OAdd s _ | OEraseObject s => presentable C s
    | OEraseList l => forall s, In s l -> presentable C s
    | _ => True
    end.
  Fixpoint legal (C : contents_t) (l : list op) : Prop :=
    match l with
    | [] => True
    | o :: r => admissible C o /\ forall x C', spec_step C o x C' -> legal C' r
    end.
  Inductive history : contents_t -> list op -> list result -> contents_t -> Prop :=
  | h_nil C : history C [] [] C
  | h_cons C o x C1 l xs C2 : spec_step C o x C1 -> history C1 l xs C2 -> history C (o :: l) (x :: xs) C2.
  (** Addresses print without tildes and differently. *)
  Definition address_text : Prop :=
    (forall a, ~ In "~"%char (uniq a)) /\ forall a b, same_up_to_case (uniq a) (uniq b) -> a = b.
End Spec.
