(** Specification vocabulary for global values. *)
From Coq Require Import String Ascii ZArith List Bool Sorted.
From Verif Require Import Base StringModel StringSpec OMap RepoModel RepoSpec GlobalModel.
Import ListNotations.
Open Scope Z_scope.

Section Spec.
  Context {N T : Type}.
  Variable uniq : Z -> str.
  Variable regex : str -> option (str -> bool).
  Notation obj := (object (option (table N T))).
  Notation repo := (omap str obj).
  (** operator new returns an address no stored object occupies *)
  Definition allocator (alloc : repo -> Z) : Prop := forall m k o, In (k, o) m -> oaddr o <> alloc m.
  (** the boxes global values are kept in *)
  Definition is_global (name : str) (x : obj) : Prop :=
    same_up_to_case (otype x) (lit "Box") /\ same_up_to_case (oname x) (lit "##GLOBAL##" ++ name).
  (** other uses of the repository, that leave those boxes alone *)
  Definition foreign (o : op) : Prop :=
    match o with
    | OAdd s mode => forall name, ~ is_global name s /\ forall x, is_global name x -> ~ replaced mode s x
    | OErase p => forall f name x, regex p = Some f -> is_global name x -> f (tag_text uniq x) = false
    | OEraseObject s => forall name, ~ is_global name s
    | OEraseList l => forall name s, In s l -> ~ is_global name s
    | _ => True
    end.
  (** What happens to the process: a global value is stored, or the repository is used. *)
  Inductive event := ESet (name : str) (v : table N T) | EOp (o : @op (option (table N T))).
  Variable alloc : repo -> Z.
  Definition happen (m : repo) (e : event) : repo :=
    match e with ESet name v => store_set uniq alloc m name v | EOp o => fst (exec uniq regex m o) end.
  (** names without tildes, values that are not empty, objects that are alive *)
  Definition proper (m : repo) (e : event) : Prop :=
    match e with
    | ESet name v => ~ In "~"%char name /\ is_empty v = false
    | EOp o => foreign o /\ admissible (fun x => In x (map snd m)) o
    end.
  Fixpoint all_proper (m : repo) (l : list event) : Prop :=
    match l with [] => True | e :: r => proper m e /\ all_proper (happen m e) r end.
  (** the last value stored under a name *)
  Inductive last_stored (name : str) : list event -> option (table N T) -> Prop :=
  | ls_none : last_stored name [] None
  | ls_here l name' v : same_up_to_case name' name -> last_stored name (l ++ [ESet name' v]) (Some v)
  | ls_other l name' v w : ~ same_up_to_case name' name -> last_stored name l w -> last_stored name (l ++ [ESet name' v]) w
  | ls_op l o w : last_stored name l w -> last_stored name (l ++ [EOp o]) w.
End Spec.

(** programs in which every override is closed, in the order of nesting *)
Inductive balanced : list cmd -> Prop :=
| bal_nil : balanced []
| bal_write w d p : balanced p -> balanced (Write w d :: p)
| bal_read w p : balanced p -> balanced (Read w :: p)
| bal_scope w d p q : balanced p -> balanced q -> balanced (Open w d :: p ++ Close :: q).
Definition which_eqb (a b : which) : bool := match a, b with Accounting, Accounting | Evaluation, Evaluation => true | _, _ => false end.
(** what a balanced program does to the visible dates *)
Inductive effect : list cmd -> (which -> Z) -> (which -> Z) -> Prop :=
| ef_nil f g : (forall x, g x = f x) -> effect [] f g
| ef_write w d p f g : effect p (fun x => if which_eqb w x then d else f x) g -> effect (Write w d :: p) f g
| ef_read w p f g : effect p f g -> effect (Read w :: p) f g
| ef_scope w d p q f g h : effect p (fun x => if which_eqb w x then d else f x) g ->
    effect q (fun x => if which_eqb w x then f w else g x) h -> effect (Open w d :: p ++ Close :: q) f h.
(** * Fixings *)
Section Fixings.
  Context {N T St : Type}.
  Variable cmp : T -> T -> comparison.
  Definition total_order : Prop :=
    (forall a b, cmp b a = CompOpp (cmp a b)) /\ (forall a b c, cmp a b = Lt -> cmp b c = Lt -> cmp a c = Lt) /\
    (forall a b c, cmp a b = Eq -> cmp a c = cmp b c).
  Variable get : St -> str -> outcome (table N T).
  Variable set : St -> str -> table N T -> St.
  (** what a fixings store must do: keep the values that are not empty, by name without regard to case *)
  Definition keeps (ok : St -> Prop) : Prop :=
    (forall s name v, ok s -> ~ In "~"%char name -> is_empty v = false -> ok (set s name v)) /\
    (forall s name name' v, ok s -> ~ In "~"%char name -> is_empty v = false -> same_up_to_case name name' -> get (set s name v) name' = Ok v) /\
    (forall s name name' v, ok s -> ~ In "~"%char name -> ~ In "~"%char name' -> is_empty v = false -> ~ same_up_to_case name name' -> get (set s name v) name' = get s name').
  (** one call of StoreFixings *)
  Record storing := Storing { st_index : str; st_fixings : list (T * N); st_append : bool }.
  (** the value recorded for an index at a time by a sequence of calls, the latest last *)
  Inductive recorded (index : str) (t : T) : list storing -> option N -> Prop :=
  | rec_none : recorded index t [] None
  | rec_other l c v : ~ same_up_to_case (st_index c) index -> recorded index t l v -> recorded index t (l ++ [c]) v
  | rec_new l c a u x b : same_up_to_case (st_index c) index -> st_fixings c = a ++ (u, x) :: b -> cmp u t = Eq ->
      (forall u' x', In (u', x') b -> cmp u' t <> Eq) -> recorded index t (l ++ [c]) (Some x)
  | rec_old l c v : same_up_to_case (st_index c) index -> st_append c = true -> (forall u' x', In (u', x') (st_fixings c) -> cmp u' t <> Eq) ->
      recorded index t l v -> recorded index t (l ++ [c]) v
  | rec_dropped l c : same_up_to_case (st_index c) index -> st_append c = false -> (forall u' x', In (u', x') (st_fixings c) -> cmp u' t <> Eq) ->
      recorded index t (l ++ [c]) None.
  Definition chronological (l : list (T * N)) : Prop := StronglySorted (fun p q => cmp (fst p) (fst q) = Lt) l.
End Fixings.
