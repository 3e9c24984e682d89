(** C28: an object tree written to the rectangular archive is read back as the same tree, with shared objects shared. *)
From Coq Require Import String Ascii ZArith List Bool Lia Sorted.
From Verif Require Import Base DateModel StringModel StringSpec StringProofs OMap DictModel DictSpec DictProofs SplatModel SplatSpec SplatProofs ShareModel ShareSpec ShareProofs.
Import ListNotations.
Open Scope Z_scope.

Notation ecell := (DictModel.cell Z unit).
(** An example: a curve with a date, a vector, a matrix, a dictionary and a nested object. *)
Definition ex_tree : node Z unit :=
  Obj [] (lit "Curve")
    [(lit "base", Obj (lit "$1") (lit "Base") [(lit "n", Leaf 1 [[CNum 7]])]);
     (lit "dict", Leaf 2 [[CStr (lit "CCY"); CStr (lit "USD")]; [CStr (lit "N"); CNum 3]]);
     (lit "knots", Leaf 3 [[CNum 1; CNum 2; CNum 3]]);
     (lit "vals", Leaf 2 [[CNum 1; CEmpty]; [CNum 3; CNum 4]]);
     (lit "when", Leaf 1 [[CDate 18322]])].
Lemma ex_wf : wf ex_tree.
Proof.
  unfold ex_tree. constructor; [now left|discriminate|discriminate| |].
  - repeat (constructor; [split; [discriminate|]|]); [| | | | |constructor]; cbn [snd].
    + constructor; [right; exists (lit "1"); split; [reflexivity|intros [G|[]]; discriminate]|discriminate|discriminate| |].
      * constructor; [split; [discriminate|]|constructor]. cbn [snd]. constructor; [lia|discriminate|repeat constructor].
      * repeat constructor.
    + constructor; [lia|discriminate|repeat constructor].
    + constructor; [lia|discriminate|repeat constructor].
    + constructor; [lia|discriminate|repeat constructor].
    + constructor; [lia|discriminate|repeat constructor].
  - repeat constructor.
Qed.

(** The tree is read back: types, tags, members by name, tables as single values, vectors, matrices and dictionaries. *)
Theorem C28_tree : forall N T (t : node N T) g, wf t -> is_object t -> splat t = Ok g -> shows g (View 0 (g_rows g) 0) t.
Proof. intros N T. exact splat_ok. Qed.
Print Assumptions C28_tree.
(** Writing succeeds whenever the sheet has fewer than 2^31 cells. *)
Theorem C28_fits : forall N T (t : node N T) h w, wf t -> is_object t -> rows t = Ok h -> cols t = Ok w -> (h + 1) * w <= 2147483647 ->
  exists g, splat t = Ok g /\ g_rows g = h /\ shows g (View 0 (g_rows g) 0) t.
Proof. intros N T. exact splat_shows. Qed.
Print Assumptions C28_fits.
Example C28_tree_example : wf ex_tree /\ is_object ex_tree /\ rows ex_tree = Ok 7 /\ cols ex_tree = Ok 50 /\
  (do g <- splat ex_tree; do v <- child g (View 0 (g_rows g) 0) (lit "Vals"); matrix_range g v) =
    Ok [[CNum 1; CEmpty]; [CNum 3; CNum 4]] /\
  (do g <- splat ex_tree; do v <- child g (View 0 (g_rows g) 0) (lit "BASE"); do w <- child g v (lit "n"); get_scalar g w) = Ok (CNum 7) /\
  (do g <- splat ex_tree; has_child g (View 0 (g_rows g) 0) (lit "knot")) = Ok false.
Proof. split; [exact ex_wf|]. split; [exact Logic.I|]. vm_compute. repeat split. Qed.

(** Typed members: the numbers, texts and dates come back exactly. *)
Theorem C28_typed : forall N T (to_double : str -> option N) (g : grid N T) v,
  (forall x, shows g v (Leaf 1 [[CNum x]]) -> as_scalar (extract_double to_double) g v = Ok x) /\
  (forall s, shows g v (Leaf 1 [[CStr s]]) -> as_scalar extract_string g v = Ok s) /\
  (forall d, shows g v (Leaf 1 [[CDate d]]) -> as_scalar extract_date g v = Ok d) /\
  (forall x l, shows g v (Leaf (zlen (x :: l)) [map CNum (x :: l)]) -> as_vector (extract_double to_double) g v = Ok (x :: l)) /\
  (forall x l, shows g v (Leaf (zlen (x :: l)) [map CDate (x :: l)]) -> as_vector extract_date g v = Ok (x :: l)) /\
  (forall x l, (forall s, In s l -> s <> []) -> shows g v (Leaf (zlen (x :: l)) [map CStr (x :: l)]) ->
     as_vector extract_string g v = Ok (x :: l)) /\
  (forall w m, 1 <= w -> m <> [] -> Forall (fun l => zlen l = w) m -> shows g v (Leaf w (map (map CNum) m)) ->
     as_matrix (extract_double to_double) g v = Ok m).
Proof.
  intros N T td g v.
  assert (forall A (f : DictModel.cell N T -> outcome A) (c : A -> DictModel.cell N T), (forall x, f (c x) = Ok x) -> forall l, translate f (map c l) = Ok l) as Htr.
  { intros A f c Hf l. induction l as [|x l IH]; [reflexivity|]. cbn [map translate]. rewrite Hf. cbn [obind]. now rewrite IH. }
  assert (forall A (f : DictModel.cell N T -> outcome A) (c : A -> DictModel.cell N T), (forall x, f (c x) = Ok x) -> forall m, translate_rows f (map (map c) m) = Ok m) as Htm.
  { intros A f c Hf m. induction m as [|x l IH]; [reflexivity|]. cbn [map translate_rows]. rewrite Htr by exact Hf. cbn [obind]. now rewrite IH. }
  split; [|split; [|split; [|split; [|split; [|split]]]]].
  - intros x H. inversion H as [? ? ? (G & _)|]; subst. unfold as_scalar. now rewrite (G _ eq_refl).
  - intros x H. inversion H as [? ? ? (G & _)|]; subst. unfold as_scalar. now rewrite (G _ eq_refl).
  - intros x H. inversion H as [? ? ? (G & _)|]; subst. unfold as_scalar. now rewrite (G _ eq_refl).
  - intros x l H. inversion H as [? ? ? (_ & G & _)|]; subst. unfold as_vector. rewrite (G (CNum x) (map CNum l) eq_refl).
    + cbn [obind]. apply (Htr _ _ CNum (fun _ => eq_refl) (x :: l)).
    + intros y Hy. apply in_map_iff in Hy as (z & <- & _). intros [E|E]; discriminate.
  - intros x l H. inversion H as [? ? ? (_ & G & _)|]; subst. unfold as_vector. rewrite (G (CDate x) (map CDate l) eq_refl).
    + cbn [obind]. apply (Htr _ _ CDate (fun _ => eq_refl) (x :: l)).
    + intros y Hy. apply in_map_iff in Hy as (z & <- & _). intros [E|E]; discriminate.
  - intros x l Hl H. inversion H as [? ? ? (_ & G & _)|]; subst. unfold as_vector. rewrite (G (CStr x) (map CStr l) eq_refl).
    + cbn [obind]. apply (Htr _ _ CStr (fun _ => eq_refl) (x :: l)).
    + intros y Hy. apply in_map_iff in Hy as (z & <- & Hz). intros [E|E]; [discriminate|]. injection E as ->. exact (Hl _ Hz eq_refl).
  - intros w m Hw Hm Hr H. inversion H as [? ? ? (_ & _ & G & _)|]; subst. unfold as_matrix. rewrite G.
    + cbn [obind]. apply (Htm _ _ CNum). reflexivity.
    + intros j Hj. destruct m as [|r m]; [congruence|]. inversion Hr as [|? ? Hlen Hr']; subst. unfold zlen in Hj.
      destruct (nth_error r j) as [x|] eqn:E; [|apply nth_error_None in E; lia].
      exists (map CNum r), (CNum x). split; [now left|]. split; [rewrite nth_error_map, E; reflexivity|]. intros [E2|E2]; discriminate.
Qed.
Print Assumptions C28_typed.

(** Shared objects: what is built is a copy of the object graph: one copy of each object, however often it is referred to. *)
Theorem C28_sharing : forall N T (heap : nat -> object N T) schema rank root fuel g,
  (forall a, reachable heap root a -> archivable schema (heap a)) -> acyclic heap root rank ->
  archive heap fuel root = Ok g ->
  exists h b, unarchive schema fuel g = Ok (h, b) /\ is_copy heap root h b.
Proof. intros N T. exact archive_copy. Qed.
Print Assumptions C28_sharing.
(** Fuel for the depth of the graph is enough: writing then only depends on the size of the sheet. *)
Theorem C28_depth : forall N T (heap : nat -> object N T) schema rank root,
  (forall a, reachable heap root a -> archivable schema (heap a)) -> acyclic heap root rank ->
  exists l s, write_members heap (rank root) (members (heap root)) [] = Ok (l, s).
Proof.
  intros N T heap schema rank root Hg Hac. apply (write_total heap schema rank (reachable heap root) Hg).
  - intros a n b La Hb. split; [exact (reachable_ref _ _ heap root a n b La Hb)|exact (Hac a n b La Hb)].
  - intros n b Hb. split; [exact (reachable_ref _ _ heap root root n b (reachable_root _ _ _ _) Hb)|exact (Hac root n b (reachable_root _ _ _ _) Hb)].
Qed.
Print Assumptions C28_depth.
(** two curves sharing a base, in a portfolio *)
Definition ex_heap (a : nat) : object Z unit :=
  match a with
  | O => Object (lit "Port") [(lit "left", MRef 1%nat); (lit "right", MRef 2%nat); (lit "again", MRef 1%nat)]
  | 1%nat => Object (lit "Crv") [(lit "v", MVector (CNum 1) [CNum 2]); (lit "base", MRef 3%nat)]
  | 2%nat => Object (lit "Crv") [(lit "v", MVector (CNum 5) []); (lit "base", MRef 3%nat)]
  | _ => Object (lit "Base") [(lit "n", MScalar (CNum 7))]
  end.
Definition ex_schema (t : str) : option (list (str * kind)) :=
  if ci_eqb t (lit "Port") then Some [(lit "left", KRef); (lit "right", KRef); (lit "again", KRef)]
  else if ci_eqb t (lit "Crv") then Some [(lit "v", KVector); (lit "base", KRef)]
  else if ci_eqb t (lit "Base") then Some [(lit "n", KScalar)] else None.
Example C28_sharing_example : (forall a, reachable ex_heap 0 a -> archivable ex_schema (ex_heap a)) /\
  acyclic ex_heap 0 (fun a => (3 - a)%nat) /\
  (do g <- archive ex_heap 3 0; unarchive ex_schema 3 g) =
    Ok (3%nat, [Object (lit "Base") [(lit "n", MScalar (CNum 7))];
                Object (lit "Crv") [(lit "v", MVector (CNum 1) [CNum 2]); (lit "base", MRef 0%nat)];
                Object (lit "Crv") [(lit "v", MVector (CNum 5) []); (lit "base", MRef 0%nat)];
                Object (lit "Port") [(lit "left", MRef 1%nat); (lit "right", MRef 2%nat); (lit "again", MRef 1%nat)]]).
Proof.
  assert (forall a, archivable ex_schema (ex_heap a)) as Ha.
  { assert (forall p q, ci_eqb p q = false -> ~ same_up_to_case p q) as Hne by (intros p q H G; apply ci_eqb_iff in G; congruence).
    intros [|[|[|a]]]; unfold archivable; cbn [ex_heap otype members]; (split; [discriminate|]); (split; [discriminate|]); (split; [reflexivity|]);
      (split; [repeat constructor; try discriminate; cbn [readable snd]; intros x Hx; try (destruct Hx as [<-|[]]); try contradiction; intros [E|E]; discriminate|]);
      repeat constructor; cbn [fst]; apply Hne; reflexivity. }
  split; [intros a _; apply Ha|]. split.
  - intros a n b _ Hin. destruct a as [|[|[|a]]]; cbn [ex_heap members In] in Hin;
      repeat match goal with X : _ \/ _ |- _ => destruct X as [X|X] | X : (_, _) = (_, _) |- _ => injection X as <- <- || discriminate X | X : False |- _ => contradiction end; lia.
  - vm_compute. reflexivity.
Qed.

(** Trees that are not read back.  An object without members is refused; a member that is an empty vector makes the write leave
    the sheet, or is lost when another member follows; a text vector ends at its first empty entry; an object with 28 single
    values needs more than 2^31 cells, because each member doubles the width. *)
Definition names (k : nat) : list (str * node Z unit) :=
  map (fun i => (show_int (100 + Z.of_nat i), Leaf 1 [[CNum 1]])) (seq 0 k).
Theorem C28_members_refuted :
  splat (Obj [] (lit "T") [] : node Z unit) = Throw /\
  splat (Obj [] (lit "T") [(lit "a", Leaf 0 [[]])] : node Z unit) = UB /\
  (do g <- splat (Obj [] (lit "T") [(lit "a", Leaf 0 [[]]); (lit "b", Leaf 1 [[CNum 1]])] : node Z unit); has_child g (View 0 1 0) (lit "a")) = Ok false /\
  (do g <- splat (Obj [] (lit "T") [(lit "a", Leaf 3 [[CStr (lit "x"); CStr []; CStr (lit "y")]])] : node Z unit);
   do v <- child g (View 0 (g_rows g) 0) (lit "a"); as_vector extract_string g v) = Ok [lit "x"] /\
  splat (Obj [] (lit "T") (names 28)) = UB.
Proof. vm_compute. repeat split. Qed.
Print Assumptions C28_members_refuted.
Fixpoint sortedb (l : list (str * node Z unit)) : bool :=
  match l with
  | [] => true
  | p :: r => forallb (fun q => match ci_compare (fst p) (fst q) with Lt => true | _ => false end) r && sortedb r
  end.
Lemma sortedb_ok l : sortedb l = true -> StronglySorted (fun p q => ci_compare (fst p) (fst q) = Lt) l.
Proof.
  induction l as [|p l IH]; intro H; [constructor|]. cbn [sortedb] in H. apply andb_prop in H as [H1 H2]. constructor; [exact (IH H2)|].
  apply Forall_forall. intros q Hq. rewrite forallb_forall in H1. specialize (H1 q Hq). now destruct (ci_compare (fst p) (fst q)).
Qed.
Theorem C28_width_refuted : exists t : node Z unit, wf t /\ is_object t /\ splat t = UB.
Proof.
  exists (Obj [] (lit "T") (names 28)). split; [|split; [exact Logic.I|apply C28_members_refuted]].
  constructor; [now left|discriminate| | |].
  - intro E. apply (f_equal (@length _)) in E. unfold names in E. rewrite map_length, seq_length in E. discriminate E.
  - unfold names. apply Forall_forall. intros p Hp. apply in_map_iff in Hp as (i & <- & _). cbn [fst snd]. split.
    + apply show_int_plain.
    + constructor; [lia|discriminate|repeat constructor].
  - apply sortedb_ok. vm_compute. reflexivity.
Qed.
Print Assumptions C28_width_refuted.
