(** What reading an archived tree back means, independently of where its parts are on the sheet. *)
From Coq Require Import String Ascii ZArith List Bool Lia Sorted.
From Verif Require Import Base DateModel StringModel StringSpec OMap DictModel DictSpec SplatModel.
Import ListNotations.
Open Scope Z_scope.

Section Spec.
Variables N T : Type.
Notation cell := (DictModel.cell N T).
Notation node := (node N T).
Definition blank (c : cell) : Prop := c = CEmpty \/ c = CStr [].

(** The trees an object's Write produces: tables with at least one cell; objects with a type and at least one child, the
    children under distinct non-empty names, in the order of the names. *)
Definition tag_ok (tag : str) : Prop :=
  tag = [] \/ exists r, tag = "$"%char :: r /\ ~ In "~"%char r.
Inductive wf : node -> Prop :=
| wf_leaf w m : 1 <= w -> m <> [] -> Forall (fun l => zlen l = w) m -> wf (Leaf w m)
| wf_obj tag type ch : tag_ok tag -> type <> [] -> ch <> [] -> Forall (fun p => fst p <> [] /\ wf (snd p)) ch ->
    StronglySorted (fun p q => ci_compare (fst p) (fst q) = Lt) ch -> wf (Obj tag type ch).
Definition is_object (t : node) : Prop := match t with Obj _ _ _ => True | _ => False end.

(** the rows of a dictionary's table *)
Definition entries (d : dict N T) : list (list cell) := map (fun p => [CStr (fst p); snd p]) d.

(** A view shows a table: as a single value, as a vector (unless an entry after the first is blank), as a matrix (unless a
    column after the first is blank throughout), as a dictionary (unless all its values are blank), as a reference to
    a tagged object. *)
Definition shows_table (g : grid N T) (v : view) (w : Z) (m : list (list cell)) : Prop :=
  (forall c, m = [[c]] -> get_scalar g v = Ok c) /\
  (forall c l, m = [c :: l] -> (forall x, In x l -> ~ blank x) -> vector_range g v = Ok (c :: l)) /\
  ((forall j, (1 <= j < Z.to_nat w)%nat -> exists l x, In l m /\ nth_error l j = Some x /\ ~ blank x) -> matrix_range g v = Ok m) /\
  (forall l d, stored l d -> m = entries d -> (exists k x, In (k, x) d /\ ~ blank x) -> as_dictionary g v = Ok d) /\
  (forall t, m = [[CStr t]] -> tag_ok t -> tag_of g v = Ok t).
(** A view shows a tree. *)
Inductive shows (g : grid N T) : view -> node -> Prop :=
| shows_leaf v w m : shows_table g v w m -> shows g v (Leaf w m)
| shows_obj v tag type ch :
    type_of g v = Ok type -> tag_of g v = Ok tag ->
    (forall n k name, In (n, k) ch -> same_up_to_case n name ->
       has_child g v name = Ok true /\ exists v', child g v name = Ok v' /\ shows g v' k) ->
    (forall name, (forall n k, In (n, k) ch -> ~ same_up_to_case n name) -> has_child g v name = Ok false /\ child g v name = Throw) ->
    shows g v (Obj tag type ch).
End Spec.
Arguments blank {N T}. Arguments wf {N T}. Arguments is_object {N T}. Arguments shows_table {N T}. Arguments shows {N T}.
Arguments entries {N T}.
