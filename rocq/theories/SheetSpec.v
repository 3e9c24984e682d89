(** Words for sessions of spreadsheet functions. *)
From Coq Require Import Ascii ZArith List Bool Reals.
From Verif Require Import Base StringModel StringSpec OMap DictModel ExcelModel ExcelSpec RepoModel RepoSpec InterpModel InterpSpec SheetModel.
Import ListNotations.
Open Scope nat_scope.

(** A text, a row or column of numbers, and a table of numbers, as the spreadsheet passes them *)
Definition is_text (o : value) (s : str) : Prop := exists b, o = OStr b (to_pascal s) /\ length s <= Z.to_nat 65535 /\ ~ In "000"%char s.
Definition is_number (o : value) (x : R) : Prop := o = ONum x.
Definition is_numbers (o : value) (l : list R) : Prop :=
  exists b, o = OMulti b (length l) 1 (map ONum l) \/ o = OMulti b 1 (length l) (map ONum l).
Definition is_table (o : value) (c : nat) (m : list (list R)) : Prop :=
  Forall (fun row => length row = c) m /\ exists b, o = OMulti b (length m) c (concat (map (map ONum) m)).
Definition is_left_out (o : value) : Prop := o = OMissing.
(** What comes back: a column of numbers, one text, one number, a table of numbers, a column of texts *)
Definition column (l : list R) : value := OMulti 1 (length l) 1 (map ONum l).
Definition one_text (s : str) : value := OMulti 1 1 1 [OStr 2 (to_pascal s)].
Definition one_number (x : R) : value := OMulti 1 1 1 [ONum x].
Definition shows_table (o : value) (m : list (list R)) : Prop :=
  exists cells, o = OMulti 1 (length m) (length (hd [] m)) cells /\ length cells = length m * length (hd [] m) /\
    forall i j, i < length m -> j < length (hd [] m) -> at_place (length (hd [] m)) cells i j = ONum (nth j (nth i m []) 0%R).
Definition shows_texts (o : value) (l : list str) : Prop :=
  exists cells, o = OMulti 1 (length l) 1 cells /\ Forall2 (fun c s => exists b, c = OStr b (to_pascal s)) cells l.

(** [v] is the value at [t] of the broken line through the points (x, y), flat outside them *)
Definition on_line (x y : list R) (t v : R) : Prop :=
  (forall k, k < length x -> t = nth k x 0%R -> v = nth k y 0%R) /\
  (t <= nth 0 x 0 -> v = nth 0 y 0)%R /\ (nth (length x - 1) x 0 < t -> v = nth (length y - 1) y 0)%R /\
  forall k, S k < length x -> (nth k x 0 < t <= nth (S k) x 0)%R -> between (nth k y 0%R) (nth (S k) y 0%R) v /\
    ((epsilon <= nth (S k) x 0 - t)%R -> v = chord (nth k x 0%R) (nth (S k) x 0%R) (nth k y 0%R) (nth (S k) y 0%R) t).
(** [v] is the value at (a, b) of the surface through the points of the table: along y first, then along x, flat outside *)
Definition on_surface (x y : list R) (f : list (list R)) (a b v : R) : Prop :=
  ((a < nth 0 x 0)%R -> on_line y (nth 0 f []) b v) /\ ((nth (length x - 1) x 0 <= a)%R -> on_line y (nth (length x - 1) f []) b v) /\
  forall k, S k < length x -> (nth k x 0 <= a < nth (S k) x 0)%R ->
    exists z1 z2, on_line y (nth k f []) b z1 /\ on_line y (nth (S k) f []) b z2 /\ v = chord (nth k x 0%R) (nth (S k) x 0%R) z1 z2 a.
(** Settings that may be left out *)
Definition is_maybe (o : value) (l : list R) : Prop := is_left_out o /\ l = [] \/ is_numbers o l /\ l <> [].

Section Words.
Variable uniq : Z -> str.
Variable regex : str -> option (str -> bool).
Variable as_int : R -> outcome Z.
Variable near_int : R -> Z -> bool.
Notation making := (making as_int near_int).
(** the objects in the repository *)
Definition has (m : objects) (s : object shape) : Prop := In s (map snd m).
(** the text of its handle *)
Definition handle (s : object shape) : str := tag_text uniq s.
(** An object that a call makes lives where no object in the repository lives; its name has no tilde. *)
Definition sensible (m : objects) (c : call) : Prop :=
  forall a ty n s, making c = Some (a, Ok (ty, n, s)) -> ~ In "~"%char n /\ forall x, has m x -> oaddr x <> a.
Fixpoint sensible_run (m : objects) (l : list call) : Prop :=
  match l with [] => True | c :: r => sensible m c /\ sensible_run (fst (step uniq regex as_int near_int m c)) r end.
(** the repository after these calls, from the start *)
Definition session (l : list call) : objects := fst (run uniq regex as_int near_int [] l).
(** The call neither makes an object of the type and the (non-empty) name of [s] nor erases [s]. *)
Definition leaves (s : object shape) (c : call) : Prop :=
  (forall a ty n x, making c = Some (a, Ok (ty, n, x)) -> n <> [] -> same_up_to_case ty (otype s) -> ~ same_up_to_case n (oname s)) /\
  (forall h l, c = Erase h -> read_vector (fun o => to_string o false) h false = Ok l -> Forall (fun t => ~ same_up_to_case t (handle s)) l).
(** whole numbers are read back *)
Definition reads_orders : Prop := forall k, (1 <= k <= 3)%Z -> as_int (IZR k) = Ok k /\ near_int (IZR k) k = true.
End Words.
(** The names and the addresses given with calls that make objects *)
Definition name_of (c : call) : option value :=
  match c with
  | NewLinear _ n _ _ | NewSmoothed _ n _ _ _ _ | NewCubic _ n _ _ _ _ | NewLinear2 _ n _ _ _ => Some n
  | _ => None
  end.
Definition address_of (c : call) : list Z :=
  match c with
  | NewLinear a _ _ _ | NewSmoothed a _ _ _ _ _ | NewCubic a _ _ _ _ _ | NewLinear2 a _ _ _ _ => [a]
  | _ => []
  end.
