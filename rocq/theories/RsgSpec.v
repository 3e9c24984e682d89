(** Words for generators kept in the repository. *)
From Coq Require Import String Ascii ZArith List Bool.
From Coq Require Import Floats.SpecFloat.
From Verif Require Import Base StringModel StringSpec OMap DateModel RandomModel RandomSpec RepoModel RepoSpec SheetModel SheetSpec RsgModel.
Import ListNotations.
Open Scope Z_scope.

Section Words.
Variable icdf : spec_float -> spec_float.
Variable uniq : Z -> str.
Notation step := (step icdf uniq).
Notation run := (run icdf uniq).
Definition start : world := World [] [].
(** An object is made where no held object lives. *)
Definition sensible (w : world) (c : call) : Prop :=
  match c with Make a _ _ _ => forall x, has (repo w) x -> oaddr x <> a | _ => True end.
Fixpoint sensible_run (w : world) (l : list call) : Prop :=
  match l with [] => True | c :: r => sensible w c /\ sensible_run (fst (step w c)) r end.
(** The call neither makes a generator of this name nor drops this one. *)
Definition leaves (s : object shape) (c : call) : Prop :=
  match c with
  | Make _ n _ _ => ~ same_up_to_case n (oname s)
  | Drop f => ~ same_up_to_case f (tag_text uniq s)
  | Draw _ _ _ => True
  end.
(** What is asked of the handle [t], and the answers it gets *)
Definition on_handle (t : str) (c : call) : bool := match c with Draw _ f _ => ci_eqb f t | _ => false end.
Definition asked (t : str) (l : list call) : list (mode * Z) :=
  flat_map (fun c => match c with Draw w f n => if ci_eqb f t then [(w, n)] else [] | _ => [] end) l.
Definition answers (t : str) (l : list call) (vs : list (outcome answer)) : list (outcome answer) :=
  map snd (filter (fun p => on_handle t (fst p)) (combine l vs)).
(** The same questions put to a generator alone *)
Fixpoint alone (g : generator) (l : list (mode * Z)) : list (outcome answer) :=
  match l with
  | [] => []
  | (w, n) :: r => match get icdf w n g with
                   | Ok (rows, g') => Ok (ARows rows) :: alone g' r
                   | Throw => Throw :: alone g r | UB => UB :: alone g r | OutOfFuel => OutOfFuel :: alone g r
                   end
  end.
End Words.
(** The draws made from a generator, one after another *)
Fixpoint after_draws (icdf : spec_float -> spec_float) (g : generator) (l : list (mode * Z)) (g' : generator) : Prop :=
  match l with [] => g' = g | (w, n) :: r => exists rs g1, get icdf w n g = Ok (rs, g1) /\ after_draws icdf g1 r g' end.
(** The j-th row of uniforms of the second kind of generator, in [d] dimensions, with seeds [a] and [b]: fresh numbers of the recurrence
    in rows 0, 2, ..., their distances to one in the rows that follow *)
Definition fresh_row (a b : Z) (d k : nat) : list spec_float := map (deviate a b) (seq (k * d) d).
Definition mirror (row : list spec_float) : list spec_float := map (fun u => fsub (fl_of_Z 1) u) row.
Definition uniform_row (a b : Z) (d j : nat) : list spec_float :=
  if Nat.even j then fresh_row a b d (Nat.div2 j) else mirror (fresh_row a b d (Nat.div2 j)).
(** The names that are understood *)
Definition known_names : list str := [lit "IRN"%string; lit "SHUFFLEDIRN"%string; lit "MRG32"%string; lit "MRG32K32A"%string].
