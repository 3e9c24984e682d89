(** Descriptions of models, the models made from them, their parameters and their copies: dal/model/base.hpp, blackscholes.hpp, dupire.hpp,
    factory.hpp, public/src/models.hpp.  A model keeps pointers to its own parameters, so models are kept in a heap here. *)
From Coq Require Import String Ascii ZArith List Bool Arith.
From Verif Require Import Base Vec StringModel JsonModel DealModel.
Import ListNotations.
Open Scope list_scope.

Section Market.
Context {N : Type}.

(** * Descriptions *)
(** blackscholes.hpp:146-163 BSModelData_, dupire.hpp:249-264 DupireModelData_ (a matrix is given by its rows and the number of its columns), and any other
    class derived from ModelData_ *)
Inductive model_data :=
  | BSData (name : str) (spot vol rate div : N)
  | DupireData (name : str) (spot rate repo : N) (spots times : list N) (cols : nat) (vols : list (list N))
  | OtherData (name : str).
(** the parameterLabels_ of the description: base.hpp:48, blackscholes.hpp:158-162; DupireModelData_ does not set them *)
Definition data_labels (d : model_data) : list str := match d with BSData _ _ _ _ _ => bs_labels | _ => [] end.
Definition data_name (d : model_data) : str := match d with BSData n _ _ _ _ => n | DupireData n _ _ _ _ _ _ _ => n | OtherData n => n end.

(** ** Copies with another name: base.hpp:51-58, blackscholes.cpp:17-23, dupire.cpp:17-23.  The name is a pointer, null for every slide *)
Definition mutant_one {Slide} (d : model_data) (new_name : option str) (slide : option Slide) : outcome model_data :=
  match d with
  | BSData _ spot vol rate div => match new_name with Some n => Ok (BSData n spot vol rate div) | None => UB end
  | DupireData _ spot rate repo spots times cols vols => match new_name with Some n => Ok (DupireData n spot rate repo spots times cols vols) | None => UB end
  | OtherData _ => Throw
  end.
Fixpoint slide_all {Slide} (d : model_data) (slides : list Slide) : outcome model_data :=
  match slides with [] => Ok d | s :: r => do e <- mutant_one d None (Some s); slide_all e r end.
Definition mutant_model {Slide} (d : model_data) (new_name : str) (slides : list Slide) : outcome model_data :=
  do e <- mutant_one d (Some new_name) (None : option Slide); slide_all e slides.

(** ** Storing: dal/auto/MG_BSModelData_v1_Write.inc, MG_DupireModelData_v1_Write.inc; archive.hpp:115-128 Set, SetOptional *)
Context {T : Type}.
Definition name_member (n : str) : list (str * value N T) := match n with [] => [] | _ => [(lit "name", VOne (AStr n))] end.
Definition number_member (n : string) (x : N) : str * value N T := (lit n, VOne (ANum x)).
Definition store (d : model_data) : outcome (object N T) :=
  match d with
  | BSData n spot vol rate div =>
      Ok (Object (lit "BSModelData_v1") (name_member n ++ [number_member "spot" spot; number_member "vol" vol; number_member "rate" rate; number_member "div" div]))
  | DupireData n spot rate repo spots times cols vols =>
      Ok (Object (lit "DupireModelData_v1") (name_member n ++ [number_member "spot" spot; number_member "rate" rate; number_member "repo" repo;
        (lit "spots", VVec KNum (map ANum spots)); (lit "times", VVec KNum (map ANum times)); (lit "vols", VMat KNum (Z.of_nat cols) (map (map ANum) vols))]))
  | OtherData _ => Throw
  end.
(** dal/auto/MG_BSModelData_v1_Read.inc, MG_DupireModelData_v1_Read.inc; archive.hpp:141-150 Get, GetOptional.  What a View_ makes of a member of another
    kind depends on the archive (JsonModel, SplatFileModel) and is left out: it counts as an error here. *)
Fixpoint child (l : list (str * value N T)) (n : string) : option (value N T) :=
  match l with [] => None | (k, v) :: r => if ci_eqb k (lit n) then Some v else child r n end.
Definition read_name (l : list (str * value N T)) : outcome str :=
  match child l "name" with None => Ok [] | Some (VOne (AStr n)) => Ok n | Some _ => Throw end.
Definition read_number (l : list (str * value N T)) (n : string) : outcome N :=
  match child l n with Some (VOne (ANum x)) => Ok x | _ => Throw end.
Fixpoint numbers (l : list (atom N T)) : outcome (list N) :=
  match l with [] => Ok [] | ANum x :: r => do xs <- numbers r; Ok (x :: xs) | _ :: _ => Throw end.
Fixpoint all_numbers (l : list (list (atom N T))) : outcome (list (list N)) :=
  match l with [] => Ok [] | a :: r => do xs <- numbers a; do rs <- all_numbers r; Ok (xs :: rs) end.
Definition read_vector (l : list (str * value N T)) (n : string) : outcome (list N) :=
  match child l n with Some (VVec KNum xs) => numbers xs | _ => Throw end.
Definition read_matrix (l : list (str * value N T)) (n : string) : outcome (nat * list (list N)) :=
  match child l n with Some (VMat KNum w m) => do rows <- all_numbers m; Ok (Z.to_nat w, rows) | _ => Throw end.
Definition restore (o : object N T) : outcome model_data :=
  let l := members o in
  if ci_eqb (otype o) (lit "BSModelData_v1") then
    do n <- read_name l; do spot <- read_number l "spot"; do vol <- read_number l "vol"; do rate <- read_number l "rate"; do div <- read_number l "div";
    Ok (BSData n spot vol rate div)
  else if ci_eqb (otype o) (lit "DupireModelData_v1") then
    do n <- read_name l; do spot <- read_number l "spot"; do rate <- read_number l "rate"; do repo <- read_number l "repo";
    do spots <- read_vector l "spots"; do times <- read_vector l "times"; do m <- read_matrix l "vols";
    Ok (DupireData n spot rate repo spots times (fst m) (snd m))
  else Throw.

(** * Models *)
(** what is in the object: blackscholes.hpp:27-30, dupire.hpp:37-44.  What Allocate and Init compute from it is in PathModel and DupireModel. *)
Inductive market :=
  | BlackScholes (spot vol rate div : N)
  | Dupire (spot rate repo : N) (spots times : list N) (cols : nat) (vols : list (list N)).
Inductive field := FSpot | FVol | FRate | FDiv | FRepo | FLocal (i j : nat).
(** an address: the object and the place in it *)
Definition pointer : Type := (nat * field)%type.
Definition read_field (m : market) (f : field) : outcome N :=
  match m, f with
  | BlackScholes s _ _ _, FSpot => Ok s | BlackScholes _ v _ _, FVol => Ok v | BlackScholes _ _ r _, FRate => Ok r | BlackScholes _ _ _ d, FDiv => Ok d
  | Dupire s _ _ _ _ _ _, FSpot => Ok s | Dupire _ r _ _ _ _ _, FRate => Ok r | Dupire _ _ q _ _ _ _, FRepo => Ok q
  | Dupire _ _ _ _ _ _ vols, FLocal i j => do row <- get vols i; get row j
  | _, _ => UB
  end.
Definition write_field (m : market) (f : field) (x : N) : outcome market :=
  match m, f with
  | BlackScholes s v r d, FSpot => Ok (BlackScholes x v r d) | BlackScholes s v r d, FVol => Ok (BlackScholes s x r d)
  | BlackScholes s v r d, FRate => Ok (BlackScholes s v x d) | BlackScholes s v r d, FDiv => Ok (BlackScholes s v r x)
  | Dupire s r q sp ti c vols, FSpot => Ok (Dupire x r q sp ti c vols) | Dupire s r q sp ti c vols, FRate => Ok (Dupire s x q sp ti c vols)
  | Dupire s r q sp ti c vols, FRepo => Ok (Dupire s r x sp ti c vols)
  | Dupire s r q sp ti c vols, FLocal i j => do row <- get vols i; do row' <- put row j x; do vols' <- put vols i row'; Ok (Dupire s r q sp ti c vols')
  | _, _ => UB
  end.
Record instance := Instance { fields : market; pointers : list pointer; labels : list str }.
(** destroyed models are None *)
Definition heap : Type := list (option instance).
(** blackscholes.hpp:43-48 SetParamPointers, dupire.hpp:164-175 SetParameterPointers, in the object [id] *)
Definition own_pointers (id : nat) (m : market) : list pointer :=
  map (pair id) (match m with
    | BlackScholes _ _ _ _ => [FSpot; FVol; FRate; FDiv]
    | Dupire _ _ _ _ _ cols vols => FSpot :: FRate :: FRepo :: flat_map (fun i => map (FLocal i) (seq 0 cols)) (seq 0 (length vols))
    end).
(** std::setprecision(2) << std::fixed *)
Variable fixed : N -> str.
(** factory.hpp:24-42 CreateModel and the constructors blackscholes.hpp:57-69, dupire.hpp:57-81.  A null handle and other descriptions are refused.  For AAD the
    numbers become Number_s with nodes of their own, which is left out. *)
Definition create (h : heap) (d : option model_data) : outcome heap :=
  match d with
  | Some (BSData _ spot vol rate div) => let m := BlackScholes spot vol rate div in Ok (h ++ [Some (Instance m (own_pointers (length h) m) bs_labels)])
  | Some (DupireData _ spot rate repo spots times cols vols) =>
      let m := Dupire spot rate repo spots times cols vols in
      do l <- dupire_labels fixed spots times (length vols) cols;
      Ok (h ++ [Some (Instance m (own_pointers (length h) m) l)])
  | _ => Throw
  end.
(** the object [i], which must not have been destroyed *)
Definition live (h : heap) (i : nat) : outcome instance := do o <- get h i; match o with Some x => Ok x | None => UB end.
(** blackscholes.hpp:83-87, dupire.hpp:95-99 Clone: a memberwise copy, and then its own pointers *)
Definition clone (h : heap) (i : nat) : outcome heap :=
  do x <- live h i;
  let copy := Instance (fields x) (pointers x) (labels x) in
  Ok (h ++ [Some (Instance (fields copy) (own_pointers (length h) (fields copy)) (labels copy))]).
Definition destroy (h : heap) (i : nat) : outcome heap := do _ <- live h i; put h i None.
(** through the k-th of Parameters(): PutOnTape in simulation.hpp:44-45 replaces the Number_ there *)
Definition deref (h : heap) (p : pointer) : outcome N := do x <- live h (fst p); read_field (fields x) (snd p).
Definition assign (h : heap) (i k : nat) (v : N) : outcome heap :=
  do x <- live h i; do p <- get (pointers x) k; do y <- live h (fst p); do m <- write_field (fields y) (snd p) v;
  put h (fst p) (Some (Instance m (pointers y) (labels y))).
Fixpoint deref_all (h : heap) (l : list pointer) : outcome (list N) :=
  match l with [] => Ok [] | p :: r => do x <- deref h p; do xs <- deref_all h r; Ok (x :: xs) end.
(** ParameterLabels() and what Parameters() point to *)
Definition look (h : heap) (i : nat) : outcome (list str * list N) := do x <- live h i; do vs <- deref_all h (pointers x); Ok (labels x, vs).

(** * Use of several models, from any thread *)
Inductive op := Create (d : option model_data) | Clone (i : nat) | Destroy (i : nat) | Assign (i k : nat) (v : N).
Definition step (h : heap) (o : op) : outcome heap :=
  match o with Create d => create h d | Clone i => clone h i | Destroy i => destroy h i | Assign i k v => assign h i k v end.
(** an error leaves things as they are *)
Fixpoint run (h : heap) (l : list op) : outcome heap :=
  match l with
  | [] => Ok h
  | o :: r => match step h o with Ok h' => run h' r | Throw => run h r | UB => UB | OutOfFuel => OutOfFuel end
  end.
End Market.
Arguments model_data N : clear implicits.
Arguments market N : clear implicits.
Arguments op N : clear implicits.
Arguments heap N : clear implicits.
Arguments instance N : clear implicits.
