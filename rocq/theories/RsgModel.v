(** Random sequence generators kept in the repository: PseudoRSG_ (dal/math/random/pseudorandom.hpp:53-71), the functions of
    public/src/random.hpp and the way public/excel/__random.cpp calls them.  The numbers given by the spreadsheet have been read and
    cut to whole numbers (__random.cpp:98-108: double to int); they are taken to fit an int. *)
From Coq Require Import String Ascii ZArith List Bool.
From Coq Require Import Floats.SpecFloat.
From Verif Require Import Base StringModel OMap DateModel RandomModel RepoModel SheetModel.
Import ListNotations.
Open Scope Z_scope.

(** pseudorandom.hpp:13-18; dal/auto/MG_RNGType_enum.inc:35-62: reading the type of generator *)
Inductive kind := IRN | MRG32.
Definition parse_kind (s : str) : outcome kind :=
  match s with
  | [] => Throw
  | _ => do a <- equivalent s (lit "IRN"); if (a : bool) then Ok IRN else
         do b <- equivalent s (lit "SHUFFLEDIRN"); if (b : bool) then Ok IRN else
         do c <- equivalent s (lit "MRG32"); if (c : bool) then Ok MRG32 else
         do d <- equivalent s (lit "MRG32K32A"); if (d : bool) then Ok MRG32 else Throw
  end.
Definition machine := (rng irn + rng mrg)%type.
Record generator := Gen { g_name : str; g_seed : Z; g_dim : Z; g_machine : machine }.
(** pseudorandom.cpp:239-248 New.  seed + 1 is an int; a negative dimension is a double cast to an unsigned type *)
Definition new_machine (k : kind) (seed dim : Z) : outcome machine :=
  if dim <? 0 then UB else
  match k with
  | IRN => do g <- irn_of_seed seed; Ok (inl (rng_new g (Z.to_nat dim)))
  | MRG32 => if seed =? 2 ^ 31 - 1 then UB else Ok (inr (rng_new (mrg_of_seed seed) (Z.to_nat dim)))
  end.
(** pseudorandom.hpp:59-62: the name is read as the type of generator *)
Definition new_generator (name : str) (seed dim : Z) : outcome generator :=
  do k <- parse_kind name; do m <- new_machine k seed dim; Ok (Gen name seed dim m).
(** pseudorandom.hpp:24-28, dal/auto/MG_PseudoRSG_v1_Write.inc, MG_PseudoRSG_v1_Read.inc: what is stored, and what is built from it *)
Definition stored (g : generator) : str * Z * Z := (g_name g, g_seed g, g_dim g).
Definition restored (r : str * Z * Z) : outcome generator := let '(n, s, d) := r in new_generator n s d.

Inductive mode := Uniforms | Normals.
Section Rsg.
(** specialfunctions.cpp InverseNCDF(f, false, false) *)
Variable inverse_ncdf : spec_float -> spec_float.
Definition dim_of (m : machine) : nat := match m with inl r => length (cache r) | inr r => length (cache r) end.
(** pseudorandom.hpp:64-69 FillUniform and FillNormal of a vector of the size of the generator *)
Definition fill (w : mode) (m : machine) : outcome (list spec_float * machine) :=
  match m, w with
  | inl r, Uniforms => do p <- fill_uniform irn_next (length (cache r)) r; Ok (fst p, inl (snd p))
  | inl r, Normals => do p <- fill_normal irn_next inverse_ncdf (length (cache r)) r; Ok (fst p, inl (snd p))
  | inr r, Uniforms => do p <- fill_uniform mrg_next (length (cache r)) r; Ok (fst p, inr (snd p))
  | inr r, Normals => do p <- fill_normal mrg_next inverse_ncdf (length (cache r)) r; Ok (fst p, inr (snd p))
  end.
(** random.hpp:22-31, 43-52 GetPseudoRSGUniform, GetPseudoRSGNormal: the rows of the matrix *)
Fixpoint rows (w : mode) (n : nat) (m : machine) : outcome (list (list spec_float) * machine) :=
  match n with
  | O => Ok ([], m)
  | S k => do p <- fill w m; do r <- rows w k (snd p); Ok (fst p :: fst r, snd r)
  end.
(** the matrix cannot be given a negative number of rows (std::length_error) *)
Definition get (w : mode) (n : Z) (g : generator) : outcome (list (list spec_float) * generator) :=
  if n <? 0 then Throw else do r <- rows w (Z.to_nat n) (g_machine g); Ok (fst r, Gen (g_name g) (g_seed g) (g_dim g) (snd r)).

(** The repository, and the generators by address: a generator is changed by what is drawn from it (rsg_ is a pointer, and FillUniform of
    a const PseudoRSG_ changes what it points to) *)
Record world := World { repo : objects; heap : list (Z * generator) }.
Definition at_address (h : list (Z * generator)) (a : Z) : option generator := option_map snd (find (fun e => fst e =? a) h).
Variable uniq : Z -> str.
Inductive call := Make (a : Z) (name : str) (seed dim : Z) | Draw (w : mode) (f : str) (n : Z) | Drop (f : str).
Inductive answer := AHandle (t : str) | ARows (l : list (list spec_float)) | ACount (n : Z).
(** _excel.hpp:82-90 ToHandle: the object must be a generator *)
Definition the_generator (w : world) (f : str) : outcome (object shape * generator) :=
  do o <- fetch (repo w) f false;
  match o with
  | Some s => match at_address (heap w) (oaddr s) with Some g => Ok (s, g) | None => Throw end
  | None => Throw
  end.
Definition step (w : world) (c : call) : world * outcome answer :=
  match c with
  | Make a name seed dim =>
      match new_generator name seed dim with
      | Ok g => let '(m, t) := load uniq (repo w) (Obj (lit "PseudoRSG") name a Other) in (World m ((a, g) :: heap w), Ok (AHandle t))
      | Throw => (w, Throw) | UB => (w, UB) | OutOfFuel => (w, OutOfFuel)
      end
  | Draw mo f n =>
      match (do p <- the_generator w f; do r <- get mo n (snd p); Ok (oaddr (fst p), r)) with
      | Ok (a, (l, g)) => (World (repo w) ((a, g) :: heap w), Ok (ARows l))
      | Throw => (w, Throw) | UB => (w, UB) | OutOfFuel => (w, OutOfFuel)
      end
  | Drop f =>
      match fetch (repo w) f false with
      | Ok (Some s) => let '(m, n) := erase_each uniq (repo w) [s] in (World m (heap w), Ok (ACount n))
      | _ => (w, Throw)
      end
  end.
Fixpoint run (w : world) (l : list call) : world * list (outcome answer) :=
  match l with
  | [] => (w, [])
  | c :: r => let '(w1, v) := step w c in let '(w2, vs) := run w1 r in (w2, v :: vs)
  end.
End Rsg.
