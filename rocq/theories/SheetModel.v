(** The functions called from the spreadsheet that make, use, list and erase interpolators: public/excel/__interp.cpp,
    public/excel/__repository.cpp, public/src/interp.cpp and repository.cpp, with the generated entry points
    public/auto/MG_Interp*_public.inc and MG_Repository_*_public.inc.  Numbers are real numbers.  A call is taken as one step;
    logging, and the start of the session (InitializeSessionIfNeeded), are left out. *)
From Coq Require Import String Ascii ZArith List Bool Reals.
From Verif Require Import Base Vec StringModel OMap DictModel ExcelModel RepoModel InterpModel CubicModel SmoothModel NoteModel.
Import ListNotations.
Open Scope R_scope.

(** The objects: interp.hpp:47-58 Interp1Linear_, interpcubic.cpp:31-48 Cubic1_, interp2d.hpp:53-64 Interp2Linear_ (its values by
    rows); objects of other classes are kept in the same repository *)
Inductive shape := Linear (x f : list R) | Cubic (x f fpp : list R) | Linear2 (x y : list R) (f : list (list R)) | Other.
Notation value := (oper R).
Notation objects := (omap str (object shape)).
(** interp.cpp:11, interp2d.cpp:11: the types under which they are kept *)
Definition interp1_type : str := lit "Interp1".
Definition interp2_type : str := lit "Interp2".

Fixpoint each {A B} (f : A -> outcome B) (l : list A) : outcome (list B) :=
  match l with [] => Ok [] | x :: r => do y <- f x; do s <- each f r; Ok (y :: s) end.

Section Sheet.
(** strings.cpp:125-129 the text of an address; std::regex *)
Variable uniq : Z -> str.
Variable regex : str -> option (str -> bool).
(** numerics.cpp:12-15 AsInt and platform.hpp:62 IsZero(d - id) *)
Variable as_int : R -> outcome Z.
Variable near_int : R -> Z -> bool.

(** _excel.cpp:956-961 ToDoubleVector, ToIntVector *)
Definition doubles (o : value) (optional : bool) : outcome (list R) := read_vector to_double o optional.
Definition ints (o : value) (optional : bool) : outcome (list Z) := read_vector (to_int as_int near_int) o optional.

(** What is made: its type, its name and the object.  The checks are those of the entry point, in its order, then those of the
    constructor. *)
Definition made := (str * str * shape)%type.
Definition require {A} (b : bool) (k : outcome A) : outcome A := if b then k else Throw.
(** interp.cpp:28-32 Interp1Linear_ *)
Definition linear (name : str) (x f : list R) : outcome made :=
  require ((length x =? length f)%nat && is_monotonic x) (Ok (interp1_type, name, Linear x f)).
(** MG_Interp1_New_Linear_public.inc:12-22, __interp.cpp:134-136 *)
Definition new_linear (name x y : value) : outcome made :=
  do n <- to_string name false;
  do xs <- doubles x false; require (is_increasing xs) (
  do ys <- doubles y false; require (length ys =? length xs)%nat (
  linear n xs ys)).
(** MG_Interp1_New_Linear_Smoothed_public.inc:12-28, __interp.cpp:148-151 *)
Definition new_smoothed (name x y smoothing weights : value) : outcome made :=
  do n <- to_string name false;
  do xs <- doubles x false; require (is_increasing xs) (
  do ys <- doubles y false; require (length ys =? length xs)%nat (
  do l <- to_double smoothing; require (if Rle_dec 0 l then true else false) (
  do ws <- doubles weights true; require ((length ws =? 0)%nat || (length ws =? length xs)%nat) (
  do zs <- smoothed xs ys ws l; linear n xs zs)))).
(** MG_Interp1_New_Cubic_public.inc:12-30, __interp.cpp:153-169 *)
Definition order_ok (k : Z) : bool := ((0 <? k) && (k <=? 3))%Z.
Definition new_cubic (name x y orders values : value) : outcome made :=
  do n <- to_string name false;
  do xs <- doubles x false; require (is_increasing xs) (
  do ys <- doubles y false; require (length ys =? length xs)%nat (
  do os <- ints orders true; require (length os <=? 2)%nat (require ((length os =? 0)%nat || (order_ok (hd 0%Z os) && order_ok (last os 0%Z))) (
  do vs <- doubles values true; require (length vs <=? 2)%nat (require ((length vs =? 0)%nat || negb (length os =? 0)%nat) (
  let left := Boundary (hd 3%Z os) (hd 0 vs) in
  let right := Boundary (last os 3%Z) (last vs 0) in
  do fpp <- fit xs ys left right; Ok (interp1_type, n, Cubic xs ys fpp))))))).
(** MG_Interp2_New_Linear_public.inc:12-26, __interp.cpp:184-190, interp2d.cpp:28-33; the number of columns is that of the first row *)
Definition new_linear2 (name x y z : value) : outcome made :=
  do n <- to_string name false;
  do xs <- doubles x false; require (is_increasing xs) (
  do ys <- doubles y false; require (is_increasing ys) (
  do zs <- to_double_matrix z false; require (length zs =? length xs)%nat (require (length (hd [] zs) =? length ys)%nat (
  require (is_monotonic xs && is_monotonic ys) (
  Ok (interp2_type, n, Linear2 xs ys zs)))))).

(** _excel.cpp:918-927 ToHandleBase of a mandatory handle *)
Definition to_handle (m : objects) (o : value) : outcome (object shape) :=
  do t <- to_string o false;
  match t with
  | [] => Throw
  | _ => do r <- fetch m t false; match r with Some s => Ok s | None => Throw end
  end.
(** interp.hpp:17, interpcubic.cpp:34-36, interp2d.hpp:26 IsInBounds *)
Definition is_in_bounds (s : shape) (t : R) : outcome bool :=
  match s with
  | Cubic x _ _ => do a <- get x 0; do b <- InterpModel.back x; Ok ((if Rle_dec a t then true else false) && (if Rle_dec t b then true else false))
  | _ => Ok true
  end.
(** _excel.hpp:82-90 ToHandle<Interp1_>, __interp.cpp:138-146 *)
Definition value1 (s : shape) (t : R) : outcome R :=
  match s with
  | Linear x f => interp_linear x f t
  | Cubic x f fpp => cubic x f fpp t
  | _ => Throw
  end.
Definition is_interp1 (s : shape) : bool := match s with Linear _ _ | Cubic _ _ _ => true | _ => false end.
Definition checked1 (s : shape) (t : R) : outcome R := do b <- is_in_bounds s t; require b (value1 s t).
Definition interp1_get (m : objects) (f x : value) : outcome (list R) :=
  do s <- to_handle m f; require (is_interp1 (orest s)) (
  do xs <- doubles x false; each (checked1 (orest s)) xs).
(** __interp.cpp:171-182 *)
Definition interp2_get (m : objects) (f x y : value) : outcome (list (list R)) :=
  do s <- to_handle m f;
  match orest s with
  | Linear2 xs ys zs =>
      do qx <- doubles x false; do qy <- doubles y false;
      each (fun a => each (fun b => interp2_linear xs ys zs a b) qy) qx
  | _ => Throw
  end.

(** _excel.cpp:1225-1231, 1253-1261 LoadBase: every handle that is returned is added to the repository, in place of the objects of
    its type and its name when it has a name *)
Definition load (m : objects) (s : object shape) : objects * str := add uniq m s ENameNonempty.
Fixpoint load_all (m : objects) (l : list (object shape)) : objects * list str :=
  match l with
  | [] => (m, [])
  | s :: r => let '(m1, t) := load m s in let '(m2, ts) := load_all m1 r in (m2, t :: ts)
  end.
(** repository.cpp:12-22 EraseRepository *)
Fixpoint erase_each (m : objects) (l : list (object shape)) : objects * Z :=
  match l with
  | [] => (m, 0%Z)
  | s :: r => let '(m1, b) := erase_object uniq m s in let '(m2, n) := erase_each m1 r in (m2, (if b then n + 1 else n)%Z)
  end.

(** What the spreadsheet gets: [Throw] is the text of an error (MG_*_public.inc: catch, Excel::Error) *)
Notation results := (list (ExcelModel.result R R)).
Definition reply (l : results) : outcome value := do r <- to_xloper IZR (fun t => t) l; Ok (fst r).
(** The functions; the address at which an object comes to live is given with the call that makes it *)
Inductive call :=
| NewLinear (a : Z) (name x y : value)
| NewSmoothed (a : Z) (name x y smoothing weights : value)
| NewCubic (a : Z) (name x y orders values : value)
| NewLinear2 (a : Z) (name x y z : value)
| Get (f x : value)
| Get2 (f x y : value)
| Find (pattern : value)
| Erase (handles : value)
| Size.
(** the address and the object of a call that makes one *)
Definition making (c : call) : option (Z * outcome made) :=
  match c with
  | NewLinear a n x y => Some (a, new_linear n x y)
  | NewSmoothed a n x y l w => Some (a, new_smoothed n x y l w)
  | NewCubic a n x y o v => Some (a, new_cubic n x y o v)
  | NewLinear2 a n x y z => Some (a, new_linear2 n x y z)
  | _ => None
  end.
Definition then_reply {A} (m : objects) (r : outcome A) (f : A -> objects * outcome value) : objects * outcome value :=
  match r with Ok x => f x | Throw => (m, Throw) | UB => (m, UB) | OutOfFuel => (m, OutOfFuel) end.
Definition step (m : objects) (c : call) : objects * outcome value :=
  match making c with
  | Some (a, r) =>
      then_reply m r (fun o => let '(ty, n, s) := o in
        let '(m', t) := load m (Obj ty n a s) in (m', reply [RScalar (CStr t)]))
  | None =>
      match c with
      | Get f x => then_reply m (interp1_get m f x) (fun l => (m, reply [RVector (map CNum l)]))
      | Get2 f x y =>
          then_reply m (interp2_get m f x y) (fun l => (m, reply [RMatrix (length (hd [] l)) (map (map CNum) l)]))
      | Find p =>
          (* MG_Repository_Find_public.inc:13-19 *)
          then_reply m (do s <- to_string p false; match regex s with None => Throw | Some f => Ok f end) (fun f =>
            let '(m', ts) := load_all m (find_where f m) in (m', reply [RVector (map CStr ts)]))
      | Erase h =>
          (* MG_Repository_Erase_public.inc:13-19 *)
          then_reply m (read_vector (to_handle m) h false) (fun l =>
            let '(m', n) := erase_each m l in (m', reply [RScalar (CNum (IZR n))]))
      | _ => (m, reply [RScalar (CNum (IZR (size m)))])
      end
  end.
Fixpoint run (m : objects) (l : list call) : objects * list (outcome value) :=
  match l with
  | [] => (m, [])
  | c :: r => let '(m1, v) := step m c in let '(m2, vs) := run m1 r in (m2, v :: vs)
  end.
End Sheet.

(** _excel.cpp:1049-1059 XError: the text shown for a message *)
Definition knock_on : str := lit "#Error:  Can't find object '#".
Definition x_error (msg : str) (arg_name : option str) : str :=
  let display := lit "#Error:  " ++ msg in
  if ci_eqb (firstn (length knock_on) display) knock_on then removelast (skipn (length knock_on - 1) display)
  else match arg_name with Some a => display ++ lit "(at input '" ++ a ++ lit "')" | None => display end.
(** exceptions.cpp:97-104 format, as compiled for Windows *)
Definition format_windows (file line func msg : string) : string :=
  (if String.eqb func "(unknown)" then "" else func ++ ": ")%string ++ newline ++ "  " ++ file ++ "(" ++ line ++ "): " ++ newline ++ msg.
