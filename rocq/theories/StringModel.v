(** Model of dal/string/strings.hpp and dal/string/strings.cpp.  A String_ is a list of bytes; [char] is signed
    (the platforms the library is built for). *)
From Coq Require Import String Ascii ZArith List Bool.
From Verif Require Import Base.
Import ListNotations.
Open Scope Z_scope.

Definition str := list ascii.
Definition lit (s : string) : str := list_ascii_of_string s.
Definition code (c : ascii) : Z := Z.of_N (N_of_ascii c).
Definition chr (z : Z) : ascii := ascii_of_N (Z.to_N z).

(** strings.hpp:17-22 CI_ORDER: identity up to 96, then a..z as A..Z, then 97..101 *)
Definition CI_ORDER : list Z := zrange 0 97 ++ zrange 65 26 ++ zrange 97 5.
(** strings.hpp:29 SortVal; the result is a signed char *)
Definition sort_val (c : ascii) : Z :=
  let x := code c in
  nth (Z.to_nat (x mod 128)) CI_ORDER 0 + (if 128 <=? x then -128 else 0).
(** strings.hpp:31-33 eq, lt *)
Definition ceq (a b : ascii) : bool := sort_val a =? sort_val b.
Definition clt (a b : ascii) : bool := sort_val a <? sort_val b.

(** strings.hpp:35-45 compare on the common prefix, and basic_string::compare (lengths decide ties) *)
Fixpoint ci_compare (a b : str) : comparison :=
  match a, b with
  | [], [] => Eq
  | [], _ :: _ => Lt
  | _ :: _, [] => Gt
  | x :: a', y :: b' => if clt x y then Lt else if clt y x then Gt else ci_compare a' b'
  end.
(** strings.hpp:68-87 operator==, and operator< of basic_string *)
Definition ci_eqb (a b : str) : bool := match ci_compare a b with Eq => true | _ => false end.
Definition ci_ltb (a b : str) : bool := match ci_compare a b with Lt => true | _ => false end.

(** std::find of a char: [None] when absent *)
Fixpoint cut (sep : ascii) (s : str) : str * option str :=
  match s with
  | [] => ([], None)
  | c :: r => if Ascii.eqb c sep then ([], Some r) else let '(a, b) := cut sep r in (c :: a, b)
  end.
(** strings.cpp:13-29 Split; the fuel bounds the number of pieces *)
Fixpoint split_fuel (fuel : nat) (src : str) (sep : ascii) (keep_empties : bool) : list str :=
  match fuel, src with
  | _, [] => []
  | O, _ => []
  | S f, _ =>
      let '(piece, rest) := cut sep src in
      let tail := match rest with None => [] | Some r => split_fuel f r sep keep_empties end in
      match piece with
      | [] => if keep_empties then [] :: tail else tail
      | _ => piece :: tail
      end
  end.
Definition split (src : str) (sep : ascii) (keep_empties : bool) : list str :=
  split_fuel (S (length src)) src sep keep_empties.

(** strings.cpp:57-65 IsFluff *)
Definition is_fluff (c : ascii) : bool := (code c =? 32) || (code c =? 9) || (code c =? 95).
(** toupper in the C locale *)
Definition toupper (c : ascii) : ascii := if (97 <=? code c) && (code c <=? 122) then chr (code c - 32) else c.
(** strings.cpp:68-75 Condensed: toupper of a negative int is undefined *)
Fixpoint condensed (s : str) : outcome str :=
  match s with
  | [] => Ok []
  | c :: r => if is_fluff c then condensed r
              else if 128 <=? code c then UB
              else do t <- condensed r; Ok (toupper c :: t)
  end.

(** strings.cpp:78-100 Equivalent: [rhs] is a C string (the model takes its characters before the terminating
    zero); indexing the bitset with a negative char is undefined. *)
Fixpoint equivalent (p q : str) {struct p} : outcome bool :=
  match p with
  | [] => Ok (match q with [] => true | _ => false end)
  | c :: p' =>
      if 128 <=? code c then UB
      else if is_fluff c then equivalent p' q
      else match q with
           | [] => Ok false
           | d :: q' => if ceq c d then equivalent p' q' else Ok false
           end
  end.

(** strings.cpp:102-123 NextName, on the reversed name *)
Fixpoint next_name_rev (r : str) : str :=
  match r with
  | [] => ["0"%char]
  | c :: p =>
      if (48 <=? code c) && (code c <=? 56) then chr (code c + 1) :: p
      else if code c =? 57 then "0"%char :: next_name_rev p
      else "1"%char :: c :: p
  end.
Definition next_name (s : str) : str := rev (next_name_rev (rev s)).

(** strings.hpp:107-119 Joiner_ *)
Definition joiner (sep : str) (skip_empty : bool) (so_far more : str) : str :=
  match so_far, skip_empty with
  | [], true => more
  | _, _ => match more, skip_empty with
            | [], true => so_far
            | _, _ => so_far ++ sep ++ more
            end
  end.
(** strings.hpp:121-125 Accumulate *)
Definition accumulate (vals : list str) (sep : str) (skip_empty : bool) : str :=
  match vals with
  | [] => []
  | v :: vs => fold_left (joiner sep skip_empty) vs v
  end.
