(** Model of dal/math/aad/blocklist.hpp: the block list under the AAD tape. *)
From Coq Require Import List Arith Bool.
From Verif Require Import Base Vec.
Import ListNotations.

(** A place: a block of the list and an offset in it (blocklist.hpp:30-37, a list iterator with an array iterator).  List
    iterators and array addresses do not move when blocks are appended, so a place also stands for the address of an element. *)
Notation place := (nat * nat)%type.
Section Block.
Context {T : Type}.
Variable B : nat.      (* BLOCK_SIZE_ *)
Variable blank : T.    (* the value-initialised element *)

(** blocklist.hpp:24-37.  [lastBlock_] is always the last block and [lastSpace_] the end of [currBlock_], so they are
    not stored.  [mark] is [None] while markedBlock_ is unset or dangling. *)
Record blocks := Blocks { data : list (list T); curr : nat; next : nat; mark : option place }.

(** blocklist.hpp:39-44 NewBlock *)
Definition new_block (s : blocks) : blocks := Blocks (data s ++ [repeat blank B]) (length (data s)) 0 (mark s).
(** blocklist.hpp:46-54 NextBlock *)
Definition next_block (s : blocks) : blocks :=
  if S (curr s) =? length (data s) then new_block s else Blocks (data s) (S (curr s)) 0 (mark s).
(** blocklist.hpp:65-70 the constructor and Clear *)
Definition init : blocks := new_block (Blocks [] 0 0 None).
Definition clear (s : blocks) : blocks := init.
(** blocklist.hpp:72-76 Rewind *)
Definition rewind (s : blocks) : blocks := Blocks (data s) 0 0 (mark s).
(** storage behind a place *)
Definition read (s : blocks) (p : place) : outcome T := do b <- get (data s) (fst p); get b (snd p).
Definition write (s : blocks) (p : place) (x : T) : outcome blocks :=
  do b <- get (data s) (fst p); do b' <- put b (snd p) x; do d <- put (data s) (fst p) b'; Ok (Blocks d (curr s) (next s) (mark s)).
(** the test [if (nextSpace_ == lastSpace_) NextBlock()] *)
Definition room (s : blocks) : blocks := if next s =? B then next_block s else s.
(** blocklist.hpp:90-96 EmplaceBack: the address of the new element *)
Definition emplace (x : T) (s : blocks) : outcome (place * blocks) :=
  let s1 := room s in
  let p := (curr s1, next s1) in
  do s2 <- write s1 p x;
  Ok (p, Blocks (data s2) (curr s2) (S (next s2)) (mark s2)).
(** blocklist.hpp:106-120 EmplaceBackMulti: the address of the first of [n] elements, left as they are.  Moving
    nextSpace_ beyond the end of the block is undefined. *)
Definition emplace_multi (n : nat) (s : blocks) : outcome (place * blocks) :=
  let s1 := if B - next s <? n then next_block s else s in
  if next s1 + n <=? B then Ok ((curr s1, next s1), Blocks (data s1) (curr s1) (next s1 + n) (mark s1)) else UB.
(** blocklist.hpp:122-127 SetMark *)
Definition set_mark (s : blocks) : blocks :=
  let s1 := room s in Blocks (data s1) (curr s1) (next s1) (Some (curr s1, next s1)).
(** blocklist.hpp:149-153 RewindToMark *)
Definition rewind_to_mark (s : blocks) : outcome blocks :=
  match mark s with Some (b, o) => Ok (Blocks (data s) b o (mark s)) | None => UB end.

(** * Iterators: blocklist.hpp:157-219.  firstSpace_ and lastSpace_ are the bounds of the current block. *)
(** operator++ *)
Definition step_up (s : blocks) (p : place) : outcome place :=
  let '(b, o) := p in if S o =? B then (if S b <? length (data s) then Ok (S b, 0) else UB) else Ok (b, S o).
(** operator-- *)
Definition step_down (s : blocks) (p : place) : outcome place :=
  let '(b, o) := p in if o =? 0 then (match b with S b' => Ok (b', B - 1) | O => UB end) else Ok (b, o - 1).
Definition place_eqb (p q : place) : bool := (fst p =? fst q) && (snd p =? snd q).
(** blocklist.hpp:272-300 Begin, End; :302-304 Mark *)
Definition begin_ : place := (0, 0).
Definition end_ (s : blocks) : place := (curr s, next s).
(** the elements met by [for (it = from; it != to; ++it)], as in Size (:78-83) and Tape_::ResetAdjoints (tape.cpp:16-17) *)
Fixpoint walk_up (fuel : nat) (s : blocks) (from to : place) : outcome (list T) :=
  if place_eqb from to then Ok []
  else match fuel with
       | O => OutOfFuel
       | S f => do x <- read s from; do p <- step_up s from; do l <- walk_up f s p to; Ok (x :: l)
       end.
(** the places met by [while (it != to) { ...; --it; } ...], the last turn being for [to] itself: expr.hpp:528-545 PropagateAdjoints *)
Fixpoint walk_down (fuel : nat) (s : blocks) (from to : place) : outcome (list place) :=
  match fuel with
  | O => OutOfFuel
  | S f => if place_eqb from to then Ok [from] else do p <- step_down s from; do l <- walk_down f s p to; Ok (from :: l)
  end.
(** blocklist.hpp:306-320 Find *)
Fixpoint find_from (fuel : nat) (s : blocks) (it : place) (x : place) : outcome place :=
  if place_eqb it begin_ then (if place_eqb it x then Ok it else Ok (end_ s))
  else match fuel with
       | O => OutOfFuel
       | S f => do it' <- step_down s it; if place_eqb it' x then Ok it' else find_from f s it' x
       end.
Definition find (s : blocks) (x : place) : outcome place := find_from (S (curr s) * B) s (end_ s) x.
(** the number of slots allocated: enough turns for any walk that ends *)
Definition slots (s : blocks) : nat := length (data s) * B.
Definition enumerate (s : blocks) : outcome (list T) := walk_up (slots s) s begin_ (end_ s).

(** what a program does with the list *)
Inductive op := Emplace (x : T) | SetMark | RewindToMark | Rewind | Clear.
Definition apply (o : op) (s : blocks) : outcome blocks :=
  match o with
  | Emplace x => do r <- emplace x s; Ok (snd r)
  | SetMark => Ok (set_mark s)
  | RewindToMark => rewind_to_mark s
  | Rewind => Ok (rewind s)
  | Clear => Ok (clear s)
  end.
Fixpoint run (l : list op) (s : blocks) : outcome blocks :=
  match l with [] => Ok s | o :: r => do s' <- apply o s; run r s' end.
End Block.
Arguments blocks T : clear implicits.
Arguments op T : clear implicits.
