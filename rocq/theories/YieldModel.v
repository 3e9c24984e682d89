(** dal/curve/yccomponent.hpp, ycimp.cpp: discount curves built on one another.  Curves live in a heap, their address is their
    place in it; handles keep them alive, so addresses are not used again and nothing is freed. *)
From Coq Require Import Reals List ZArith Bool Arith.
From Verif Require Import Base StringModel CurveModel.
Import ListNotations.
Open Scope nat_scope.

(** ycimp.cpp:61-67 a DiscountPWLF_ (the only discount curve in the library) with its name, forward rates and base handle, which
    may be empty; or another kind of YCComponent_ (yccomponent.hpp:12-22), of which nothing is known *)
Inductive component := Curve (name : str) (fwds : pwl) (base : option nat) | Other.
Definition heap := list component.
(** ycimp.cpp:90-94 NewDiscountPWLF *)
Definition new_curve (h : heap) (name : str) (fwds : pwl) (base : option nat) : heap * nat := (h ++ [Curve name fwds base], length h).

(** a std::map from pointers ([None] is null) to handles ([None] is empty): the entry put last is first *)
Definition handles := list (option nat * option nat).
Definition same_ptr (a b : option nat) : bool := match a, b with Some x, Some y => x =? y | None, None => true | _, _ => false end.
Fixpoint entry (m : handles) (k : option nat) : option (option nat) :=
  match m with [] => None | (k0, v) :: m' => if same_ptr k0 k then Some v else entry m' k end.
(** platform.hpp:94-96 handle_cast to a discount curve: empty when the object is of another kind *)
Definition as_curve (h : heap) (v : option nat) : option nat :=
  match v with Some a => match nth_error h a with Some (Curve _ _ _) => Some a | _ => None end | None => None end.
(** yccomponent.hpp:31-34 NewBase *)
Definition new_base (h : heap) (base : option nat) (changes : handles) : option nat :=
  match entry changes base with None => base | Some v => as_curve h v end.
(** ycimp.cpp:85-87 Clone *)
Definition clone (h : heap) (a : nat) (name : str) (changes : handles) : option (heap * nat) :=
  match nth_error h a with Some (Curve _ f b) => Some (new_curve h name f (new_base h b changes)) | _ => None end.

(** yccomponent.hpp:37-41 Poll of the components; the fuel bounds the length of the line of bases *)
Fixpoint poll (fuel : nat) (h : heap) (a : nat) (all : list nat) : option (list nat) :=
  match fuel with
  | O => None
  | S n => match nth_error h a with
           | Some (Curve _ _ b) => let all' := all ++ [a] in match b with Some c => poll n h c all' | None => Some all' end
           | _ => None end
  end.
(** yccomponent.hpp:43-48 Poll of the handles *)
Fixpoint poll_handles (fuel : nat) (h : heap) (a : nat) (all : handles) : option handles :=
  match fuel with
  | O => None
  | S n => match nth_error h a with
           | Some (Curve _ _ b) => match b with Some c => poll_handles n h c ((Some c, Some c) :: all) | None => Some all end
           | _ => None end
  end.
(** ycimp.cpp:68-71 operator(): the discount factor between two dates *)
Fixpoint discount_at (fuel : nat) (h : heap) (a : nat) (from to_ : Z) : outcome R :=
  match fuel with
  | O => OutOfFuel
  | S n => match nth_error h a with
           | Some (Curve _ p b) =>
               do y <- pwl_integral_to p to_; do x <- pwl_integral_to p from;
               do z <- match b with Some c => discount_at n h c from to_ | None => Ok 1%R end;
               Ok (exp (- (y - x) / 365) * z)%R
           | _ => UB end
  end.

(** what is done with curves: made on a base that is a curve, or copied with handles to components that are there *)
Inductive made : heap -> Prop :=
| made_none : made []
| made_other h : made h -> made (h ++ [Other])
| made_curve h name f b : made h -> as_curve h b = b -> made (fst (new_curve h name f b))
| made_clone h a name changes h' a' : made h -> clone h a name changes = Some (h', a') -> made h'.
