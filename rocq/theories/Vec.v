(** C++ vectors with unchecked indexing: an index out of range is undefined behaviour. *)
From Coq Require Import List Arith Lia Bool.
From Verif Require Import Base.
Import ListNotations.

Definition get {A} (l : list A) (n : nat) : outcome A := match nth_error l n with Some v => Ok v | None => UB end.
Fixpoint set_nth {A} (l : list A) (n : nat) (v : A) : list A :=
  match l, n with [], _ => [] | _ :: r, O => v :: r | x :: r, S k => x :: set_nth r k v end.
Definition put {A} (l : list A) (n : nat) (v : A) : outcome (list A) := if n <? length l then Ok (set_nth l n v) else UB.

Section Lemmas.
Context {A : Type}.
Implicit Types l : list A.
Lemma get_ok l n d : n < length l -> get l n = Ok (nth n l d).
Proof. intros H. unfold get. rewrite (nth_error_nth' l d H). reflexivity. Qed.
Lemma get_ub l n : length l <= n -> get l n = UB.
Proof. intros H. unfold get. apply nth_error_None in H. rewrite H. reflexivity. Qed.
Lemma get_inv l n v : get l n = Ok v -> n < length l /\ nth_error l n = Some v.
Proof. unfold get. intros H. destruct (nth_error l n) eqn:E; [|discriminate]. injection H as ->. split; [apply nth_error_Some; congruence|reflexivity]. Qed.
Lemma put_ok l n v : n < length l -> put l n v = Ok (set_nth l n v).
Proof. intros H. unfold put. apply Nat.ltb_lt in H. rewrite H. reflexivity. Qed.
Lemma put_ub l n v : length l <= n -> put l n v = UB.
Proof. intros H. unfold put. apply Nat.ltb_ge in H. rewrite H. reflexivity. Qed.
Lemma set_nth_length l n v : length (set_nth l n v) = length l.
Proof. revert n; induction l as [|x l IH]; intros [|n]; cbn; auto. Qed.
Lemma nth_set_nth l n v d j : n < length l -> nth j (set_nth l n v) d = if j =? n then v else nth j l d.
Proof.
  revert n j; induction l as [|x l IH]; intros [|n] [|j]; cbn; intros H; try lia; auto.
  apply IH. lia.
Qed.
Lemma nth_set_same l n v d : n < length l -> nth n (set_nth l n v) d = v.
Proof. intros H. rewrite nth_set_nth, Nat.eqb_refl by exact H. reflexivity. Qed.
Lemma nth_set_other l n v d j : n < length l -> j <> n -> nth j (set_nth l n v) d = nth j l d.
Proof. intros H Hj. rewrite nth_set_nth by exact H. apply Nat.eqb_neq in Hj. rewrite Hj. reflexivity. Qed.
Lemma set_nth_app a b x y : set_nth (a ++ x :: b : list A) (length a) y = a ++ y :: b.
Proof. induction a as [|z a IH]; cbn; [reflexivity|]. now rewrite IH. Qed.
Lemma get_app a b x : get (a ++ x :: b : list A) (length a) = Ok x.
Proof. unfold get. rewrite nth_error_app2, Nat.sub_diag by lia. reflexivity. Qed.
End Lemmas.
