(** C30, C31: string utilities. *)
From Coq Require Import String Ascii ZArith List Bool Lia.
From Verif Require Import Base StringModel StringSpec StringProofs.
Import ListNotations.
Open Scope Z_scope.

(** * C30 *)
Theorem C30_join_then_split : forall sep keep skip pieces, pieces <> [] ->
  Forall (fun p => p <> [] /\ ~ In sep p) pieces -> split (accumulate pieces [sep] skip) sep keep = pieces.
Proof. intros sep keep skip pieces. exact (join_then_split sep keep skip pieces). Qed.
Print Assumptions C30_join_then_split.
Example C30_join_example : accumulate [lit "CNY"; lit "IB"; lit "x y"] (lit ",") true = lit "CNY,IB,x y" /\
  split (lit "CNY,IB,x y") ","%char true = [lit "CNY"; lit "IB"; lit "x y"].
Proof. vm_compute. split; reflexivity. Qed.

(** Splitting with empties kept cuts the text at every separator; only one trailing separator is lost. *)
Theorem C30_split_cuts_at_separators : forall sep s,
  let l := split s sep true in
  Forall (fun p => ~ In sep p) l /\ (s = join sep l \/ (l <> [] /\ s = join sep l ++ [sep])).
Proof. exact split_pieces. Qed.
Print Assumptions C30_split_cuts_at_separators.
Example C30_split_example : split (lit ",a,,b,") ","%char true = [[]; lit "a"; []; lit "b"] /\
  split (lit ",a,,b,") ","%char false = [lit "a"; lit "b"].
Proof. vm_compute. split; reflexivity. Qed.
Theorem C30_split_without_empties : forall sep s,
  split s sep false = filter (fun p => match p with [] => false | _ => true end) (split s sep true).
Proof. exact split_no_empties. Qed.
Print Assumptions C30_split_without_empties.

(** A piece that is empty and last is not given back. *)
Theorem C30_trailing_empty_piece_refuted : exists sep l, l <> [] /\ Forall (fun p => ~ In sep p) l /\
  split (accumulate l [sep] false) sep true <> l.
Proof.
  exists ","%char, [lit "a"; []]. split; [discriminate|]. split; [|vm_compute; discriminate].
  repeat constructor; intros H; repeat destruct H as [H|H]; discriminate || contradiction.
Qed.
Print Assumptions C30_trailing_empty_piece_refuted.

Theorem C30_equality_is_up_to_case : forall a b, ci_eqb a b = true <-> same_up_to_case a b.
Proof. exact ci_eqb_iff. Qed.
Print Assumptions C30_equality_is_up_to_case.
Example C30_equality_example : ci_eqb (lit "Usd_Libor3m") (lit "USD_LIBOR3M") = true /\ ci_eqb (lit "a{") (lit "A[") = false.
Proof. vm_compute. split; reflexivity. Qed.

(** Exactly one of <, ==, > holds; < is transitive and respects ==. *)
Theorem C30_order_total : forall a b,
  (ci_ltb a b = true /\ ci_eqb a b = false /\ ci_ltb b a = false) \/
  (ci_ltb a b = false /\ ci_eqb a b = true /\ ci_ltb b a = false) \/
  (ci_ltb a b = false /\ ci_eqb a b = false /\ ci_ltb b a = true).
Proof. exact ci_total. Qed.
Print Assumptions C30_order_total.
Theorem C30_order_transitive : forall a b c, ci_ltb a b = true -> ci_ltb b c = true -> ci_ltb a c = true.
Proof. exact ci_ltb_trans. Qed.
Print Assumptions C30_order_transitive.
Theorem C30_order_respects_equality : forall a a' b b', ci_eqb a a' = true -> ci_eqb b b' = true -> ci_ltb a b = ci_ltb a' b'.
Proof. exact ci_ltb_eq. Qed.
Print Assumptions C30_order_respects_equality.
Example C30_order_example : ci_ltb (lit "abc") (lit "ABD") = true /\ ci_ltb (lit "ABD") (lit "abda") = true.
Proof. vm_compute. split; reflexivity. Qed.

Theorem C30_condensed_idempotent : forall s t, condensed s = Ok t -> condensed t = Ok t.
Proof. exact condensed_idempotent. Qed.
Print Assumptions C30_condensed_idempotent.
(** [strip] deletes exactly the spaces, tabs and underscores. *)
Theorem C30_condensed_equal_iff : forall a b ta tb, ascii_only a -> ascii_only b -> strip a ta -> strip b tb ->
  (condensed a = condensed b <-> same_up_to_case ta tb).
Proof. exact condensed_equal_iff. Qed.
Print Assumptions C30_condensed_equal_iff.
Theorem C30_condensed_defined : forall s, ascii_only s -> exists t, condensed s = Ok (map toupper t) /\ strip s t.
Proof. exact condensed_spec. Qed.
Print Assumptions C30_condensed_defined.
Theorem C30_equivalent_iff : forall p q, ascii_only p -> exists b t, equivalent p q = Ok b /\ strip p t /\ (b = true <-> same_up_to_case t q).
Proof. exact equivalent_spec. Qed.
Print Assumptions C30_equivalent_iff.
Theorem C30_equivalent_is_condensed_equality : forall a b t, ascii_only a -> ascii_only b -> condensed b = Ok t ->
  (equivalent a t = Ok true <-> condensed a = condensed b).
Proof. exact equivalent_condensed. Qed.
Print Assumptions C30_equivalent_is_condensed_equality.
Example C30_condensed_example : condensed (lit "act_365 f") = Ok (lit "ACT365F") /\
  equivalent (lit "Act/365_ l") (lit "ACT/365L") = Ok true /\ equivalent (lit "Act/365_ l") (lit "ACT/365") = Ok false /\
  ascii_only (lit "act_365 f").
Proof. vm_compute. repeat split; repeat constructor. Qed.
(** A non-ASCII byte takes Condensed and Equivalent into undefined behaviour. *)
Theorem C30_condensed_non_ascii_refuted : exists s, condensed s = UB /\ equivalent s [] = UB.
Proof. exists [chr 200]. vm_compute. split; reflexivity. Qed.
Print Assumptions C30_condensed_non_ascii_refuted.

(** * C31 *)
Theorem C31_next_name_fresh : forall s n k, n <> k -> ~ same_up_to_case (iter n next_name s) (iter k next_name s).
Proof. exact next_name_fresh. Qed.
Print Assumptions C31_next_name_fresh.
(** The new name only touches a trailing run of digits. *)
Theorem C31_next_name_keeps_stem : forall s, exists p q d, s = p ++ q /\ next_name s = p ++ d /\ d <> [] /\
  Forall (fun c => 48 <= code c <= 57) q /\ Forall (fun c => 48 <= code c <= 57) d.
Proof. exact next_name_prefix. Qed.
Print Assumptions C31_next_name_keeps_stem.
Example C31_example : map (fun n => iter n next_name (lit "trade8")) [0; 1; 2; 3]%nat =
  [lit "trade8"; lit "trade9"; lit "trade10"; lit "trade11"] /\ next_name (lit "99") = lit "000".
Proof. vm_compute. split; reflexivity. Qed.
