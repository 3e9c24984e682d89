(** The texts that say yes and no. *)
From Coq Require Import String Ascii ZArith List Bool.
From Verif Require Import Base StringModel StringSpec.
Import ListNotations.
Definition says_true (s : str) : Prop := exists w, In w [lit "TRUE"; lit "T"; lit "Y"; lit "1"] /\ same_up_to_case s w.
Definition says_false (s : str) : Prop := exists w, In w [lit "FALSE"; lit "F"; lit "N"; lit "0"] /\ same_up_to_case s w.
Definition says (s : str) (b : bool) : Prop := if b then says_true s else says_false s.
