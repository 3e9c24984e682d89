(** Words of the mesh properties. *)
From Coq Require Import Reals List Arith.
From Verif Require Import MesherModel.
Local Open Scope R_scope.
Definition place (m : mesh) (i : nat) : R := nth i (locations m) 0.
(** n strictly increasing points from start to stop, with the distances between neighbours *)
Record good_mesh (start stop : R) (n : nat) (m : mesh) : Prop := {
  size_ok : length (locations m) = n /\ length (dplus m) = n /\ length (dminus m) = n;
  first_ok : place m 0 = start;
  last_ok : place m (n - 1) = stop;
  order_ok : forall i, (S i < n)%nat -> place m i < place m (S i);
  distance_ok : forall i, (S i < n)%nat ->
    nth i (dplus m) None = Some (place m (S i) - place m i) /\ nth (S i) (dminus m) None = Some (place m (S i) - place m i);
  ends_ok : nth (n - 1) (dplus m) None = None /\ nth 0 (dminus m) None = None }.
