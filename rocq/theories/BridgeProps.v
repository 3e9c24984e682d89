(** C24: the Brownian bridge. *)
From Coq Require Import List Arith Lia Bool Reals Permutation.
From Verif Require Import Base Vec BridgeModel BridgeSpec BridgeProofs.
Import ListNotations.

Lemma ordered_once n steps : forall used, ordered n used steps -> NoDup (map bridge steps) /\ forall x, In x (map bridge steps) -> x < n /\ used x = false.
Proof.
  induction steps as [|s steps IH]; cbn [ordered map]; intros used H; [split; [constructor|intros x []]|]. destruct H as (A & B & C & D & F). apply IH in F as [N F]. split.
  - constructor; [|exact N]. intros Hin. apply F in Hin as [_ Hin]. rewrite Nat.eqb_refl in Hin. discriminate.
  - intros x [<-|Hin]; [split; [lia|apply D; lia]|]. apply F in Hin as [Hx Hin]. split; [exact Hx|]. apply orb_false_iff in Hin. tauto.
Qed.
(** The index search never runs off the table; it starts with the last time and builds every other time exactly once, each
    between its nearest neighbours already built. *)
Theorem C24_each_time_once : forall n, 0 < n ->
  exists steps, bridge_init n = Ok steps /\ ordered n (fun x => x =? n - 1) steps /\ Permutation (n - 1 :: map bridge steps) (seq 0 n).
Proof.
  intros n Hn. destruct (bridge_init_ok n Hn) as (steps & E & Ho & Hl). exists steps. split; [exact E|]. split; [exact Ho|]. destruct (ordered_once n steps _ Ho) as [N F].
  apply NoDup_Permutation_bis.
  - constructor; [|exact N]. intros Hin. apply F in Hin as [_ Hin]. rewrite Nat.eqb_refl in Hin. discriminate.
  - cbn [length]. rewrite map_length, seq_length. lia.
  - intros x [<-|Hin]; apply in_seq; [lia|]. apply F in Hin. lia.
Qed.
(** Applied to any inner deviates, FillNormal succeeds and is one fixed linear map whose rows are orthonormal: independent
    standard normals come out as independent standard normals, the increments of a Brownian motion over unit steps. *)
Theorem C24_orthogonal : forall n, 0 < n -> exists steps M, bridge_init n = Ok steps /\ orthogonal n M /\
  forall z w, length z = n -> length w = n -> exists out, fill_normal n steps z w = Ok out /\ length out = n /\ forall a, a < n -> nth a out 0%R = sum n (fun i => M a i * nth i z 0)%R.
Proof.
  intros n Hn. destruct (bridge_init_ok n Hn) as (steps & E & Ho & Hl). destruct (fill_normal_ok n steps Hn Ho Hl) as (M & HM & HF). exists steps, M. auto.
Qed.
(** Finding: a generator of dimension 0 is not rejected (sqrtdt_[0] is written). *)
Theorem C24_dimension_0_refuted : bridge_init 0 = UB.
Proof. reflexivity. Qed.
Print Assumptions C24_each_time_once.
Print Assumptions C24_orthogonal.
Print Assumptions C24_dimension_0_refuted.
Example C24_example : bridge_init 6 = Ok [Step 2 0 5; Step 0 0 2; Step 3 3 5; Step 1 1 2; Step 4 4 5].
Proof. reflexivity. Qed.
Example C24_example_2 : forall w, length w = 2 -> exists a, fill_normal 2 [Step 0 0 1] [3; 4]%R w = Ok a.
Proof. intros [|x [|y [|]]]; try discriminate. intros _. eexists. cbn. reflexivity. Qed.
