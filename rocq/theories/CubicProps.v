(** C38: the cubic spline interpolator. *)
From Coq Require Import Reals List Arith Bool ZArith Lia Lra.
From Verif Require Import Base Vec InterpModel InterpSpec InterpProofs CubicModel CubicProofs CubicSpec.
Import ListNotations.
Open Scope R_scope.

Lemma known_of b : known_order b -> known b.
Proof. unfold known_order, known. lia. Qed.

(** The spline built from a table passes through every point of it, is twice continuously
    differentiable on the whole line, is a cubic between neighbouring knots, and has the
    derivative asked for at each end; evaluation never fails. *)
Theorem C38_spline : forall x f lhs rhs, (2 < length x)%nat -> increasing x -> length f = length x -> known_order lhs -> known_order rhs ->
  exists fpp s s1 s2, fit x f lhs rhs = Ok fpp /\ (forall t, cubic x f fpp t = Ok (s t)) /\
    (forall k, (k < length x)%nat -> s (nth k x 0) = nth k f 0) /\ twice_smooth s s1 s2 /\ cubic_between x s2 /\
    meets lhs s1 s2 (nth 0 x 0) /\ meets rhs s1 s2 (nth (length x - 1) x 0).
Proof.
  intros x f lhs rhs Hlen Hinc Hl Kl Kr. symmetry in Hl. destruct (fit_ok x f Hinc Hlen Hl lhs rhs (known_of _ Kl) (known_of _ Kr)) as (m & E & [Sm Si Sl Sr]).
  exists m, (G0 x f m), (G1 x f m), (G2 x m). split; [exact E|]. split; [intros t; now apply cubic_ok|]. split; [intros k Hk; now apply G_knot|]. split; [|split; [|split]].
  - split; [|split].
    + intros t. now apply G0_d.
    + intros t. now apply G1_d.
    + now apply (G2_c x f).
  - intros k Hk. eexists. intros t Ht. apply (G2_d x f Hinc Hlen Hl m Sm Si k t); [lia|right; lra|right; lra].
  - destruct (G_first x f Hinc Hlen Hl m Sm) as (_ & D1 & D2). pose proof (step_lt x f Hinc Hlen Hl m Sm 0 ltac:(lia)) as H0.
    destruct Sl as [[O S0]|[[O S0]|[O S0]]].
    + left. split; [exact O|]. rewrite D1, S0. field. lra.
    + right. left. split; [exact O|]. now rewrite D2.
    + right. right. split; [exact O|]. rewrite <- S0. apply (G2_d x f Hinc Hlen Hl m Sm Si 0); [lia|now left|right; exact H0].
  - pose proof (G_next x f Hinc Hlen Hl m Sm (length x - 2) ltac:(lia)) as (_ & D1 & D2). pose proof (step_lt x f Hinc Hlen Hl m Sm (length x - 2) ltac:(lia)) as H0.
    pose proof (G2_d x f Hinc Hlen Hl m Sm Si (length x - 2) (nth (length x - 1) x 0) ltac:(lia)) as D3. replace (S (length x - 2)) with (length x - 1)%nat in * by lia.
    destruct Sr as [[O S0]|[[O S0]|[O S0]]].
    + left. split; [exact O|]. rewrite D1, S0. field. lra.
    + right. left. split; [exact O|]. now rewrite D2.
    + right. right. split; [exact O|]. rewrite <- S0. apply D3; [right; exact H0|now left].
Qed.
Print Assumptions C38_spline.

(** Every other input is refused, and none is undefined behaviour. *)
Theorem C38_refused : forall x f lhs rhs, ~ ((2 < length x)%nat /\ increasing x /\ length f = length x /\ known_order lhs /\ known_order rhs) -> fit x f lhs rhs = Throw.
Proof.
  intros x f lhs rhs H. unfold fit. destruct (Nat.ltb_spec 2 (length x)) as [H1|]; [|reflexivity]. destruct (is_increasing x) eqn:H2; [|reflexivity]. apply increasing_iff in H2.
  destruct (Nat.eqb_spec (length x) (length f)) as [H3|]; [|reflexivity]. cbn [andb].
  destruct (Z.eq_dec (order lhs) 1) as [L1|L1]; [|destruct (Z.eq_dec (order lhs) 2) as [L2|L2]; [|destruct (Z.eq_dec (order lhs) 3) as [L3|L3]]].
  4:{ unfold left_end. rewrite (proj2 (Z.eqb_neq _ _) L1), (proj2 (Z.eqb_neq _ _) L2), (proj2 (Z.eqb_neq _ _) L3). reflexivity. }
  all: assert (known lhs) as Kl by (unfold known; auto); destruct (left_ok x f H2 H1 H3 lhs Kl) as (c & E & Hu & _); rewrite E; cbn [obind];
    destruct (forward_ok x f H2 H1 H3 (length x - 2) 1 c ltac:(lia) ltac:(lia) Hu) as (l & El & _); rewrite El; cbn [obind];
    assert (~ known_order rhs) as N by (intros K; apply H; unfold known_order in *; repeat split; auto; lia);
    unfold right_end; rewrite !(get_ok x _ 0), !(get_ok f _ 0) by lia; cbn [obind]; unfold known_order in N;
    rewrite (proj2 (Z.eqb_neq (order rhs) 1)), (proj2 (Z.eqb_neq (order rhs) 2)), (proj2 (Z.eqb_neq (order rhs) 3)) by lia; reflexivity.
Qed.
Print Assumptions C38_refused.

Definition ex_x : list R := [0; 1; 3].
Definition ex_f : list R := [1; 2; 0].
Example C38_spline_example : (2 < length ex_x)%nat /\ increasing ex_x /\ length ex_f = length ex_x /\ known_order (Boundary 1 4) /\ known_order (Boundary 3 (-2)).
Proof.
  split; [cbn; lia|]. split; [apply increasing_iff; cbn; destruct (Rlt_dec 0 1); [|lra]; destruct (Rlt_dec 1 3); [reflexivity|lra]|].
  split; [reflexivity|]. unfold known_order. cbn. lia.
Qed.
Example C38_refused_example : fit [0; 1; 1] [1; 2; 3] (Boundary 2 0) (Boundary 2 0) = Throw.
Proof. apply C38_refused. intros (_ & H & _). specialize (H 1%nat 2%nat ltac:(cbn; lia)). cbn in H. lra. Qed.
