(** C54: spatial grids. *)
From Coq Require Import Reals List Arith ZArith Bool Lia Lra Psatz.
From Verif Require Import Base Vec InterpModel InterpSpec InterpProofs InterpProps MesherModel MesherSpec MesherProofs.
Import ListNotations.
Local Open Scope R_scope.

(** A uniform mesh of two or more points. *)
Theorem C54_uniform start stop n : start < stop -> (2 <= n)%nat -> exists m, uniform start stop n = Ok m /\ good_mesh start stop n m /\
  (forall i, (i < n)%nat -> place m i = start + INR i * ((stop - start) / INR (n - 1))).
Proof.
  intros Hs Hn. unfold uniform. rewrite rgt_true by exact Hs. cbn [negb]. destruct (Nat.eqb_spec n 0); [lia|].
  assert (Hp : 0 < INR n - 1) by (apply lt_INR in Hn as H1 || idtac; pose proof (le_INR _ _ Hn) as H2; change (INR 2) with 2 in H2; lra).
  rewrite minus_INR by lia. change (INR 1) with 1.
  set (dx := (stop - start) / (INR n - 1)). assert (Hx : dx * (INR n - 1) = stop - start) by (unfold dx; field; lra).
  set (g := fun i : nat => start + INR i * dx).
  assert (Hl : map (fun i => if (i =? n - 1)%nat then stop else start + INR i * dx) (seq 0 n) = map g (seq 0 n)).
  { apply map_ext_in. intros i Hi. unfold g. destruct (Nat.eqb_spec i (n - 1)) as [->|]; [|reflexivity]. rewrite minus_INR by lia. change (INR 1) with 1. lra. }
  assert (Hd : 0 < dx) by (unfold dx; apply Rdiv_lt_0_compat; lra).
  eexists. split; [reflexivity|]. rewrite Hl. split.
  - eapply good_ext; [| | |apply (good_of start stop n g Hn)]; cbn [locations dplus dminus].
    + reflexivity.
    + apply map_ext_in. intros i Hi. apply in_seq in Hi. unfold up. destruct (Nat.eqb_spec i (n - 1)); [reflexivity|].
      rewrite !nth_map_seq by lia. unfold g. rewrite S_INR. f_equal. lra.
    + apply map_ext_in. intros i Hi. apply in_seq in Hi. unfold down. destruct i; [reflexivity|].
      rewrite !nth_map_seq by lia. unfold g. rewrite S_INR. f_equal. lra.
    + unfold g. cbn. lra.
    + unfold g. rewrite minus_INR by lia. change (INR 1) with 1. lra.
    + intros i _. unfold g. rewrite S_INR. lra.
  - intros i Hi. unfold place. cbn [locations]. rewrite nth_map_seq by exact Hi. reflexivity.
Qed.
Print Assumptions C54_uniform.

(** the plain mesh, by its points *)
Lemma plain start stop n c d : start <= c <= stop -> start < stop -> 0 < d -> (2 <= n)%nat -> (Z.of_nat n <= 2147483647)%Z ->
  let g i := spot start stop c d (tick n i) in let loc := map g (seq 0 n) in let dist i := nth (S i) loc 0 - nth i loc 0 in
  concentrating start stop n c d false = Ok {| locations := loc; dplus := map (up n dist) (seq 0 n); dminus := map (down dist) (seq 0 n) |} /\
  good_mesh start stop n {| locations := loc; dplus := map (up n dist) (seq 0 n); dminus := map (down dist) (seq 0 n) |}.
Proof.
  intros Hc Hs Hd Hn Hmax g loc dist. split.
  - unfold concentrating. rewrite !rge_true, rgt_true by nra. cbn [negb andb obind]. destruct (Nat.eqb_spec n 0); [lia|].
    rewrite (mesh_of start stop c d Hs Hd n _ (tick n)); [reflexivity|exact Hn|apply tick_0|apply tick_1; assumption| |].
    + intros i Hi. pose proof (tick_lt n Hn Hmax i (S i) ltac:(lia)). assert (0 < epsilon) by (unfold epsilon; lra). lra.
    + intros i Hi. reflexivity.
  - apply (good_of start stop n g Hn).
    + unfold g. rewrite tick_0. apply spot_0; assumption.
    + unfold g. rewrite tick_1 by assumption. apply spot_1; assumption.
    + intros i Hi. apply spot_lt; try assumption. pose proof (tick_lt n Hn Hmax i (S i) ltac:(lia)). assert (0 < epsilon) by (unfold epsilon; lra). lra.
Qed.
Lemma clamp_range r n : (3 <= n)%Z -> (1 <= Z.max (Z.min r (n - 2)) 1 <= n - 2)%Z. Proof. lia. Qed.

(** A concentrating mesh of two or more points, with or without the concentration point on the grid. *)
Theorem C54_concentrating start stop n c d require : start <= c <= stop -> start < stop -> 0 < d ->
  (2 <= n)%nat -> (Z.of_nat n <= 2147483647)%Z ->
  exists m, concentrating start stop n c d require = Ok m /\ good_mesh start stop n m.
Proof.
  intros Hc Hs Hd Hn Hmax. destruct require; [|destruct (plain start stop n c d Hc Hs Hd Hn Hmax) as [E G]; eexists; split; [exact E|exact G]].
  assert (He : 0 < epsilon) by (unfold epsilon; lra).
  unfold concentrating. rewrite !rge_true, rgt_true by nra. cbn [negb andb obind].
  unfold knots. destruct (is_close c start || is_close c stop) eqn:Ecl; cbn [obind fst snd].
  - destruct (Nat.eqb_spec n 0); [lia|].
    rewrite (mesh_of start stop c d Hs Hd n _ (tick n)); [|exact Hn|apply tick_0|apply tick_1; assumption| |].
    + eexists. split; [reflexivity|]. destruct (plain start stop n c d Hc Hs Hd Hn Hmax) as [_ G]. exact G.
    + intros i Hi. pose proof (tick_lt n Hn Hmax i (S i) ltac:(lia)). lra.
    + intros i Hi. destruct (tick_in n Hn Hmax i Hi). apply interp_two; [apply H|assumption].
  - apply orb_false_elim in Ecl as [E1 E2].
    assert (Hc1 : start < c) by (destruct (Rle_lt_or_eq_dec start c (proj1 Hc)) as [L|E]; [exact L|subst; rewrite is_close_refl in E1; discriminate]).
    assert (Hc2 : c < stop) by (destruct (Rle_lt_or_eq_dec c stop (proj2 Hc)) as [L|E]; [exact L|subst; rewrite is_close_refl in E2; discriminate]).
    pose proof (c1_neg start stop c d Hs Hd Hc1) as N1. pose proof (c2_pos start stop c d Hs Hd Hc2) as N2.
    set (c1 := arcsinh ((start - c) / (d * (stop - start)))) in *. set (c2 := arcsinh ((stop - c) / (d * (stop - start)))) in *.
    set (z0 := - c1 / (c2 - c1)). assert (Hz : 0 < z0 < 1).
    { unfold z0. split; [apply Rdiv_lt_0_compat; lra|]. apply (Rmult_lt_reg_r (c2 - c1)); [lra|]. unfold Rdiv. rewrite Rmult_assoc, Rinv_l by lra. lra. }
    destruct (Nat.eqb_spec n 1); [lia|]. set (k := Z.max (Z.min _ _) 1).
    pose proof (INR_n n Hn Hmax) as Bn.
    destruct (Nat.eq_dec n 2) as [E|E].
    + assert (Hk : k = 1%Z) by (unfold k; rewrite E; change (Z.of_nat 2 - 2)%Z with 0%Z; lia). rewrite Hk.
      assert (Hu : is_monotonic [0; IZR 1 / (INR n - 1); 1] = true).
      { apply monotonic_iff. rewrite E. change (INR 2) with 2. intros i j Hij. cbn [length] in Hij.
        destruct i as [|[|[|]]]; destruct j as [|[|[|]]]; cbn [nth]; lia || lra. }
      rewrite Hu. cbn [obind fst snd]. destruct (Nat.eqb_spec n 0); [lia|].
      rewrite (mesh_of start stop c d Hs Hd n _ (tick n)); [|exact Hn|apply tick_0|apply tick_1; assumption| |].
      * eexists. split; [reflexivity|]. destruct (plain start stop n c d Hc Hs Hd Hn Hmax) as [_ G]. exact G.
      * intros i Hi. pose proof (tick_lt n Hn Hmax i (S i) ltac:(lia)). lra.
      * intros i Hi. lia.
    + assert (Hk : (1 <= k <= Z.of_nat n - 2)%Z) by (apply clamp_range; lia). clearbody k.
      assert (Eu : IZR k / (INR n - 1) = tick n (Z.to_nat k)) by (unfold tick; rewrite (INR_IZR_INZ (Z.to_nat k)), Z2Nat.id by lia; field; lra).
      rewrite Eu. destruct (tick_in n Hn Hmax (Z.to_nat k) ltac:(lia)) as [U1 U2]. set (u := tick n (Z.to_nat k)) in *.
      assert (Hu : is_monotonic [0; u; 1] = true).
      { apply monotonic_iff. intros i j Hij. cbn [length] in Hij. destruct i as [|[|[|]]]; destruct j as [|[|[|]]]; cbn [nth]; lia || lra. }
      rewrite Hu. cbn [obind fst snd]. destruct (Nat.eqb_spec n 0); [lia|].
      rewrite (mesh_of start stop c d Hs Hd n _ (fun i => bent u z0 (tick n i))); [|exact Hn| | | |].
      * eexists. split; [reflexivity|]. apply (good_of start stop n (fun i => spot start stop c d (bent u z0 (tick n i))) Hn).
        -- rewrite tick_0, bent_0 by assumption. apply spot_0; assumption.
        -- rewrite tick_1, bent_1 by assumption. apply spot_1; assumption.
        -- intros i Hi. apply spot_lt; try assumption. apply bent_lt; try assumption. pose proof (tick_lt n Hn Hmax i (S i) ltac:(lia)). lra.
      * rewrite tick_0. apply bent_0; assumption.
      * rewrite tick_1 by assumption. apply bent_1; assumption.
      * intros i Hi. apply bent_lt; try assumption. pose proof (tick_lt n Hn Hmax i (S i) ltac:(lia)). lra.
      * intros i Hi. destruct (tick_in n Hn Hmax i Hi) as [T1 T2]. apply interp_three; try assumption.
        destruct (Nat.lt_trichotomy i (Z.to_nat k)) as [L|[->|L]]; [right|left; reflexivity|right].
        -- pose proof (tick_lt n Hn Hmax i (Z.to_nat k) L). fold u in H. fold (tick n i). rewrite Rabs_right; lra.
        -- pose proof (tick_lt n Hn Hmax (Z.to_nat k) i L). fold u in H. fold (tick n i). rewrite Rabs_left; lra.
Qed.
Print Assumptions C54_concentrating.

(** When the concentration point is required and there are three points or more, it is on the grid, or so close to an end
    that the code takes the end for it. *)
Theorem C54_required start stop n c d m : start <= c <= stop -> start < stop -> 0 < d ->
  (3 <= n)%nat -> (Z.of_nat n <= 2147483647)%Z -> concentrating start stop n c d true = Ok m ->
  (exists i, (i < n)%nat /\ place m i = c) \/ is_close c start = true \/ is_close c stop = true.
Proof.
  intros Hc Hs Hd Hn3 Hmax. assert (Hn : (2 <= n)%nat) by lia. assert (He : 0 < epsilon) by (unfold epsilon; lra).
  destruct (is_close c start) eqn:E1; [intros _; right; left; reflexivity|]. destruct (is_close c stop) eqn:E2; [intros _; right; right; reflexivity|].
  unfold concentrating. rewrite !rge_true, rgt_true by nra. cbn [negb andb obind].
  unfold knots. rewrite E1, E2. cbn [orb obind fst snd].
  assert (Hc1 : start < c) by (destruct (Rle_lt_or_eq_dec start c (proj1 Hc)) as [L|E]; [exact L|subst; rewrite is_close_refl in E1; discriminate]).
  assert (Hc2 : c < stop) by (destruct (Rle_lt_or_eq_dec c stop (proj2 Hc)) as [L|E]; [exact L|subst; rewrite is_close_refl in E2; discriminate]).
  pose proof (c1_neg start stop c d Hs Hd Hc1) as N1. pose proof (c2_pos start stop c d Hs Hd Hc2) as N2. pose proof (spot_c start stop c d Hs Hd) as Sc.
  set (c1 := arcsinh ((start - c) / (d * (stop - start)))) in *. set (c2 := arcsinh ((stop - c) / (d * (stop - start)))) in *.
  set (z0 := - c1 / (c2 - c1)) in *. assert (Hz : 0 < z0 < 1).
  { unfold z0. split; [apply Rdiv_lt_0_compat; lra|]. apply (Rmult_lt_reg_r (c2 - c1)); [lra|]. unfold Rdiv. rewrite Rmult_assoc, Rinv_l by lra. lra. }
  destruct (Nat.eqb_spec n 1); [lia|]. set (k := Z.max (Z.min _ _) 1). pose proof (INR_n n Hn Hmax) as Bn.
  assert (Hk : (1 <= k <= Z.of_nat n - 2)%Z) by (apply clamp_range; lia). clearbody k.
  assert (Eu : IZR k / (INR n - 1) = tick n (Z.to_nat k)) by (unfold tick; rewrite (INR_IZR_INZ (Z.to_nat k)), Z2Nat.id by lia; field; lra).
  rewrite Eu. destruct (tick_in n Hn Hmax (Z.to_nat k) ltac:(lia)) as [U1 U2]. set (u := tick n (Z.to_nat k)) in *.
  assert (Hu : is_monotonic [0; u; 1] = true).
  { apply monotonic_iff. intros i j Hij. cbn [length] in Hij. destruct i as [|[|[|]]]; destruct j as [|[|[|]]]; cbn [nth]; lia || lra. }
  rewrite Hu. cbn [obind fst snd]. destruct (Nat.eqb_spec n 0); [lia|].
  rewrite (mesh_of start stop c d Hs Hd n _ (fun i => bent u z0 (tick n i))); [|exact Hn| | | |].
  - cbn [obind]. intros E. assert (Em : m = {| locations := map (fun i => spot start stop c d (bent u z0 (tick n i))) (seq 0 n); dplus := dplus m; dminus := dminus m |}) by (assert (Em := f_equal (fun o => match o with Ok x => x | _ => m end) E); cbn beta iota in Em; rewrite <- Em; reflexivity).
    left. exists (Z.to_nat k). split; [lia|]. unfold place. rewrite Em. cbn [locations]. rewrite nth_map_seq by lia. fold u. rewrite bent_u by assumption. exact Sc.
  - rewrite tick_0. apply bent_0; assumption.
  - rewrite tick_1 by assumption. apply bent_1; assumption.
  - intros i Hi. apply bent_lt; try assumption. pose proof (tick_lt n Hn Hmax i (S i) ltac:(lia)). lra.
  - intros i Hi. destruct (tick_in n Hn Hmax i Hi) as [T1 T2]. apply interp_three; try assumption.
    destruct (Nat.lt_trichotomy i (Z.to_nat k)) as [L|[->|L]]; [right|left; reflexivity|right].
    + pose proof (tick_lt n Hn Hmax i (Z.to_nat k) L). fold u in H. fold (tick n i). rewrite Rabs_right; lra.
    + pose proof (tick_lt n Hn Hmax (Z.to_nat k) i L). fold u in H. fold (tick n i). rewrite Rabs_left; lra.
Qed.
Print Assumptions C54_required.

(** The points are denser towards the concentration point: the gaps grow away from it. *)
Lemma sinh_sum y h : sinh (y + h) + sinh (y - h) = 2 * sinh y * cosh h.
Proof. unfold sinh, cosh. rewrite !Ropp_plus_distr. unfold Rminus. rewrite !Ropp_plus_distr, Ropp_involutive, !exp_plus. field. Qed.
Lemma cosh_ge h : 1 <= cosh h.
Proof.
  unfold cosh. pose proof (exp_pos h) as P. assert (E : exp h * exp (- h) = 1) by (rewrite <- exp_plus, Rplus_opp_r, exp_0; reflexivity).
  set (a := exp h) in *. set (b := exp (- h)) in *. assert (Pb : 0 < b) by apply exp_pos. clearbody a b. destruct (Rle_dec 1 ((a + b) / 2)) as [L|L]; [exact L|exfalso]. assert (a + b < 2) by lra. pose proof (pow2_ge_0 (a - b)). nra.
Qed.
Theorem C54_concentrates start stop n c d m : start <= c <= stop -> start < stop -> 0 < d ->
  (2 <= n)%nat -> (Z.of_nat n <= 2147483647)%Z -> concentrating start stop n c d false = Ok m ->
  forall i, (S (S i) < n)%nat ->
    (c <= place m (S i) -> place m (S i) - place m i <= place m (S (S i)) - place m (S i)) /\
    (place m (S i) <= c -> place m (S (S i)) - place m (S i) <= place m (S i) - place m i).
Proof.
  intros Hc Hs Hd Hn Hmax E i Hi. destruct (plain start stop n c d Hc Hs Hd Hn Hmax) as [E' _].
  assert (Hp : forall j, (j < n)%nat -> place m j = spot start stop c d (tick n j)).
  { rewrite E in E'. intros j Hj. assert (Em := f_equal (fun o => match o with Ok x => place x j | _ => 0 end) E'). cbn beta iota in Em. rewrite Em.
    unfold place. cbn [locations]. rewrite nth_map_seq by exact Hj. reflexivity. }
  rewrite !Hp by lia. unfold spot. pose proof (density_pos start stop d Hs Hd) as D. pose proof (INR_n n Hn Hmax) as Bn.
  set (c1 := arcsinh ((start - c) / (d * (stop - start)))). set (c2 := arcsinh ((stop - c) / (d * (stop - start)))).
  set (y := c1 * (1 - tick n (S i)) + c2 * tick n (S i)). set (h := (c2 - c1) * (1 / (INR n - 1))).
  assert (E1 : c1 * (1 - tick n (S (S i))) + c2 * tick n (S (S i)) = y + h) by (unfold y, h, tick; rewrite !S_INR; ring).
  assert (E0 : c1 * (1 - tick n i) + c2 * tick n i = y - h) by (unfold y, h, tick; rewrite !S_INR; ring).
  rewrite E1, E0. pose proof (sinh_sum y h) as Hsum. pose proof (cosh_ge h) as Hco. set (w := d * (stop - start)) in *. clearbody w.
  set (a := sinh (y + h)) in *. set (b := sinh (y - h)) in *. set (q := cosh h) in *. set (p := sinh y) in *. clearbody a b p q.
  split; intros Hy.
  - assert (0 <= p) by (destruct (Rle_dec 0 p); [assumption|nra]). assert (2 * p <= a + b) by nra. nra.
  - assert (p <= 0) by (destruct (Rle_dec p 0); [assumption|nra]). assert (a + b <= 2 * p) by nra. nra.
Qed.
Print Assumptions C54_concentrates.

(** Parameters outside the interval or a density that is not positive are refused. *)
Theorem C54_refused start stop n c d require : ~ (start <= c <= stop /\ start < stop /\ 0 < d) -> concentrating start stop n c d require = Throw.
Proof.
  intros H. unfold concentrating. unfold rge. destruct (Rle_dec start c); [|reflexivity]. destruct (Rle_dec c stop); [|reflexivity]. cbn [andb negb].
  rewrite rgt_false; [reflexivity|]. destruct (Rle_lt_or_eq_dec start stop ltac:(lra)) as [L|E].
  - assert (~ 0 < d) by (intros Hd; apply H; lra). assert (0 < stop - start) by lra. assert (d <= 0) by lra.
    set (q := stop - start) in *. clearbody q. nra.
  - subst. right. ring.
Qed.
Print Assumptions C54_refused.
Theorem C54_uniform_refused start stop n : stop <= start -> uniform start stop n = Throw.
Proof. intros H. unfold uniform. rewrite rgt_false by exact H. reflexivity. Qed.
Print Assumptions C54_uniform_refused.

(** Refuted: with two points the required point is silently left out. *)
Theorem C54_two_points_refuted : exists m, concentrating 0 4 2 1 1 true = Ok m /\ (forall i, (i < 2)%nat -> place m i <> 1) /\ is_close 1 0 = false /\ is_close 1 4 = false.
Proof.
  destruct (C54_concentrating 0 4 2 1 1 true) as (m & E & G); try lra; try lia. exists m. split; [exact E|]. destruct G as [_ F L _ _ _]. cbn in L.
  split; [intros [|[|i]] Hi; [rewrite F; lra|rewrite L; lra|lia]|].
  assert (T : 42 * epsilon < 1 / 100) by (unfold epsilon; lra).
  split; unfold is_close, tolerance.
  - destruct (Req_EM_T 1 0); [lra|]. destruct (Req_EM_T 0 0); [|lra]. replace (1 - 0) with 1 by ring. rewrite Rabs_R1. apply rgt_false. unfold epsilon. lra.
  - destruct (Req_EM_T 1 0); [lra|]. destruct (Req_EM_T 4 0); [lra|]. rewrite (Rabs_left (1 - 4)) by lra. rewrite Rabs_R1. rewrite rge_false by lra. reflexivity.
Qed.
Print Assumptions C54_two_points_refuted.
(** Refuted: with one point the mesh does not start at the start, and with none the behaviour is undefined. *)
Theorem C54_one_point_refuted : exists m, uniform 0 1 1 = Ok m /\ place m 0 = 1 /\ uniform 0 1 0 = UB.
Proof. unfold uniform. rewrite !rgt_true by lra. cbn. eexists. split; [reflexivity|]. split; reflexivity. Qed.
Print Assumptions C54_one_point_refuted.
Example C54_case : 50 <= 100 <= 200 /\ 50 < 200 /\ 0 < 1/10 /\ (3 <= 51)%nat /\ (Z.of_nat 51 <= 2147483647)%Z.
Proof. repeat split; try lra; lia. Qed.
