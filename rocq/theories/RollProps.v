(** C90: values rolled back with the finite-difference solver. *)
From Coq Require Import Reals List Arith Bool Lia Lra.
From Verif Require Import Base Vec InterpModel InterpSpec BandModel BandSpec BandProofs PdeSpec PdeProofs PdeProps RollSpec RollProofs RollTaylor.
Import ListNotations.
Local Open Scope R_scope.

(** A history of steps none of which has a negative weight returns, *)
Theorem C90_returns : forall x r m v f td tdd d dd cs res, let n := length (locations x) in
  grid x -> fits n (Call r m v 0 0) -> fd_init x r m v = Ok f -> dx_op x = Ok td -> dxx_op x = Ok tdd -> reads td n d -> reads tdd n dd ->
  Forall (fits n) cs -> Forall (stable n d dd) cs -> length res = n -> exists f' y, rolls f cs res = Ok (f', y) /\ length y = n.
Proof.
  intros x r m v f td tdd d dd cs res n G F E Ed Edd Rd Rdd. pose proof (init_has x r m v f td tdd d dd G F E Ed Edd Rd Rdd) as H. fold n in H. clear E. revert f res H.
  induction cs as [|c cs IH]; intros f res H Fc Sc Hr; cbn [rolls]; [now exists f, res|]. apply Forall_cons_iff in Fc. apply Forall_cons_iff in Sc. destruct Fc as [Fc Fcs]. destruct Sc as [Sc Scs].
  destruct (roll_has f n d dd c res H Fc Hr) as [(_ & _ & S0)|(f2 & y2 & E2 & H2 & L2 & _)].
  - exfalso. revert S0. destruct Sc as (S1 & S2 & S3 & S4 & _). apply not_singular.
    + apply set_good; [apply H|exact Fc].
    + nra.
    + intros i [Hi1 Hi2]. apply S3. lia.
    + intros i Hin. cbn [rate set_coefficients]. rewrite <- (generator_row x d dd c i G Hin (reads_diff _ _ _ _ G Ed Rd) (reads_diff _ _ _ _ G Edd Rdd)). fold n. destruct Hin. apply sum_ext. intros j Hj. apply has_gen; [exact H|lia|exact Hj].
    + intros i j Hin Hij Hj. rewrite (has_gen f n d dd c H) by (destruct Hin; lia). now apply S4.
  - rewrite E2. cbn [obind]. now apply IH.
Qed.
Print Assumptions C90_returns.
Lemma rolls_steps x r m v f td tdd d dd cs res f' y : let n := length (locations x) in
  grid x -> fits n (Call r m v 0 0) -> fd_init x r m v = Ok f -> dx_op x = Ok td -> dxx_op x = Ok tdd -> reads td n d -> reads tdd n dd ->
  Forall (fits n) cs -> length res = n -> rolls f cs res = Ok (f', y) -> theta_steps n d dd cs res y.
Proof.
  intros n G F E Ed Edd Rd Rdd Fc Hr Er. destruct (C39_pde_steps x r m v f td tdd d dd cs res G F E Ed Edd Rd Rdd Fc Hr) as [T|(f2 & y2 & E2 & _ & S & _)]; [congruence|]. assert (y2 = y) as -> by congruence. exact S.
Qed.
(** gives values at least as high for payoffs at least as high, *)
Theorem C90_monotone : forall x r m v f td tdd d dd cs res res' f1 y f2 y', let n := length (locations x) in
  grid x -> fits n (Call r m v 0 0) -> fd_init x r m v = Ok f -> dx_op x = Ok td -> dxx_op x = Ok tdd -> reads td n d -> reads tdd n dd ->
  Forall (fits n) cs -> Forall (stable n d dd) cs -> length res = n -> length res' = n -> rolls f cs res = Ok (f1, y) -> rolls f cs res' = Ok (f2, y') ->
  (forall i, (i < n)%nat -> nth i res 0 <= nth i res' 0) -> forall i, (i < n)%nat -> nth i y 0 <= nth i y' 0.
Proof.
  intros x r m v f td tdd d dd cs res res' f1 y f2 y' n G F E Ed Edd Rd Rdd Fc Sc L L' E1 E2. eapply (steps_monotone x td tdd d dd G Ed Edd Rd Rdd cs); [exact Sc| |].
  - eapply rolls_steps; [exact G|exact F|exact E|exact Ed|exact Edd|exact Rd|exact Rdd|exact Fc|exact L|exact E1].
  - eapply rolls_steps; [exact G|exact F|exact E|exact Ed|exact Edd|exact Rd|exact Rdd|exact Fc|exact L'|exact E2].
Qed.
Print Assumptions C90_monotone.
(** and keeps errors from growing: values that miss each step by at most e times its length differ from the ones it gives by at most e times the
    time that has passed, besides what they differed by at first. *)
Theorem C90_error : forall x r m v f td tdd d dd cs res f' y w ws e e0, let n := length (locations x) in
  grid x -> fits n (Call r m v 0 0) -> fd_init x r m v = Ok f -> dx_op x = Ok td -> dxx_op x = Ok tdd -> reads td n d -> reads tdd n dd ->
  Forall (fits n) cs -> Forall (stable n d dd) cs -> length res = n -> rolls f cs res = Ok (f', y) -> nearly n d dd e cs w ws -> 0 <= e ->
  (forall i, (i < n)%nat -> Rabs (nth i res 0 - nth i w 0) <= e0) -> forall i, (i < n)%nat -> Rabs (nth i y 0 - nth i (last ws w) 0) <= e0 + e * elapsed cs.
Proof.
  intros x r m v f td tdd d dd cs res f' y w ws e e0 n G F E Ed Edd Rd Rdd Fc Sc L Er Hn He H. assert (He0 : 0 <= e0). { destruct G as (Hl & _). fold n in Hl. pose proof (H 0%nat ltac:(lia)). pose proof (Rabs_pos (nth 0 res 0 - nth 0 w 0)). lra. }
  eapply (steps_error x td tdd d dd G Ed Edd Rd Rdd cs); try eassumption. eapply rolls_steps; [exact G|exact F|exact E|exact Ed|exact Edd|exact Rd|exact Rdd|exact Fc|exact L|exact Er].
Qed.
Print Assumptions C90_error.
(** So rolled-back values converge to the solution of the equation: their distance from it is at most the time that has passed times a bound that
    falls with the longest step in time and the widest in space. *)
Theorem C90_converges : forall x r m v f td tdd d dd cs f' y T m2 m3 mu var rate u h bm bv dt, let n := length (locations x) in let at_ := fun i => nth i (locations x) 0 in
  grid x -> fits n (Call r m v 0 0) -> fd_init x r m v = Ok f -> dx_op x = Ok td -> dxx_op x = Ok tdd -> reads td n d -> reads tdd n dd ->
  solution (at_ O) (at_ (n - 1)%nat) T m2 m3 mu var rate u -> 0 <= m2 -> 0 <= m3 -> (forall i, (S i < n)%nat -> at_ (S i) - at_ i <= h) -> (forall i, inner n i -> Rabs (mu (at_ i)) <= bm /\ Rabs (var (at_ i)) <= bv) ->
  Forall (uses x mu var rate dt) cs -> Forall (stable n d dd) cs -> elapsed cs <= T -> 0 <= dt ->
  rolls f cs (map (u 0) (locations x)) = Ok (f', y) ->
  forall i, (i < n)%nat -> Rabs (nth i y 0 - u (elapsed cs) (at_ i)) <= elapsed cs * (m2 * dt + m3 * (bm * (h * h) / 6 + bv * h / 6)).
Proof.
  intros x r m v f td tdd d dd cs f' y T m2 m3 mu var rate u h bm bv dt n at_ G F E Ed Edd Rd Rdd HS Hm2 Hm3 Hh Hb Hu Hs HT Hdt Er i Hi. set (e := m2 * dt + m3 * (bm * (h * h) / 6 + bv * h / 6)).
  assert (Fc : Forall (fits n) cs). { clear - Hu. induction Hu as [|c l (U1 & U2 & U3 & _) _ IH]; constructor; [|exact IH]. unfold fits. rewrite U1, U2, U3, !map_length. auto. }
  pose proof (values_nearly x td tdd d dd G Ed Edd Rd Rdd T m2 m3 mu var rate u h bm bv dt HS Hm2 Hm3 Hh Hb cs 0 Hu Hs ltac:(lra) ltac:(lra)) as Hn. fold n e in Hn.
  assert (He : 0 <= e). { destruct G as (Hl & Hinc & _). fold n in Hl. destruct (Hb 1%nat ltac:(split; lia)) as [B1 B2]. pose proof (Rabs_pos (mu (at_ 1%nat))). pose proof (Rabs_pos (var (at_ 1%nat))). pose proof (Hh 0%nat ltac:(lia)). pose proof (Hinc 0%nat 1%nat ltac:(fold n; lia)). unfold at_ in *.
    assert (0 <= h) by lra. unfold e. apply Rplus_le_le_0_compat; apply Rmult_le_pos; try lra. apply Rplus_le_le_0_compat; (apply Rmult_le_pos; [|lra]); apply Rmult_le_pos; try lra. nra. }
  pose proof (C90_error x r m v f td tdd d dd cs (map (u 0) (locations x)) f' y (at_points (u 0) x) (values x u 0 cs) e 0 G F E Ed Edd Rd Rdd Fc Hs (map_length _ _) Er Hn He) as K. fold n in K.
  specialize (K ltac:(intros j _; unfold at_points; replace (_ - _) with 0 by ring; rewrite Rabs_R0; lra) i Hi). rewrite (values_last x u cs 0), Rplus_0_l, (at_points_nth (u (elapsed cs)) x i Hi) in K. unfold at_. lra.
Qed.
Print Assumptions C90_converges.

(** ** A case: the cooling of a bar, exp (-t) sin x, on 0, pi/2 and pi *)
Definition bar : mesh := Mesh [0; PI / 2; PI] [PI / 2; PI / 2; 0] [0; PI / 2; PI / 2].
Lemma bar_grid : grid bar.
Proof.
  pose proof PI_RGT_0. unfold grid. cbn [locations dplus dminus bar length]. split; [lia|]. split; [intros [|[|[|i]]] [|[|[|j]]] Hij; cbn in Hij; try lia; cbn; lra|]. split; [reflexivity|]. split; [reflexivity|].
  intros [|[|i]] Hi; try lia; cbn; lra.
Qed.
Definition heat (t z : R) : R := exp (- t) * sin z.
Lemma heat_solution T : solution 0 PI T 1 1 (fun _ => 0) (fun _ => 2) (fun _ => 0) heat.
Proof.
  assert (Et : forall k z t, derivable_pt_lim (fun t => k * (exp (- t) * z)) t (- k * (exp (- t) * z))).
  { intros k z t. apply (rate_eq _ _ (0 * (exp (- t) * z) + k * (- exp (- t) * z + exp (- t) * 0))); [ring|]. apply (derivable_pt_lim_mult (fun _ => k) (fun t => exp (- t) * z)); [apply derivable_pt_lim_const|].
    apply (derivable_pt_lim_mult (fun t => exp (- t)) (fun _ => z)); [apply (rate_mirror exp), derivable_pt_lim_exp|apply derivable_pt_lim_const]. }
  assert (Es : forall k z, derivable_pt_lim (fun z => k * sin z) z (k * cos z)) by (intros k z; apply (rate_eq _ _ (0 * sin z + k * cos z)); [ring|]; apply (derivable_pt_lim_mult (fun _ => k) sin); [apply derivable_pt_lim_const|apply derivable_pt_lim_sin]).
  assert (Ec : forall k z, derivable_pt_lim (fun z => k * cos z) z (- k * sin z)) by (intros k z; apply (rate_eq _ _ (0 * cos z + k * - sin z)); [ring|]; apply (derivable_pt_lim_mult (fun _ => k) cos); [apply derivable_pt_lim_const|apply derivable_pt_lim_cos]).
  assert (Eb : forall t z, 0 <= t -> -1 <= z <= 1 -> Rabs (exp (- t) * z) <= 1).
  { intros t z Ht Hz. pose proof (exp_pos (- t)). assert (exp (- t) <= 1). { destruct (Req_dec t 0) as [->|]; [rewrite Ropp_0, exp_0; lra|]. rewrite <- exp_0. left. apply exp_increasing. lra. } apply Rabs_le. split; nra. }
  constructor.
  - exists (fun t z => - 1 * (exp (- t) * sin z)), (fun t z => - - 1 * (exp (- t) * sin z)). split.
    { intros t z Ht _. split; [|split; [apply Et|]].
      - apply (rate_eq _ _ (- (1) * (exp (- t) * sin z))); [ring|]. pose proof (Et 1 (sin z) t) as K. intros e He. destruct (K e He) as (del & Hd). exists del. intros h Hh Hl. specialize (Hd h Hh Hl). unfold heat. now rewrite !Rmult_1_l in Hd.
      - replace (- - 1 * (exp (- t) * sin z)) with (exp (- t) * sin z) by ring. apply Eb; [lra|apply SIN_bound]. }
    exists (fun t z => exp (- t) * cos z), (fun t z => - exp (- t) * sin z), (fun t z => - exp (- t) * cos z). split.
    { intros t z Ht _. split; [apply Es|]. split; [apply Ec|]. split; [apply Es|]. replace (- exp (- t) * cos z) with (- (exp (- t) * cos z)) by ring. rewrite Rabs_Ropp. apply Eb; [lra|apply COS_bound]. }
    intros t z _ _. unfold heat. field.
  - intros t _. unfold heat. rewrite sin_0, sin_PI. split; ring.
Qed.
Definition bar_call (dt : R) : call := Call [0; 0; 0] [0; 0; 0] [2; 2; 2] dt 1.
Example C90_case : exists f td tdd d dd, grid bar /\ fits 3 (Call [0; 0; 0] [0; 0; 0] [2; 2; 2] 0 0) /\ fd_init bar [0; 0; 0] [0; 0; 0] [2; 2; 2] = Ok f /\ dx_op bar = Ok td /\ dxx_op bar = Ok tdd /\
  reads td 3 d /\ reads tdd 3 dd /\ (forall dt, 0 <= dt -> stable 3 d dd (bar_call dt) /\ uses bar (fun _ => 0) (fun _ => 2) (fun _ => 0) dt (bar_call dt)) /\
  solution (nth 0 (locations bar) 0) (nth 2 (locations bar) 0) 10 1 1 (fun _ => 0) (fun _ => 2) (fun _ => 0) heat.
Proof.
  pose proof bar_grid as G. destruct (fd_operator_ok dx_coef bar G) as (td & Ed & W & N). destruct (fd_operator_ok dxx_coef bar G) as (tdd & Edd & W' & N').
  destruct (init_good bar [0; 0; 0] [0; 0; 0] [2; 2; 2] G eq_refl eq_refl eq_refl) as (f & E & _). exists f, td, tdd, (entry td), (entry tdd).
  split; [exact G|]. split; [repeat split|]. split; [exact E|]. split; [exact Ed|]. split; [exact Edd|]. split; [intros i j Hi Hj; now apply (tri_at_ok td 3)|]. split; [intros i j Hi Hj; now apply (tri_at_ok tdd 3)|].
  split; [|apply heat_solution]. intros dt Hdt. split; [|repeat split; cbn; lra]. unfold stable. cbn [c_dt c_theta bar_call c_rate]. split; [exact Hdt|]. split; [lra|]. split; [intros [|[|[|i]]] Hi; try lia; cbn; lra|]. split; [|intros i Hi; lra].
  intros i j [Hi1 Hi2] Hj Hij. assert (i = 1)%nat as -> by lia. unfold generator_of, generator. cbn [Nat.ltb Nat.leb andb bar_call c_rate c_mu c_var nth]. rewrite (N 1%nat j), (N' 1%nat j) by (cbn; lia).
  pose proof PI_RGT_0 as HP. assert (0 < / PI) by now apply Rinv_0_lt_compat.
  destruct j as [|[|[|j]]]; try lia; unfold diff, difference, coef_l, coef_m, coef_u, dx_coef, dxx_coef, identity; cbn; (match goal with |- 0 <= ?a => replace a with (4 * (/ PI * / PI)) by (field; lra) end; nra).
Qed.
