(** C91: what local volatility paths are worth on average. *)
From Coq Require Import Reals ZArith List Arith Sorted Lra Lia.
From Verif Require Import Base Vec BlackModel BlackSpec BlackProofs BlackNormal ExpectSpec ExpectProps MomentSpec MomentProofs MomentProps InterpModel FillSpec BsModel BsSpec DupireModel DupireSpec DupireProofs DupireProps DriftSpec DriftProofs.
Import ListNotations.
Local Open Scope R_scope.

Section Paths.
Variables (fuel : nat) (m : dupire) (st : dstate) (times : list R) (defs : list ddef) (path : list dsample).
(** a surface, product dates and paths as in C52 *)
Definition usable : Prop :=
  surface_ok m /\ timeline_ok times /\ (nth 0 times 0 = 0 \/ half_day < nth 0 times 0) /\ 2 * half_day <= u_max_dt m /\
  (forall t, In t times -> t < u_max_dt m * 2147483647) /\ (2 ^ 31 <= Z.of_nat fuel)%Z /\ length defs = length times /\ allocated defs path.
(** the simulated times are [T]: increasing from today, with the product dates among them, and a draw for each but the first *)
Definition simulates (T : list R) : Prop :=
  nth_error T 0 = Some 0 /\ increasing T /\ incl times T /\ forall zs, length zs = (length T - 1)%nat -> exists p, dsimulate fuel m st times defs zs path = Ok (T, length zs, p).
Lemma usable_logs : usable -> exists T, simulates T /\
  forall i k zs, (i < length times)%nat -> nth_error T k = Some (nth i times 0) -> length zs = (length T - 1)%nat -> spot_at fuel m st times defs path i zs = exp (logs m T zs k).
Proof.
  intros (Hm & Hok & H0 & Hdt & Hr & Hf & Hd & Hal). destruct (timeline_filled fuel times (u_max_dt m) Hok H0 Hdt Hr Hf) as (T & ET & H1 & H2 & H3 & H4).
  assert (HTs : StronglySorted Rlt T) by (apply steps_SS; exact H1). assert (Hts : StronglySorted Rlt times) by (destruct times as [|t r]; [constructor|]; apply later_SS; apply Hok).
  assert (Sim : forall zs, length zs = (length T - 1)%nat -> exists p, dsimulate fuel m st times defs zs path = Ok (T, length zs, p) /\ length p = length times /\
    forall i d old s, nth_error defs i = Some d -> nth_error path i = Some old -> nth_error p i = Some s -> exists k, nth_error T k = Some (nth i times 0) /\ d_spot s = exp (logs m T zs k)).
  { intros zs Hz. destruct (dinit_ready m Hm times defs fuel st T Hd ET) as (st2 & E2 & Hready).
    destruct (dgenerate_ok m Hm times defs T st2 zs path Hready Hd Hts HTs H3) as (p & Ep & Lp & Hp); [destruct T; [discriminate H4|discriminate]|rewrite Hz; apply Nat.le_refl|exact Hal|].
    exists p. split; [|split; [exact Lp|]].
    - unfold dsimulate. destruct (dallocate fuel m st times) as [st1| | |]; cbn [obind] in E2 |- *; try discriminate. rewrite E2. cbn [obind]. rewrite Ep. cbn [obind]. destruct Hready as (R1 & _). rewrite R1, Hz. reflexivity.
    - intros i d old s A B C. destruct (Hp i d old s A B C) as (k & Ek & Rk). exists k. split; [exact Ek|]. destruct Rk as (Rk & _). exact Rk. }
  exists T. split.
  - split; [exact H4|]. split; [exact H1|]. split; [exact H3|]. intros zs Hz. destruct (Sim zs Hz) as (p & E & _). now exists p.
  - intros i k zs Hi Ek Hz. destruct (Sim zs Hz) as (p & E & Lp & Hp). unfold spot_at. rewrite E.
    destruct (nth_error defs i) as [d|] eqn:Ed; [|apply nth_error_None in Ed; lia]. destruct (nth_error p i) as [s|] eqn:Es; [|apply nth_error_None in Es; lia].
    destruct (nth_error path i) as [old|] eqn:Eo; [|apply nth_error_None in Eo; apply allocated_length in Hal; lia].
    destruct (Hp i d old s Ed Eo Es) as (k' & Ek' & Hs). rewrite Hs. now rewrite (sorted_index T HTs k' k _ Ek' Ek).
Qed.
Hypothesis Hu : usable.
Hypothesis Hspot : 0 < u_spot m.
Lemma index_of T i : simulates T -> (i < length times)%nat -> exists k, nth_error T k = Some (nth i times 0) /\ (k < length T)%nat.
Proof. clear. intros (_ & _ & Hi & _) Hl. destruct (In_nth_error T (nth i times 0)) as (k & Ek); [apply Hi; now apply nth_In|]. exists k. split; [exact Ek|]. apply nth_error_Some. congruence. Qed.
(** Given the draws up to one product date, the spot of a later one has the forward from there for its mean, whatever the surface, *)
Theorem C91_martingale N n : normal_law N n -> exists T, simulates T /\
  forall i j known other, (i <= j < length times)%nat -> nth_error T (length known) = Some (nth i times 0) -> length other = (length T - 1 - length known)%nat ->
    draws n (length T - 1 - length known) (fun rest => spot_at fuel m st times defs path j (known ++ rest))
      (spot_at fuel m st times defs path i (known ++ other) * exp ((u_r m - u_q m) * (nth j times 0 - nth i times 0))).
Proof using Hu.
  intros HN. destruct (usable_logs Hu) as (T & HT & HL). exists T. split; [exact HT|]. intros i j known other Hij Ei Ho. destruct (index_of T j HT ltac:(lia)) as (k & Ek & Hk).
  assert (Hkn : (length known < length T)%nat) by (apply nth_error_Some; congruence). pose proof HT as (T0 & Hs & _).
  pose proof (nth_error_nth _ _ 0 Ei) as Ei'. pose proof (nth_error_nth _ _ 0 Ek) as Ek'.
  assert (HS : StronglySorted Rlt T) by (apply steps_SS; exact Hs).
  assert (Hle : (length known <= k)%nat).
  { destruct (le_lt_dec (length known) k) as [|Hlt]; [assumption|exfalso]. assert (Hm : forall a b, (a < b < length T)%nat -> nth a T 0 < nth b T 0).
    { intros a b. induction b as [|b IH]; intros Hab; [lia|]. pose proof (SS_nth T HS b ltac:(lia)). destruct (Nat.eq_dec a b) as [->|]; [assumption|]. specialize (IH ltac:(lia)). lra. }
    specialize (Hm k (length known) ltac:(lia)). rewrite Ei', Ek' in Hm. destruct Hu as (_ & Hok & _).
    assert (Hts : StronglySorted Rlt times) by (destruct times as [|t r]; [constructor|]; apply later_SS; apply Hok).
    assert (forall a b, (a <= b < length times)%nat -> nth a times 0 <= nth b times 0).
    { intros a b. induction b as [|b IH]; intros Hab; [assert (a = O) as -> by lia; lra|]. pose proof (SS_nth times Hts b ltac:(lia)). destruct (Nat.eq_dec a (S b)) as [->|]; [lra|]. specialize (IH ltac:(lia)). lra. }
    specialize (H i j Hij). lra. }
  rewrite (HL i (length known) (known ++ other)); [|lia|exact Ei|rewrite app_length; lia]. rewrite <- run_logs, run_known by lia. rewrite <- Ei', <- Ek'.
  eapply (rep_ext (mean n)); [|exact (run_later N n HN m known T (ln (u_spot m)) k ltac:(lia))]. intros rest Hr. cbn beta. rewrite (HL j k (known ++ rest)); [now rewrite run_logs|lia|exact Ek|rewrite app_length; lia].
Qed.
Lemma usable_mean N n : normal_law N n -> exists T, simulates T /\ (forall i zs, (i < length times)%nat -> length zs = (length T - 1)%nat -> 0 < spot_at fuel m st times defs path i zs) /\
  forall i, (i < length times)%nat -> draws n (length T - 1) (spot_at fuel m st times defs path i) (forward_for m (nth i times 0)).
Proof using Hu Hspot.
  intros HN. destruct (usable_logs Hu) as (T & HT & HL). exists T. split; [exact HT|]. pose proof HT as (T0 & _). pose proof (nth_error_nth _ _ 0 T0) as T0'. split.
  - intros i zs Hi Hz. destruct (index_of T i HT Hi) as (k & Ek & Hk). rewrite (HL i k zs Hi Ek Hz). apply exp_pos.
  - intros i Hi. destruct (index_of T i HT Hi) as (k & Ek & Hk). pose proof (nth_error_nth _ _ 0 Ek) as Ek'.
    apply (ex_val _ _ (exp (ln (u_spot m) + (u_r m - u_q m) * (nth k T 0 - nth 0 T 0)))); [rewrite exp_plus, exp_ln, Ek', T0' by exact Hspot; unfold forward_for; now rewrite Rminus_0_r|].
    eapply (rep_ext (mean n)); [|apply (run_mean N n HN m (length T - 1) T (ln (u_spot m)) k); lia]. intros zs Hz. cbn beta. rewrite (HL i k zs Hi Ek Hz). now rewrite run_logs.
Qed.
(** so today it has the forward for its mean, and so has the average over independent paths. *)
Theorem C91_forward N n : normal_law N n -> exists T, simulates T /\
  forall i, (i < length times)%nat -> draws n (length T - 1) (spot_at fuel m st times defs path i) (forward_for m (nth i times 0)) /\
    forall paths, (0 < paths)%nat -> simulated n (length T - 1) paths (average (spot_at fuel m st times defs path i)) (forward_for m (nth i times 0)).
Proof using Hu Hspot.
  intros HN. destruct (usable_mean N n HN) as (T & HT & _ & HD). exists T. split; [exact HT|]. intros i Hi. split; [now apply HD|]. intros paths Hp. exact (C89_unbiased N n _ paths _ _ HN Hp (HD i Hi)).
Qed.
(** Whatever the surface, a call that has an expected payout has one between those of a forward contract and the spot, a put has one with it, and they keep parity. *)
Theorem C91_bounds N n : normal_law N n -> exists T, simulates T /\
  forall i k x, (i < length times)%nat -> 0 <= k -> let f := forward_for m (nth i times 0) in
    draws n (length T - 1) (fun zs => Rmax 0 (spot_at fuel m st times defs path i zs - k)) x ->
    Rmax 0 (f - k) <= x <= f /\ draws n (length T - 1) (fun zs => Rmax 0 (k - spot_at fuel m st times defs path i zs)) (x - f + k).
Proof using Hu Hspot.
  intros HN. destruct (usable_mean N n HN) as (T & HT & HP & HD). exists T. split; [exact HT|]. intros i k x Hi Hk f Hx. pose proof (HD i Hi) as Hf. fold f in Hf.
  assert (HE := mean_expects N n HN). pose proof (rep_const _ HE (length T - 1)) as HC.
  assert (Hfk : draws n (length T - 1) (fun zs => 1 * spot_at fuel m st times defs path i zs + - k * 1) (1 * f + - k * 1)) by (apply (rep_lin _ HE); [exact Hf|apply HC]).
  split; [split|].
  - apply Rmax_lub.
    + apply (draws_le N n HN (length T - 1) (fun _ => 0) _ 0 x) with (3 := Hx); [intros zs _; apply Rmax_l|apply HC].
    + replace (f - k) with (1 * f + - k * 1) by ring. refine (draws_le N n HN (length T - 1) _ _ _ x _ Hfk Hx). intros zs _. cbn beta. replace (1 * spot_at fuel m st times defs path i zs + - k * 1) with (spot_at fuel m st times defs path i zs - k) by ring. apply Rmax_r.
  - refine (draws_le N n HN (length T - 1) _ _ x f _ Hx Hf). intros zs Hz. cbn beta. apply Rmax_lub; [left; now apply HP|lra].
  - apply (ex_val _ _ (1 * x + - 1 * (1 * f + - k * 1))); [ring|]. eapply (rep_ext (mean n)); [|exact (rep_lin _ HE (length T - 1) _ _ _ _ 1 (- 1) Hx Hfk)]. intros zs _. cbn beta. unfold Rmax. repeat destruct (Rle_dec _ _); lra.
Qed.
(** A flat surface gives the path of the Black-Scholes model over the simulated times. *)
Theorem C91_flat v : flat m v -> exists T, simulates T /\
  forall i k zs, (i < length times)%nat -> nth_error T k = Some (nth i times 0) -> length zs = (length T - 1)%nat ->
    spot_at fuel m st times defs path i zs = u_spot m * exp ((u_r m - u_q m - 1/2 * v * v) * nth i times 0 + v * brownian T zs k).
Proof using Hu Hspot.
  intros Hv. destruct (usable_logs Hu) as (T & HT & HL). exists T. split; [exact HT|]. intros i k zs Hi Ek Hz. rewrite (HL i k zs Hi Ek Hz). pose proof Hu as (Hm & _). pose proof HT as (T0 & Hs & _).
  assert (Hk : (k < length T)%nat) by (apply nth_error_Some; congruence). rewrite (flat_logs m v T zs Hm Hv (steps_SS T Hs) k Hk), <- (brownian_sum T zs k Hk), (nth_error_nth _ _ 0 Ek), (nth_error_nth _ _ 0 T0), Rminus_0_r, Rplus_assoc, exp_plus, exp_ln by exact Hspot. reflexivity.
Qed.
End Paths.
Print Assumptions C91_martingale.
Print Assumptions C91_forward.
Print Assumptions C91_bounds.
Print Assumptions C91_flat.
Example C91_case : usable (Z.to_nat (2 ^ 31)) ex_model [0; 1] [ex_def; ex_def] [ex_sample; ex_sample] /\ 0 < u_spot ex_model /\ (exists N n, normal_law N n) /\ forward_for ex_model 1 = 100 * exp (1 / 50).
Proof.
  destruct C52_local_vol_case as (A & B & C & D & E & F). split; [|split; [cbn; lra|split; [|unfold forward_for; cbn; f_equal; f_equal; ring]]].
  - split; [exact A|]. split; [exact B|]. split; [left; exact C|]. split; [exact D|]. split; [exact E|]. split; [rewrite Z2Nat.id; lia|]. split; [reflexivity|exact F].
  - destruct C88_case as (H & _). exact H.
Qed.
