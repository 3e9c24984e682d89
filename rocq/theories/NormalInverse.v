(** Lemmas about the rational approximation of the inverse normal distribution function. *)
From Coq Require Import Reals List ZArith Lia Lra Factorial.
From Verif Require Import Base BlackModel BlackSpec BlackProofs NormalModel NormalProofs.
Import ListNotations.
Local Open Scope R_scope.

(** * Taylor bounds of exp (- y) *)
Fixpoint series (n : nat) (y : R) : R := match n with 0%nat => 1 | S n' => series n' y + (- y) ^ n / INR (fact n) end.
Lemma power_rate n y : derivable_pt_lim (fun y => (- y) ^ S n / INR (fact (S n))) y (- ((- y) ^ n / INR (fact n))).
Proof.
  assert (0 < INR (fact n)) by apply INR_fact_lt_0. assert (0 < INR (S n)) by (apply lt_0_INR; lia).
  apply (rate_ext (fun y => / INR (fact (S n)) * (- y) ^ S n)); [intros t; unfold Rdiv; ring|]. eapply rate_value.
  - apply derivable_pt_lim_scal. apply (derivable_pt_lim_comp (fun y => - y) (fun y => y ^ S n)); [apply derivable_pt_lim_opp, derivable_pt_lim_id|apply derivable_pt_lim_pow].
  - cbn [pred]. change (fact (S n)) with ((S n) * fact n)%nat. rewrite mult_INR. field. lra.
Qed.
Lemma series_rate n y : derivable_pt_lim (series (S n)) y (- series n y).
Proof.
  induction n as [|n IH].
  - apply (rate_ext (fun y => 1 + (- y) ^ 1 / INR (fact 1))); [reflexivity|]. eapply rate_value; [apply derivable_pt_lim_plus; [apply derivable_pt_lim_const|apply power_rate]|]. cbn. field.
  - apply (rate_ext (fun y => series (S n) y + (- y) ^ S (S n) / INR (fact (S (S n))))); [reflexivity|]. eapply rate_value; [apply derivable_pt_lim_plus; [exact IH|apply power_rate]|]. change (series (S n) y) with (series n y + (- y) ^ S n / INR (fact (S n))). ring.
Qed.
Lemma series_zero n : series n 0 = 1.
Proof. induction n as [|n IH]; [reflexivity|]. cbn [series]. rewrite IH, Ropp_0, pow_i by lia. unfold Rdiv. ring. Qed.
Lemma exp_neg_rate y : derivable_pt_lim (fun y => exp (- y)) y (- exp (- y)).
Proof. eapply rate_value; [apply (derivable_pt_lim_comp (fun y => - y) exp); [apply derivable_pt_lim_opp, derivable_pt_lim_id|apply derivable_pt_lim_exp]|]. ring. Qed.
Lemma series_sides n : forall y, 0 <= y -> series (2 * n + 1) y <= exp (- y) <= series (2 * n) y.
Proof.
  assert (step_down : forall n, (forall y, 0 <= y -> exp (- y) <= series n y) -> forall y, 0 <= y -> series (S n) y <= exp (- y)).
  { intros k H y Hy. assert (exp (- 0) - series (S k) 0 <= exp (- y) - series (S k) y) as Q; [|rewrite series_zero, Ropp_0, exp_0 in Q; lra].
    apply (mono_le (fun y => exp (- y) - series (S k) y) (fun y => - exp (- y) - - series k y)); [exact Hy| |].
    - intros t _. apply derivable_pt_lim_minus; [apply exp_neg_rate|apply series_rate].
    - intros t Ht. specialize (H t ltac:(lra)). lra. }
  assert (step_up : forall n, (forall y, 0 <= y -> series n y <= exp (- y)) -> forall y, 0 <= y -> exp (- y) <= series (S n) y).
  { intros k H y Hy. assert (series (S k) 0 - exp (- 0) <= series (S k) y - exp (- y)) as Q; [|rewrite series_zero, Ropp_0, exp_0 in Q; lra].
    apply (mono_le (fun y => series (S k) y - exp (- y)) (fun y => - series k y - - exp (- y))); [exact Hy| |].
    - intros t _. apply derivable_pt_lim_minus; [apply series_rate|apply exp_neg_rate].
    - intros t Ht. specialize (H t ltac:(lra)). lra. }
  induction n as [|n IH].
  - assert (forall y, 0 <= y -> exp (- y) <= series 0 y) as B. { intros y Hy. cbn [series]. rewrite <- exp_0. destruct (Req_dec y 0) as [->|]; [rewrite Ropp_0; lra|]. apply Rlt_le, exp_increasing. lra. }
    intros y Hy. split; [now apply (step_down 0%nat)|now apply B].
  - assert (forall y, 0 <= y -> series (2 * n + 1) y <= exp (- y)) as A by (intros y Hy; now apply IH). pose proof (step_up _ A) as B. pose proof (step_down _ B) as D.
    replace (2 * S n + 1)%nat with (S (S (2 * n + 1))) by lia. replace (2 * S n)%nat with (S (2 * n + 1)) by lia. intros y Hy. split; [now apply D|now apply B].
Qed.

(** * The tails *)
Definition tnum (z : R) : R := ((((c1 * z + c2) * z + c3) * z + c4) * z + c5) * z + c6.
Definition tden (z : R) : R := (((d1 * z + d2) * z + d3) * z + d4) * z + 1.
Definition tnum1 (z : R) : R := (((5 * c1 * z + 4 * c2) * z + 3 * c3) * z + 2 * c4) * z + c5.
Definition tden1 (z : R) : R := ((4 * d1 * z + 3 * d2) * z + 2 * d3) * z + d4.
Ltac coefs := unfold a1, a2, a3, a4, a5, a6, b1, b2, b3, b4, b5, c1, c2, c3, c4, c5, c6, d1, d2, d3, d4.
Ltac powers t n := match n with 0%nat => idtac | S ?k => powers t k; pose proof (pow_le t n ltac:(lra)) end.
Lemma over x d : x < 0 -> 0 < d -> x / d < 0.
Proof. intros Hx Hd. pose proof (Rinv_0_lt_compat d Hd). unfold Rdiv. nra. Qed.
Lemma tnum_neg z : 2 <= z -> tnum z < 0.
Proof. intros H. set (t := z - 2). assert (0 <= t) by (unfold t; lra). replace z with (2 + t) by (unfold t; ring). powers t 5%nat. clearbody t. replace (tnum (2 + t)) with (((-23124964045776874376) * t ^ 0 + (-45572843519362815440) * t ^ 1 + (-25314588715496461440) * t ^ 2 + (-5291325701588141720) * t ^ 3 + (-400245398065439430) * t ^ 4 + (-7784894002430293) * t ^ 5) / 1000000000000000000) by (unfold tnum; coefs; field). apply over; lra. Qed.
Lemma tden_pos z : 0 <= z -> 0 < tden z.
Proof. intros H. powers z 4%nat. unfold tden. coefs. lra. Qed.
Lemma tail_rate_neg z : 2 <= z -> tnum1 z * tden z - tnum z * tden1 z < 0.
Proof. intros H. set (t := z - 2). assert (0 <= t) by (unfold t; lra). replace z with (2 + t) by (unfold t; ring). powers t 9%nat. clearbody t. replace (tnum1 (2 + t) * tden (2 + t) - tnum (2 + t) * tden1 (2 + t)) with (((-274249934651261016396110939215109522048) * t ^ 0 + (-425839132043675014626616928171828590592) * t ^ 1 + (-272667763080803773170123975419655384736) * t ^ 2 + (-92322539337006270773209391928941323936) * t ^ 3 + (-17687427915921198160317790570973620960) * t ^ 4 + (-1905625909332024191846769124595467584) * t ^ 5 + (-109728192512691977639402251220042096) * t ^ 6 + (-2995196666566761743400946250128328) * t ^ 7 + (-30301515468030857381920750904183) * t ^ 8) / 500000000000000000000000000000000000) by (unfold tnum, tden, tnum1, tden1; coefs; field). apply over; lra. Qed.
Lemma tail_neg z : 2 <= z -> NormalModel.tail z < 0.
Proof. intros H. change (NormalModel.tail z) with (tnum z / tden z). pose proof (tnum_neg z H). pose proof (Rinv_0_lt_compat _ (tden_pos z ltac:(lra))). unfold Rdiv. nra. Qed.
Lemma tail_rate_at z : 2 <= z -> derivable_pt_lim NormalModel.tail z ((tnum1 z * tden z - tnum z * tden1 z) / (tden z * tden z)).
Proof.
  intros H. pose proof (tden_pos z ltac:(lra)) as Hd. apply (rate_ext (fun z => tnum z / tden z)); [reflexivity|].
  eapply rate_value; [apply (derivable_pt_lim_div tnum tden z (tnum1 z) (tden1 z)); [| |lra]|unfold Rsqr; field; lra].
  - eapply rate_value; [unfold tnum; repeat (apply derivable_pt_lim_plus || apply derivable_pt_lim_mult || apply derivable_pt_lim_const || apply derivable_pt_lim_id)|]. unfold tnum1. unfold fct_cte. ring.
  - eapply rate_value; [unfold tden; repeat (apply derivable_pt_lim_plus || apply derivable_pt_lim_mult || apply derivable_pt_lim_const || apply derivable_pt_lim_id)|]. unfold tden1. unfold fct_cte. ring.
Qed.
Lemma tail_decreasing x y : 2 <= x -> x < y -> NormalModel.tail y < NormalModel.tail x.
Proof.
  intros Hx Hxy. enough (- NormalModel.tail x < - NormalModel.tail y) by lra. apply (mono_lt (fun z => - NormalModel.tail z) (fun z => - ((tnum1 z * tden z - tnum z * tden1 z) / (tden z * tden z)))); [exact Hxy| |].
  - intros z Hz. apply derivable_pt_lim_opp, tail_rate_at. lra.
  - intros z Hz. pose proof (tail_rate_neg z ltac:(lra)). pose proof (tden_pos z ltac:(lra)). pose proof (Rinv_0_lt_compat (tden z * tden z) ltac:(nra)). unfold Rdiv. nra.
Qed.
(** * The middle *)
Definition mnum (r : R) : R := ((((a1 * r + a2) * r + a3) * r + a4) * r + a5) * r + a6.
Definition mden (r : R) : R := ((((b1 * r + b2) * r + b3) * r + b4) * r + b5) * r + 1.
Definition mnum1 (r : R) : R := (((5 * a1 * r + 4 * a2) * r + 3 * a3) * r + 2 * a4) * r + a5.
Definition mden1 (r : R) : R := (((5 * b1 * r + 4 * b2) * r + 3 * b3) * r + 2 * b4) * r + b5.
Lemma mnum_pos r : 0 <= r <= 2264 / 10000 -> 0 < mnum r.
Proof.
  intros H. set (b := r / (2264 / 10000)). assert (Hb : 0 <= b <= 1) by (unfold b; lra). replace r with (2264 / 10000 * b) by (unfold b; field). clearbody b. clear H.
  assert (0 <= 250661827 * (b ^ 0 * (1 - b) ^ 5) + 559058106 * (b ^ 1 * (1 - b) ^ 4) + 438793929 * (b ^ 2 * (1 - b) ^ 3) + 148448091 * (b ^ 3 * (1 - b) ^ 2) + 21486321 * (b ^ 4 * (1 - b) ^ 1) + 1074651 * (b ^ 5 * (1 - b) ^ 0)) as P by (repeat apply Rplus_le_le_0_compat; (apply Rmult_le_pos; [lra|apply Rmult_le_pos; apply pow_le; lra])).
  replace (250661827 * (b ^ 0 * (1 - b) ^ 5) + 559058106 * (b ^ 1 * (1 - b) ^ 4) + 438793929 * (b ^ 2 * (1 - b) ^ 3) + 148448091 * (b ^ 3 * (1 - b) ^ 2) + 21486321 * (b ^ 4 * (1 - b) ^ 1) + 1074651 * (b ^ 5 * (1 - b) ^ 0)) with (250662827 * b ^ 0 + (-694251029) * b ^ 1 + 709179775 * b ^ 2 + (-320203330) * b ^ 3 + 58048637 * b ^ 4 + (-2361229) * b ^ 5 - 1000) in P by ring.
  powers b 5%nat. replace (mnum (2264 / 10000 * b)) with (((191240560719241256713867187500) * b ^ 0 + (-529671499799783098144531250000) * b ^ 1 + (541061229946177096728515625000) * b ^ 2 + (-244295753434062467525269531250) * b ^ 3 + (44287595389766937267090015625) * b ^ 4 + (-1801474076290445402447343192) * b ^ 5) / 76293945312500000000000000000) by (unfold mnum; coefs; field). apply Rdiv_lt_0_compat; lra.
Qed.
Lemma mden_pos r : 0 <= r <= 2264 / 10000 -> 0 < mden r.
Proof.
  intros H. set (b := r / (2264 / 10000)). assert (Hb : 0 <= b <= 1) by (unfold b; lra). replace r with (2264 / 10000 * b) by (unfold b; field). clearbody b. clear H.
  assert (0 <= 99999000 * (b ^ 0 * (1 - b) ^ 5) + 199320369 * (b ^ 1 * (1 - b) ^ 4) + 139694693 * (b ^ 2 * (1 - b) ^ 3) + 42469804 * (b ^ 3 * (1 - b) ^ 2) + 5595063 * (b ^ 4 * (1 - b) ^ 1) + 258261 * (b ^ 5 * (1 - b) ^ 0)) as P by (repeat apply Rplus_le_le_0_compat; (apply Rmult_le_pos; [lra|apply Rmult_le_pos; apply pow_le; lra])).
  replace (99999000 * (b ^ 0 * (1 - b) ^ 5) + 199320369 * (b ^ 1 * (1 - b) ^ 4) + 139694693 * (b ^ 2 * (1 - b) ^ 3) + 42469804 * (b ^ 3 * (1 - b) ^ 2) + 5595063 * (b ^ 4 * (1 - b) ^ 1) + 258261 * (b ^ 5 * (1 - b) ^ 0)) with (100000000 * b ^ 0 + (-300674631) * b ^ 1 + 342403217 * b ^ 2 + (-180682061) * b ^ 3 + 42453058 * b ^ 4 + (-3240322) * b ^ 5 - 1000) in P by ring.
  powers b 5%nat. replace (mden (2264 / 10000 * b)) with (((152587890625000000000000000000) * b ^ 0 + (-458793076106769868164062500000) * b ^ 1 + (522465846462459438972656250000) * b ^ 2 + (-275698944861997155296421875000) * b ^ 3 + (64778226133108375934873056250) * b ^ 4 + (-4944338328968894746162586529) * b ^ 5) / 152587890625000000000000000000) by (unfold mden; coefs; field). apply Rdiv_lt_0_compat; lra.
Qed.
Lemma middle_rate_pos r : 0 <= r <= 2264 / 10000 -> 0 < (mnum r + 2 * r * mnum1 r) * mden r - 2 * r * mnum r * mden1 r.
Proof.
  intros H. set (b := r / (2264 / 10000)). assert (Hb : 0 <= b <= 1) by (unfold b; lra). replace r with (2264 / 10000 * b) by (unfold b; field). clearbody b. clear H.
  assert (0 <= 250661827 * (b ^ 0 * (1 - b) ^ 10) + 1177544716 * (b ^ 1 * (1 - b) ^ 9) + 2376623059 * (b ^ 2 * (1 - b) ^ 8) + 2704051288 * (b ^ 3 * (1 - b) ^ 7) + 1914169387 * (b ^ 4 * (1 - b) ^ 6) + 878196207 * (b ^ 5 * (1 - b) ^ 5) + 263842958 * (b ^ 6 * (1 - b) ^ 4) + 51146587 * (b ^ 7 * (1 - b) ^ 3) + 6110381 * (b ^ 8 * (1 - b) ^ 2) + 403123 * (b ^ 9 * (1 - b) ^ 1) + 10820 * (b ^ 10 * (1 - b) ^ 0)) as P by (repeat apply Rplus_le_le_0_compat; (apply Rmult_le_pos; [lra|apply Rmult_le_pos; apply pow_le; lra])).
  replace (250661827 * (b ^ 0 * (1 - b) ^ 10) + 1177544716 * (b ^ 1 * (1 - b) ^ 9) + 2376623059 * (b ^ 2 * (1 - b) ^ 8) + 2704051288 * (b ^ 3 * (1 - b) ^ 7) + 1914169387 * (b ^ 4 * (1 - b) ^ 6) + 878196207 * (b ^ 5 * (1 - b) ^ 5) + 263842958 * (b ^ 6 * (1 - b) ^ 4) + 51146587 * (b ^ 7 * (1 - b) ^ 3) + 6110381 * (b ^ 8 * (1 - b) ^ 2) + 403123 * (b ^ 9 * (1 - b) ^ 1) + 10820 * (b ^ 10 * (1 - b) ^ 0)) with (250662827 * b ^ 0 + (-1329073554) * b ^ 1 + 3058502830 * b ^ 2 + (-3996742648) * b ^ 3 + 3256483549 * b ^ 4 + (-1708780559) * b ^ 5 + 575571232 * b ^ 6 + (-120410235) * b ^ 7 + 14848146 * b ^ 8 + (-1126279) * b ^ 9 + 76511 * b ^ 10 - 1000) in P by ring.
  powers b 10%nat. set (q := 2264 / 10000 * b). replace ((mnum q + 2 * q * mnum1 q) * mden q - 2 * q * mnum q * mden1 q) with (((29180993762091256212443113327026367187500000000000000000000) * b ^ 0 + (-154724525507122840325728567109595611691474914550781250000000) * b ^ 1 + (356056591299103793038426478392933014333248138427734375000000) * b ^ 2 + (-465282081567906003127316123886918135336637496948242187500000) * b ^ 3 + (379104580461954084514211345272435898328315258026123046875000) * b ^ 4 + (-198928238630402610630137776852151760586688607864379882812500) * b ^ 5 + (67005310214945010479103952097534710253893361127929687500000) * b ^ 6 + (-14017596258326769777255430761950477789545289695534179687500) * b ^ 7 + (1728551807272405812412413739161734560532424098783445312500) * b ^ 8 + (-131116029877134222102410912805575771945088560971987134375) * b ^ 9 + (8907097324046684031377695083554094050235590866859060568) * b ^ 10) / 11641532182693481445312500000000000000000000000000000000000) by (unfold q, mnum, mden, mnum1, mden1; coefs; field). apply Rdiv_lt_0_compat; lra.
Qed.

