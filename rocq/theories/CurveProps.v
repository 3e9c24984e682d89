(** Property C41: integrals of curves and discount factors. *)
From Coq Require Import Reals List ZArith Bool Lia Lra.
From Verif Require Import Base Vec CurveModel CurveSpec CurveProofs.
Import ListNotations.
Open Scope R_scope.

Lemma telescope (F v : Z -> R) : (forall d, F (d + 1)%Z - F d = v d) -> forall n a, F (a + Z.of_nat n)%Z - F a = day_sum v a n.
Proof.
  intros H n; induction n as [|n IH]; intros a; cbn [day_sum]; [rewrite Z.add_0_r; lra|]. rewrite <- IH, <- H. replace (a + 1 + Z.of_nat n)%Z with (a + Z.of_nat (S n))%Z by lia. lra.
Qed.
(** Piecewise constant curves: the value at a date is the right value of the last knot on or before it. *)
Theorem C41_constant_value ks fr d : ascending ks -> length fr = length ks ->
  exists c v b, new_pwc ks fr = Ok c /\ pwc_f c d = Ok (v, b) /\ is_constant_value ks fr d v /\ (b = true <-> In d ks).
Proof.
  intros H1 H2. destruct (new_pwc_ok ks fr H2) as (s & E & Hl & H0 & Hs). destruct (pwc_value_ok ks fr H1 H2 s H0 Hl Hs d) as (v & b & A & B & C & _). exists (Pwc ks fr s), v, b. auto.
Qed.
Example C41_constant_ex : ascending [10; 20; 35]%Z /\ length [1; 2; 3] = length [10; 20; 35]%Z.
Proof. split; [|reflexivity]. intros i j H. cbn in H. destruct i as [|[|[|i]]], j as [|[|[|j]]]; cbn; lia. Qed.
Print Assumptions C41_constant_value.
(** The integral between two dates is the sum of the daily values, since the curve only changes at dates; it is
    additive, and changes sign when the dates are exchanged. *)
Theorem C41_constant_integral ks fr c : ascending ks -> length fr = length ks -> new_pwc ks fr = Ok c ->
  (forall a n, pwc_integral c a (a + Z.of_nat n) = Ok (day_sum (fun d => match pwc_f c d with Ok (v, _) => v | _ => 0 end) a n)) /\
  (forall a b d, exists x y z, pwc_integral c a b = Ok x /\ pwc_integral c b d = Ok y /\ pwc_integral c a d = Ok z /\ z = x + y) /\
  (forall a b, exists x, pwc_integral c a b = Ok x /\ pwc_integral c b a = Ok (- x)).
Proof.
  intros H1 H2 Ec. destruct (new_pwc_ok ks fr H2) as (s & E & Hl & H0 & Hs). rewrite Ec in E. injection E as ->. pose proof (pwc_integral_to_ok ks fr H2 s H0 Hl Hs) as HI. pose proof (fun d => pwc_value_ok ks fr H1 H2 s H0 Hl Hs d) as HV.
  unfold pwc_integral. split; [|split].
  - intros a n. rewrite !HI. cbn [obind]. f_equal. apply telescope. intros d. destruct (HV d) as (v & b & -> & _ & _ & ->). reflexivity.
  - intros a b d. rewrite !HI. cbn [obind]. do 3 eexists. repeat (split; [reflexivity|]). lra.
  - intros a b. rewrite !HI. cbn [obind]. eexists. split; [reflexivity|]. f_equal. lra.
Qed.
Example C41_constant_integral_ex : exists c, new_pwc [10; 20]%Z [1; 2] = Ok c. Proof. eexists. reflexivity. Qed.
Print Assumptions C41_constant_integral.

(** Piecewise linear curves: straight lines from the right value of a knot to the left value of the next, flat outside. *)
Theorem C41_linear_value ks fl fr d right : ks <> [] -> nondecreasing ks -> length fl = length ks -> length fr = length ks ->
  exists p v, new_pwl ks fl fr = Ok p /\ pwl_value p d right = Ok v /\ is_linear_value ks fl fr d right v.
Proof.
  intros H1 H2 H3 H4. destruct (new_pwl_ok ks fl fr H1 H3 H4) as (s & E & Hl & H0 & Hs). destruct (pwl_value_ok ks fl fr H1 H3 H4 s Hl d right) as (v & A & _ & B). exists (Pwl ks fl fr s), v. auto.
Qed.
Example C41_linear_ex : [10; 20; 20]%Z <> [] /\ nondecreasing [10; 20; 20]%Z.
Proof. split; [discriminate|]. intros i j H. cbn in H. destruct i as [|[|[|i]]], j as [|[|[|j]]]; cbn; lia. Qed.
Print Assumptions C41_linear_value.
(** The integral over a day, on which the curve is a straight line, is the mean of the value right after its start and
    the value right before its end; longer integrals are sums of these. *)
Theorem C41_linear_integral p : good_pwl p ->
  forall a n, exists x y, pwl_integral_to p a = Ok x /\ pwl_integral_to p (a + Z.of_nat n) = Ok y /\
    y - x = day_sum (fun d => (val (pwl_value p d true) + val (pwl_value p (d + 1) false)) / 2) a n.
Proof.
  intros (ks & fl & fr & H1 & H2 & H3 & H4 & Ep) a n. destruct (new_pwl_ok ks fl fr H1 H3 H4) as (s & E & Hl & H0 & Hs). rewrite Ep in E. injection E as ->.
  rewrite !(pwl_integral_to_ok ks fl fr H1 H3 H4 s H0 Hl Hs). do 2 eexists. split; [reflexivity|]. split; [reflexivity|]. apply (telescope (pwl_to ks fl fr s)). intros d.
  destruct (pwl_value_ok ks fl fr H1 H3 H4 s Hl d true) as (v & -> & -> & _). destruct (pwl_value_ok ks fl fr H1 H3 H4 s Hl (d + 1) false) as (w & -> & -> & _). cbn [val]. now apply pwl_day.
Qed.
Example C41_linear_integral_ex : exists p, new_pwl [10; 20; 20]%Z [1; 2; 3] [1; 4; 5] = Ok p. Proof. eexists. reflexivity. Qed.
Print Assumptions C41_linear_integral.

(** discount factors: a potential for every curve *)
Fixpoint potential (c : discount) (d : Z) : R := match c with DiscountPWLF p b => val (pwl_integral_to p d) + match b with Some c' => potential c' d | None => 0 end end.
Section DiscountInd.
Variable P : discount -> Prop.
Hypothesis H : forall p b, (match b with Some c => P c | None => True end) -> P (DiscountPWLF p b).
Fixpoint discount_induction (c : discount) : P c := match c with DiscountPWLF p b => H p b (match b with Some c' => discount_induction c' | None => Logic.I end) end.
End DiscountInd.
Lemma good_integral p d : good_pwl p -> pwl_integral_to p d = Ok (val (pwl_integral_to p d)).
Proof.
  intros (ks & fl & fr & H1 & H2 & H3 & H4 & Ep). destruct (new_pwl_ok ks fl fr H1 H3 H4) as (s & E & Hl & H0 & Hs). rewrite Ep in E. injection E as ->.
  rewrite !(pwl_integral_to_ok ks fl fr H1 H3 H4 s H0 Hl Hs). reflexivity.
Qed.
Lemma df_potential c a b : good_curve c -> df c a b = Ok (exp (- (potential c b - potential c a) / 365)).
Proof.
  induction c as [p base IH] using discount_induction. intros [Hp Hb]. cbn [df potential]. rewrite (good_integral p a Hp), (good_integral p b Hp). cbn [obind val]. destruct base as [c'|].
  - rewrite IH by exact Hb. cbn [obind]. rewrite <- exp_plus. f_equal. f_equal. field.
  - cbn [obind]. f_equal. rewrite Rmult_1_r. f_equal. field.
Qed.
(** Discount factors compose: DF(a,c) = DF(a,b) DF(b,c), DF(a,a) = 1, DF(b,a) = 1 / DF(a,b) and they are positive,
    for every curve whatever the number of bases below it. *)
Theorem C41_discount_composes cv : good_curve cv -> forall a b c,
  exists x y z w, df cv a b = Ok x /\ df cv b c = Ok y /\ df cv a c = Ok z /\ df cv b a = Ok w /\ z = x * y /\ w = / x /\ df cv a a = Ok 1 /\ 0 < x.
Proof.
  intros H a b c. rewrite !df_potential by exact H. do 4 eexists. repeat (split; [reflexivity|]). split; [rewrite <- exp_plus; f_equal; field|]. split; [rewrite <- exp_Ropp; f_equal; field|]. split; [f_equal; rewrite <- exp_0; f_equal; field|apply exp_pos].
Qed.
Definition sample : discount :=
  DiscountPWLF (Pwl [10; 20]%Z [1/100; 2/100] [1/100; 2/100] [0; 0 + dt 20 10 * ((2/100 + 1/100) / 2)]) (Some (DiscountPWLF (Pwl [5]%Z [0] [3/100] [0]) None)).
Lemma sample_good : good_curve sample.
Proof.
  cbn. split; [|split; [|exact Logic.I]].
  - exists [10; 20]%Z, [1/100; 2/100], [1/100; 2/100]. split; [discriminate|]. split; [intros i j H; cbn in H; destruct i as [|[|i]], j as [|[|j]]; cbn; lia|]. repeat split.
  - exists [5]%Z, [0], [3/100]. split; [discriminate|]. split; [intros i j H; cbn in H; lia|]. repeat split.
Qed.
Example C41_discount_ex : good_curve sample. Proof. exact sample_good. Qed.
Print Assumptions C41_discount_composes.
(** ... they are the exponential of minus the sum of the daily forward rates of the curve and its bases over 365 ... *)
Theorem C41_discount_rates cv : good_curve cv -> forall a n, df cv a (a + Z.of_nat n) = Ok (exp (- day_sum (day_rate cv) a n / 365)).
Proof.
  intros H a n. rewrite df_potential by exact H. do 4 f_equal. apply telescope. clear a n. intros d. revert H. induction cv as [p base IH] using discount_induction. intros [Hp Hb]. cbn [potential day_rate].
  assert (val (pwl_integral_to p (d + 1)) - val (pwl_integral_to p d) = (val (pwl_value p d true) + val (pwl_value p (d + 1) false)) / 2) as E.
  { destruct (C41_linear_integral p Hp d 1) as (x & y & -> & Ey & Es). change (Z.of_nat 1) with 1%Z in Ey. rewrite Ey. cbn [val day_sum] in *. lra. }
  destruct base as [c'|]; [specialize (IH Hb)|]; lra.
Qed.
Example C41_discount_rates_ex : good_curve sample. Proof. exact sample_good. Qed.
Print Assumptions C41_discount_rates.
Lemma value_nonneg p d b : good_pwl p -> (forall x, In x (l_left p) -> 0 <= x) -> (forall x, In x (l_right p) -> 0 <= x) -> 0 <= val (pwl_value p d b).
Proof.
  intros (ks & fl & fr & H1 & H2 & H3 & H4 & Ep) Hl0 Hr0. destruct (new_pwl_ok ks fl fr H1 H3 H4) as (s & E & Hl & H0 & Hs). rewrite Ep in E. injection E as ->. cbn [l_left l_right] in *.
  destruct (pwl_value_ok ks fl fr H1 H3 H4 s Hl d b) as (v & -> & _ & Hv). cbn [val]. pose proof (nonempty ks H1) as Hn.
  assert (forall i, (i < length ks)%nat -> 0 <= nth i fl 0) as HL by (intros i Hi; apply Hl0, nth_In; lia). assert (forall i, (i < length ks)%nat -> 0 <= nth i fr 0) as HR by (intros i Hi; apply Hr0, nth_In; lia).
  unfold is_linear_value in Hv. destruct Hv as [[_ ->]|[[_ ->]|(i & Hi & B & A & ->)]]; [apply HL; lia|apply HR; lia|]. unfold line. pose proof (HL (S i) Hi). pose proof (HR i ltac:(lia)).
  set (k0 := nth i ks 0%Z) in *. set (k1 := nth (S i) ks 0%Z) in *. clearbody k0 k1.
  assert (k0 <= d <= k1 /\ k0 < k1)%Z as [[Q1 Q2] Q3] by (destruct b; lia). apply IZR_le in Q1. apply IZR_le in Q2. apply IZR_lt in Q3. set (f1 := nth (S i) fl 0) in *. set (f0 := nth i fr 0) in *.
  set (w := (IZR d - IZR k0) / (IZR k1 - IZR k0)). assert (0 <= w <= 1) as Hw.
  { unfold w. split; [apply Rmult_le_pos; [lra|apply Rlt_le, Rinv_0_lt_compat; lra]|]. apply (Rmult_le_reg_r (IZR k1 - IZR k0)); [lra|]. unfold Rdiv. rewrite Rmult_assoc, Rinv_l by lra. lra. }
  replace (f0 + (f1 - f0) * (IZR d - IZR k0) / (IZR k1 - IZR k0)) with (f0 * (1 - w) + f1 * w) by (unfold w, Rdiv; ring). nra.
Qed.
(** ... so with forward rates that are not negative they never rise with the end date and are at most 1. *)
Theorem C41_discount_decreasing cv : good_curve cv -> nonnegative cv -> forall a b c, (a <= b <= c)%Z ->
  exists x y, df cv a b = Ok x /\ df cv a c = Ok y /\ y <= x <= 1.
Proof.
  intros H Hn a b c Habc. assert (forall d, 0 <= day_rate cv d) as Hr.
  { intros d. revert H Hn. induction cv as [p base IH] using discount_induction. intros [Hp Hb] (N1 & N2 & N3). cbn [day_rate]. pose proof (value_nonneg p d true Hp N1 N2). pose proof (value_nonneg p (d + 1) false Hp N1 N2). destruct base as [c'|]; [specialize (IH Hb N3)|]; lra. }
  assert (forall n a, 0 <= day_sum (day_rate cv) a n) as Hs by (induction n as [|n IH]; intros a0; cbn [day_sum]; [lra|]; pose proof (Hr a0); pose proof (IH (a0 + 1)%Z); lra).
  assert (forall u w, (u <= w)%Z -> potential cv u <= potential cv w) as Hmono.
  { intros u w Huw. pose proof (C41_discount_rates cv H u (Z.to_nat (w - u))) as E. rewrite Z2Nat.id in E by lia. replace (u + (w - u))%Z with w in E by lia. rewrite df_potential in E by exact H. injection E as E. apply exp_inv in E. pose proof (Hs (Z.to_nat (w - u)) u). lra. }
  rewrite !df_potential by exact H. do 2 eexists. split; [reflexivity|]. split; [reflexivity|]. assert (forall u w, u <= w -> exp u <= exp w) as Hexp by (intros u w [Q| ->]; [left; now apply exp_increasing|right; reflexivity]).
  pose proof (Hmono a b ltac:(lia)). pose proof (Hmono b c ltac:(lia)). split; [apply Hexp; lra|]. rewrite <- exp_0. apply Hexp. lra.
Qed.
Example C41_discount_decreasing_ex : good_curve sample /\ nonnegative sample.
Proof. split; [exact sample_good|]. cbn. repeat split; intros x H; repeat destruct H as [<-|H]; try lra; destruct H. Qed.
Print Assumptions C41_discount_decreasing.
(** Moving the values of a curve gives the curve built from the moved values: the stored integrals follow. *)
Theorem C41_apply_dx ks fl fr p dx leverage : ks <> [] -> length fl = length ks -> length fr = length ks -> length dx = (2 * length ks)%nat -> new_pwl ks fl fr = Ok p ->
  exists fl' fr' p', pwl_apply_dx p dx leverage = Ok p' /\ new_pwl ks fl' fr' = Ok p' /\ length fl' = length ks /\ length fr' = length ks /\
    forall i, (i < length ks)%nat -> nth i fl' 0 = nth i fl 0 + leverage * nth (2 * i) dx 0 /\ nth i fr' 0 = nth i fr 0 + leverage * nth (2 * i + 1) dx 0.
Proof.
  intros H1 H3 H4 H5 Ep. destruct (new_pwl_ok ks fl fr H1 H3 H4) as (s & E & _). rewrite Ep in E. injection E as ->. unfold pwl_apply_dx. cbn [l_left l_right l_knots].
  assert (forall fl fr dx, length fr = length fl -> length dx = (2 * length fl)%nat -> exists fl' fr', apply_dx_values fl fr dx leverage = Ok (fl', fr') /\ length fl' = length fl /\ length fr' = length fl /\
    forall i, (i < length fl)%nat -> nth i fl' 0 = nth i fl 0 + leverage * nth (2 * i) dx 0 /\ nth i fr' 0 = nth i fr 0 + leverage * nth (2 * i + 1) dx 0) as HA.
  { clear. induction fl as [|l fl IH]; intros fr dx Hr Hd.
    - destruct fr; [|discriminate]. exists [], []. cbn. repeat split; intros; lia.
    - destruct fr as [|r fr]; [discriminate|]. destruct dx as [|x [|y dx]]; try (cbn in Hd; lia). destruct (IH fr dx) as (a & b & E & L1 & L2 & N); [cbn in Hr; lia|cbn in Hd; lia|]. exists (l + leverage * x :: a), (r + leverage * y :: b). cbn [apply_dx_values]. rewrite E. cbn [obind length]. split; [reflexivity|]. split; [lia|]. split; [lia|].
      intros [|i] Hi; [cbn; auto|]. destruct (N i) as [Na Nb]; [lia|]. replace (2 * S i)%nat with (S (S (2 * i))) by lia. replace (S (S (2 * i)) + 1)%nat with (S (S (2 * i + 1))) by lia. cbn [nth]. auto. }
  destruct (HA fl fr dx ltac:(lia) ltac:(lia)) as (fl' & fr' & E & L1 & L2 & N). rewrite E. cbn [obind]. destruct (new_pwl_ok ks fl' fr' H1 ltac:(lia) ltac:(lia)) as (s' & E' & _). exists fl', fr', (Pwl ks fl' fr' s'). rewrite H3 in *. auto 10.
Qed.
Example C41_apply_dx_ex : exists p, new_pwl [10; 20]%Z [1; 2] [3; 4] = Ok p. Proof. eexists. reflexivity. Qed.
Print Assumptions C41_apply_dx.
(** The constructor accepts a repeated knot, and then a piecewise constant curve is not the integral of its values: the
    value read on the knot is the first one and the integral uses the second. *)
Theorem C41_repeated_knot_refuted d x y : exists c, new_pwc [d; d] [x; y] = Ok c /\ pwc_f c d = Ok (x, true) /\ pwc_integral c d (d + 1) = Ok y.
Proof.
  eexists. split; [reflexivity|]. unfold pwc_f, pwc_integral, pwc_integral_to. cbn [c_knots c_right c_sofar lbound length]. rewrite Z.ltb_irrefl. replace (d <? d + 1)%Z with true by (symmetry; apply Z.ltb_lt; lia). cbn [nth]. rewrite Z.eqb_refl.
  split; [reflexivity|]. cbn. f_equal. unfold dt. rewrite Z.sub_diag. replace (d + 1 - d)%Z with 1%Z by lia. lra.
Qed.
Example C41_repeated_knot_ex : exists c, new_pwc [10; 10]%Z [1; 2] = Ok c. Proof. eexists. reflexivity. Qed.
Print Assumptions C41_repeated_knot_refuted.
(** An empty piecewise linear curve is accepted and reading it is undefined behaviour. *)
Theorem C41_empty_refuted d b : exists p, new_pwl [] [] [] = Ok p /\ pwl_integral_to p d = UB /\ pwl_value p d b = UB.
Proof. eexists. split; [reflexivity|]. destruct b; split; reflexivity. Qed.
Print Assumptions C41_empty_refuted.
