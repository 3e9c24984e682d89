(** Property C65: calibrated local volatilities. *)
From Coq Require Import ZArith Reals List Arith Bool Lia Lra.
From Verif Require Import Base Vec BlackModel BlackSpec BlackProofs InterpModel InterpSpec InterpProofs InterpProps BlackProps DateTimeModel FillModel FillSpec FillProofs FillProps DupireModel DupireProofs CalibModel CalibSpec CalibProofs CalibDiff.
Import ListNotations.
Local Open Scope R_scope.
(** One maturity on a grid with a point in the band: every volatility is the local volatility at the grid point that stands for
    its own. *)
Theorem C65_maturity N s mat grid risk row atm : FillSpec.increasing grid -> length row = length grid -> call N s None (spot_ s) mat = Ok atm ->
  (exists x, In x grid /\ in_band (spot_ s) (half_width atm) x) -> (forall x, In x grid -> in_band (spot_ s) (half_width atm) x -> exists v, local_vol N s (Some risk) x mat = Ok v) ->
  exists row', calib_maturity N s mat grid risk row = Ok row' /\ length row' = length grid /\
    forall i, (i < length grid)%nat -> exists x, stands_for (spot_ s) (half_width atm) grid (nth i grid 0) x /\ local_vol N s (Some risk) x mat = Ok (nth i row' 0).
Proof. intros. now apply maturity_ok. Qed.
Print Assumptions C65_maturity.
(** The whole surface: grids without long steps through the points asked for, and a volatility for each pair. *)
Theorem C65_surface N fuel s incl_spots max_ds incl_times max_dt risk :
  incl_spots <> [] -> FillSpec.increasing incl_spots -> 1 / 50 <= max_ds -> (forall x y, In x incl_spots -> In y incl_spots -> y - x < max_ds * 2147483647) ->
  incl_times <> [] -> FillSpec.increasing incl_times -> 2 * one_hour <= max_dt -> (forall x y, In x (incl_times ++ [max_dt]) -> In y (incl_times ++ [max_dt]) -> y - x < max_dt * 2147483647) -> (2 ^ 31 <= Z.of_nat fuel)%Z ->
  (forall t, exists atm, call N s None (spot_ s) t = Ok atm /\ exists x, In x incl_spots /\ in_band (spot_ s) (half_width atm) x) -> (forall x t, exists v, local_vol N s (Some risk) x t = Ok v) ->
  exists spots times vols, dupire_calib N fuel s incl_spots max_ds incl_times max_dt risk = Ok (spots, times, vols) /\
    FillSpec.increasing spots /\ incl incl_spots spots /\ steps_at_most (max_ds / (1 - 2 / 10 ^ 14)) spots /\
    FillSpec.increasing times /\ incl incl_times times /\ (exists t, In t times /\ Rabs (max_dt - t) <= one_hour) /\ steps_at_most (max_dt / (1 - 2 / 10 ^ 14)) times /\
    length vols = length spots /\ forall i, (i < length spots)%nat -> length (nth i vols []) = length times /\ forall j, (j < length times)%nat ->
      exists atm x, call N s None (spot_ s) (nth j times 0) = Ok atm /\ stands_for (spot_ s) (half_width atm) spots (nth i spots 0) x /\ local_vol N s (Some risk) x (nth j times 0) = Ok (nth j (nth i vols []) 0).
Proof.
  intros S1 S2 S3 S4 T1 T2 T3 T4 Hfuel Hatm Hlv. assert (0 < one_hour) as Hoh by (unfold one_hour; lra).
  destruct (C51_fill fuel incl_spots [] max_ds (1 / 100) S1 S2 ltac:(constructor) ltac:(lra) ltac:(lra)) as (spots & Es & Is & Ss & Ks & _); [rewrite app_nil_r; exact S4|exact Hfuel|].
  destruct (C51_fill fuel incl_times [max_dt] max_dt one_hour T1 T2 ltac:(constructor) ltac:(lra) ltac:(lra) T4 Hfuel) as (times & Et & It & St & Kt & At).
  change (@num RealArith) with R in *.
  set (good := fun t row => length row = length spots /\ forall i, (i < length spots)%nat -> exists atm x, call N s None (spot_ s) t = Ok atm /\ stands_for (spot_ s) (half_width atm) spots (nth i spots 0) x /\ local_vol N s (Some risk) x t = Ok (nth i row 0)).
  assert (Hrows : forall l, exists rows, mapm (fun t => calib_maturity N s t spots risk (repeat 0 (length spots))) l = Ok rows /\ length rows = length l /\ forall j, (j < length l)%nat -> good (nth j l 0) (nth j rows [])).
  { induction l as [|t l IH]; [exists []; split; [reflexivity|]; split; [reflexivity|]; cbn; intros; lia|]. destruct IH as (rows & E & L & Q). destruct (Hatm t) as (atm & Ea & x0 & X1 & X2).
    destruct (C65_maturity N s t spots risk (repeat 0 (length spots)) atm Is (repeat_length _ _) Ea) as (row & Er & Lr & Qr); [exists x0; split; [exact (Ks _ X1)|exact X2]|intros; apply Hlv|].
    exists (row :: rows). cbn [mapm]. rewrite Er. cbn [obind]. rewrite E. cbn [obind]. split; [reflexivity|]. split; [cbn; lia|]. intros [|j] Hj; cbn [nth]; [|apply Q; cbn in Hj; lia]. split; [exact Lr|]. intros i Hi. destruct (Qr i Hi) as (x & A & B). exists atm, x. split; [exact Ea|]. split; assumption. }
  destruct (Hrows times) as (rows & Er & Lr & Qr). unfold dupire_calib.
  change (@num RealArith) with R in *. rewrite Es. cbn [obind]. rewrite Et. cbn [obind]. unfold calib_rows. rewrite Er. cbn [obind]. unfold turned.
  rewrite (mapm_ok _ (fun i => map (fun r => nth i r 0) rows)).
  2:{ intros i Hi. apply in_seq in Hi. apply mapm_ok. intros r Hr. destruct (In_nth rows r [] Hr) as (j & Hj & <-). apply get_ok. destruct (Qr j ltac:(lia)) as [A _]. lia. }
  cbn [obind]. do 3 eexists. split; [reflexivity|]. split; [exact Is|]. split; [exact Ks|]. split; [exact Ss|]. split; [exact It|]. split; [exact Kt|].
  split; [destruct (At max_dt ltac:(now left)) as (y & A & B); exists y; split; assumption|]. split; [exact St|]. split; [rewrite map_length, seq_length; reflexivity|]. intros i Hi.
  assert (En : nth i (map (fun i => map (fun r => nth i r 0) rows) (seq 0 (length spots))) [] = map (fun r => nth i r 0) rows).
  { rewrite (nth_indep _ [] (map (fun r => nth 0 r 0) rows)) by (rewrite map_length, seq_length; exact Hi). rewrite (map_nth (fun i => map (fun r => nth i r 0) rows)). rewrite seq_nth by exact Hi. reflexivity. }
  rewrite En, map_length. split; [exact Lr|]. intros j Hj. destruct (Qr j Hj) as [_ Q]. destruct (Q i Hi) as (atm & x & A & B & C). exists atm, x. split; [exact A|]. split; [exact B|]. rewrite C. f_equal.
  rewrite (nth_indep (map (fun r => nth i r 0) rows) 0 (nth i [] 0)) by (rewrite map_length; lia). rewrite (map_nth (fun r => nth i r 0)). reflexivity.
Qed.
Print Assumptions C65_surface.
(** Dupire's formula: with first and second rates of the call price in the strike and its rate in the maturity, the local
    volatility is the formula with each rate taken within one part in ten thousand of the strike or the maturity. *)
Theorem C65_dupire N s risk k t (C C_t C_k C_kk : R -> R -> R) : 0 < k -> 0 < t ->
  (forall x y, x = k \/ y = t -> Rabs (x - k) <= 1 / 10000 * k -> Rabs (y - t) <= 1 / 10000 * t -> call N s risk x y = Ok (C x y)) ->
  (forall y, Rabs (y - t) <= 1 / 10000 * t -> derivable_pt_lim (fun y => C k y) y (C_t k y)) ->
  (forall x, Rabs (x - k) <= 1 / 10000 * k -> derivable_pt_lim (fun x => C x t) x (C_k x t) /\ derivable_pt_lim (fun x => C_k x t) x (C_kk x t)) ->
  exists t1 k1 k2, Rabs (t1 - t) < 1 / 10000 * t /\ Rabs (k1 - k) < 1 / 10000 * k /\ Rabs (k2 - k) < 1 / 10000 * k /\
    local_vol N s risk k t = Ok (sqrt (2 * (C_t k t1 + q_ s * C k t + (r_ s - q_ s) * C_k k1 t) / C_kk k2 t) / k).
Proof.
  intros Hk Ht HC Htr Hkr. set (dt := 1 / 10000 * t) in *. set (ds := 1 / 10000 * k) in *. assert (0 < dt) by (unfold dt; lra). assert (0 < ds) by (unfold ds; lra).
  destruct (first_difference (fun y => C k y) (fun y => C_t k y) t dt) as (t1 & R1 & E1); [assumption|intros y Hy; apply Htr; apply Rabs_le; lra|].
  destruct (first_difference (fun x => C x t) (fun x => C_k x t) k ds) as (k1 & R2 & E2); [assumption|intros y Hy; apply Hkr; apply Rabs_le; lra|].
  destruct (second_difference (fun x => C x t) (fun x => C_k x t) (fun x => C_kk x t) k ds) as (k2 & R3 & E3); [assumption|intros y Hy; apply Hkr; apply Rabs_le; lra|intros y Hy; apply Hkr; apply Rabs_le; lra|].
  exists t1, k1, k2. split; [apply Rabs_def1; lra|]. split; [apply Rabs_def1; lra|]. split; [apply Rabs_def1; lra|]. unfold local_vol. fold dt ds.
  rewrite !HC by (try (left; reflexivity); try (right; reflexivity); apply Rabs_le; lra). cbn [obind]. cbv beta in E1, E2, E3. rewrite E1, E2, E3. reflexivity.
Qed.
Print Assumptions C65_dupire.
(** a surface with one volatility and no rates *)
Definition flat (spot vol : R) : ivs := Ivs spot 0 0 (fun _ _ => Ok vol).
(** On it the local volatility is that volatility times the root of the ratio of two nearby gammas ... *)
Theorem C65_flat N n spot vol k t : normal_law N n -> 0 < spot -> 0 < k -> 0 < t -> 0 < vol -> BlackModel.epsilon <= spot * k * (1 - 1 / 10000) -> BlackModel.epsilon <= vol * sqrt (t * (1 - 1 / 10000)) ->
  exists t1 k2, Rabs (t1 - t) < 1 / 10000 * t /\ Rabs (k2 - k) < 1 / 10000 * k /\
    local_vol N (flat spot vol) (Some NoView) k t = Ok (vol * sqrt (gamma n spot vol k t1 / gamma n spot vol k2 t)).
Proof.
  intros HN Hs Hk Ht Hv Hek Hev. assert (Hvm : forall y, Rabs (y - t) <= 1 / 10000 * t -> 0 < y /\ BlackModel.epsilon <= vol * sqrt y).
  { intros y Hy. apply abs_between in Hy. split; [lra|]. eapply Rle_trans; [exact Hev|]. apply Rmult_le_compat_l; [lra|]. apply sqrt_le_1; lra. }
  assert (Hkm : forall x, Rabs (x - k) <= 1 / 10000 * k -> 0 < x /\ BlackModel.epsilon <= spot * x).
  { intros x Hx. apply abs_between in Hx. split; [lra|]. eapply Rle_trans; [exact Hek|]. rewrite Rmult_assoc. apply Rmult_le_compat_l; lra. }
  assert (Hnz : forall y, 0 < y -> vol * sqrt y <> 0) by (intros y Hy; pose proof (sqrt_lt_R0 y Hy); nra).
  assert (Z : forall z, 0 < z -> Rabs (z - z) <= 1 / 10000 * z) by (intros z Hz; rewrite Rminus_diag_eq by reflexivity; rewrite Rabs_R0; lra).
  destruct (C65_dupire N (flat spot vol) (Some NoView) k t (fun x y => call_of N spot (vol * sqrt y) x) (fun x y => 1 / 2 * vol * vol * x * x * gamma n spot vol x y) (fun x y => - N (d_minus spot (vol * sqrt y) x)) (fun x y => gamma n spot vol x y) Hk Ht) as (t1 & k1 & k2 & R1 & _ & R3 & E).
  - intros x y _ Hx Hy. unfold call, flat. cbn [implied_vol spread obind spot_]. rewrite Rplus_0_r. unfold black_scholes. apply black_call; [exact (proj2 (Hvm y Hy))|exact (proj2 (Hkm x Hx))].
  - intros y Hy. apply (call_time N n HN); try assumption. exact (proj1 (Hvm y Hy)).
  - intros x Hx. destruct (Hkm x Hx) as [Px _]. split; [apply (call_strike N n HN); try assumption; apply Hnz; exact Ht|]. rewrite gamma_dm. apply (call_strike2 N n HN); try assumption. apply Hnz; exact Ht.
  - exists t1, k2. split; [exact R1|]. split; [exact R3|]. rewrite E. f_equal. cbn [q_ r_ flat]. destruct (Hvm t1 ltac:(lra)) as [P1 _]. destruct (Hkm k2 ltac:(lra)) as [P2 _].
    pose proof (gamma_pos N n HN spot vol k t1 Hk Hv P1) as G1. pose proof (gamma_pos N n HN spot vol k2 t P2 Hv Ht) as G2. set (a := gamma n spot vol k t1) in *. set (b := gamma n spot vol k2 t) in *.
    replace (2 * (1 / 2 * vol * vol * k * k * a + 0 * _ + _) / b) with ((vol * k) * (vol * k) * (a / b)) by (field; lra).
    rewrite sqrt_mult_alt by apply Rle_0_sqr. rewrite sqrt_square by nra. field. lra.
Qed.
Print Assumptions C65_flat.
(** ... and so within half a percent of it, for total deviations of 5 to 200 percent and strikes up to three deviations away. *)
Theorem C65_flat_close N n spot vol k t : normal_law N n -> 0 < spot -> 0 < k -> 0 < t -> 0 < vol -> BlackModel.epsilon <= spot * k * (1 - 1 / 10000) ->
  1 / 20 <= vol * sqrt t <= 2 -> Rabs (ln (spot / k)) <= 3 * (vol * sqrt t) ->
  exists v, local_vol N (flat spot vol) (Some NoView) k t = Ok v /\ Rabs (v - vol) <= 1 / 200 * vol.
Proof.
  intros HN Hs Hk Ht Hv Hek Hd Hl. pose proof (sqrt_sqrt t ltac:(lra)) as Hq. pose proof (sqrt_lt_R0 t Ht) as Hr.
  assert (Hev : BlackModel.epsilon <= vol * sqrt (t * (1 - 1 / 10000))).
  { rewrite sqrt_mult by lra. assert (1 / 2 <= sqrt (1 - 1 / 10000)) by (replace (1 / 2) with (sqrt (1 / 2 * (1 / 2))) by (apply sqrt_square; lra); apply sqrt_le_1; lra). unfold BlackModel.epsilon. nra. }
  destruct (C65_flat N n spot vol k t HN Hs Hk Ht Hv Hek Hev) as (t1 & k2 & R1 & R2 & E). apply Rabs_def2 in R1. apply Rabs_def2 in R2.
  assert (EV : vol * vol * t = (vol * sqrt t) * (vol * sqrt t)) by (rewrite <- Hq at 1; ring).
  assert (EL : ln (spot / k) = ln spot - ln k) by (unfold Rdiv; rewrite ln_mult, ln_Rinv by (try apply Rinv_0_lt_compat; assumption); ring). rewrite EL in Hl.
  destruct (gamma_close N n spot vol k t k2 t1 HN Hs Hv Hk Ht ltac:(lra) ltac:(lra)) as (e & He & Eg).
  - rewrite EV. split; nra.
  - rewrite EV. apply abs_between in Hl. set (L := ln spot - ln k) in *. set (w := vol * sqrt t) in *. assert (0 <= (3 * w - L) * (3 * w + L)) by (apply Rmult_le_pos; lra). lra.
  - eexists. split; [exact E|]. rewrite Eg, exp_half. replace (vol * exp (e / 2) - vol) with (vol * (exp (e / 2) - 1)) by ring. rewrite Rabs_mult, (Rabs_right vol) by lra. rewrite (Rmult_comm (1 / 200)). apply Rmult_le_compat_l; [lra|].
    apply exp_near. unfold Rdiv. rewrite Rabs_mult, (Rabs_right (/ 2)) by lra. lra.
Qed.
Print Assumptions C65_flat_close.
(** A view without spreads changes nothing, and a bump of one spread moves it alone among those at the knots. *)
Theorem C65_view N s ks ms k t : InterpSpec.nondecreasing ks -> InterpSpec.nondecreasing ms -> ks <> [] -> ms <> [] ->
  local_vol N s (Some (new_view ks ms)) k t = local_vol N s None k t /\ local_vol N s (Some NoView) k t = local_vol N s None k t.
Proof.
  intros Hk Hm Nk Nm. assert (E : forall x y, spread (new_view ks ms) x y = Ok 0).
  { intros x y. unfold spread, new_view. assert (T : table ks ms (repeat (repeat 0 (length ms)) (length ks))).
    { split; [apply repeat_length|]. intros i Hi. rewrite (nth_indep _ [] (repeat 0 (length ms))) by exact Hi. rewrite nth_repeat. apply repeat_length. }
    destruct (C37_2d_range ks ms _ x y 0 0 Hk Hm T Nk Nm) as (v & Ev & Hv); [|rewrite Ev; f_equal; lra].
    intros i j Hi Hj. rewrite (nth_indep _ [] (repeat 0 (length ms))) by (rewrite repeat_length; exact Hi). rewrite nth_repeat, nth_repeat. lra. }
  split; [unfold local_vol, call; rewrite !E; reflexivity|reflexivity].
Qed.
Print Assumptions C65_view.
Theorem C65_bump ks ms sp i j by_ : InterpSpec.increasing ks -> InterpSpec.increasing ms -> table ks ms sp -> (i < length ks)%nat -> (j < length ms)%nat ->
  exists v, bump (View ks ms sp) i j by_ = Ok v /\ forall a b, (a < length ks)%nat -> (b < length ms)%nat ->
    spread v (nth a ks 0) (nth b ms 0) = Ok (nth b (nth a sp []) 0 + (if (a =? i)%nat && (b =? j)%nat then by_ else 0)).
Proof.
  intros Hk Hm T Hi Hj. pose proof T as [T1 T2]. unfold bump. rewrite (get_ok sp i []) by lia. cbn [obind]. rewrite (get_ok _ j 0) by (rewrite T2 by lia; exact Hj). cbn [obind]. rewrite put_ok by (rewrite T2 by lia; exact Hj). cbn [obind]. rewrite put_ok by lia. cbn [obind].
  eexists. split; [reflexivity|]. intros a b Ha Hb. unfold spread. rewrite C37_2d_knots; try assumption.
  - f_equal. rewrite nth_set_nth by lia. destruct (Nat.eqb_spec a i) as [->|Na]; cbn [andb]; [|ring]. rewrite nth_set_nth by (rewrite T2 by lia; exact Hj). destruct (Nat.eqb_spec b j) as [->|Nb]; ring.
  - split; [rewrite set_nth_length; exact T1|]. intros c Hc. rewrite set_nth_length in Hc. rewrite nth_set_nth by lia. destruct (Nat.eqb_spec c i) as [->|Nc]; [rewrite set_nth_length|]; apply T2; lia.
Qed.
Print Assumptions C65_bump.
(** Refuted: a grid without a point in the band is refused.  Between two points around the band the volatilities are the zeros the
    matrix was made with; a grid all on one side is undefined. *)
Theorem C65_gap_refuted N s mat risk atm a b : call N s None (spot_ s) mat = Ok atm -> 0 <= atm -> a < spot_ s - half_width atm -> spot_ s + half_width atm < b ->
  calib_maturity N s mat [a; b] risk [0; 0] = Ok [0; 0].
Proof.
  intros E Ha A B. unfold calib_maturity. rewrite E. cbn [obind]. change (5 / 2 * (atm * (2506628274631 / 10 ^ 12))) with (half_width atm). assert (0 <= half_width atm) by (unfold half_width; lra).
  cbn [first_inside length past_inside nth]. destruct (Rlt_dec a (spot_ s - half_width atm)); [|contradiction]. destruct (Rlt_dec b (spot_ s - half_width atm)); [lra|]. destruct (Rlt_dec (spot_ s + half_width atm) b); [|contradiction]. destruct (Rlt_dec (spot_ s + half_width atm) a); [lra|]. reflexivity.
Qed.
Print Assumptions C65_gap_refuted.
Theorem C65_outside_refuted N s mat risk atm a : call N s None (spot_ s) mat = Ok atm -> 0 <= atm -> a < spot_ s - half_width atm \/ spot_ s + half_width atm < a ->
  calib_maturity N s mat [a] risk [0] = UB.
Proof.
  intros E Ha A. unfold calib_maturity. rewrite E. cbn [obind]. change (5 / 2 * (atm * (2506628274631 / 10 ^ 12))) with (half_width atm). assert (0 <= half_width atm) by (unfold half_width; lra).
  cbn [first_inside length past_inside nth]. destruct (Rlt_dec a (spot_ s - half_width atm)), (Rlt_dec (spot_ s + half_width atm) a); try lra; reflexivity.
Qed.
Print Assumptions C65_outside_refuted.
(** Refuted: the rates are used consistently.  With equal rate and yield the forward is the spot, and the same implied volatilities
    mean the same local ones; but the prices differentiated are not discounted, and a positive yield raises every local volatility. *)
Theorem C65_rates_refuted N spot iv q k t v0 vq : 0 < q -> 0 < k -> local_vol N (Ivs spot 0 0 iv) None k t = Ok v0 -> local_vol N (Ivs spot q q iv) None k t = Ok vq ->
  (forall c, call N (Ivs spot 0 0 iv) None k t = Ok c -> 0 < c) ->
  (forall c00 c10 c20, call N (Ivs spot 0 0 iv) None k t = Ok c00 -> call N (Ivs spot 0 0 iv) None (k - 1 / 10000 * k) t = Ok c10 -> call N (Ivs spot 0 0 iv) None (k + 1 / 10000 * k) t = Ok c20 -> 2 * c00 < c10 + c20) ->
  0 < v0 -> v0 < vq.
Proof.
  intros Hq Hk. unfold local_vol, call. cbn [implied_vol spot_ q_ r_ obind].
  destruct (iv k t) as [i00| | |]; cbn [obind]; try discriminate. destruct (black_scholes N spot k (i00 + 0) t) as [c00| | |]; cbn [obind]; try discriminate.
  destruct (iv k (t - _)) as [i01| | |]; cbn [obind]; try discriminate. destruct (black_scholes N spot k (i01 + 0) _) as [c01| | |]; cbn [obind]; try discriminate.
  destruct (iv k (t + _)) as [i02| | |]; cbn [obind]; try discriminate. destruct (black_scholes N spot k (i02 + 0) _) as [c02| | |]; cbn [obind]; try discriminate.
  destruct (iv (k - _) t) as [i10| | |]; cbn [obind]; try discriminate. destruct (black_scholes N spot _ (i10 + 0) _) as [c10| | |]; cbn [obind]; try discriminate.
  destruct (iv (k + _) t) as [i20| | |]; cbn [obind]; try discriminate. destruct (black_scholes N spot _ (i20 + 0) _) as [c20| | |]; cbn [obind]; try discriminate.
  intros E0 Eq Hc Hg Hv. injection E0 as <-. injection Eq as <-. specialize (Hc c00 eq_refl). specialize (Hg c00 c10 c20 eq_refl eq_refl eq_refl).
  set (ds := 1 / 10000 * k) in *. assert (0 < ds) by (unfold ds; lra). set (ct := (c02 - c01) * (1 / 2) / (1 / 10000 * t)) in *. set (ckk := (c10 + c20 - 2 * c00) / ds / ds) in *.
  assert (Hp : 0 < ckk) by (unfold ckk; apply Rdiv_lt_0_compat; [apply Rdiv_lt_0_compat; lra|assumption]). set (ck := (c20 - c10) * (1 / 2) / ds) in *.
  replace (2 * (ct + 0 * c00 + (0 - 0) * ck) / ckk) with (2 * ct / ckk) in * by (field; lra). replace (2 * (ct + q * c00 + (q - q) * ck) / ckk) with (2 * ct / ckk + 2 * q * c00 / ckk) by (field; lra).
  assert (0 < 2 * q * c00 / ckk) by (apply Rdiv_lt_0_compat; [nra|assumption]). assert (0 <= 2 * ct / ckk).
  { destruct (Rle_dec 0 (2 * ct / ckk)) as [D|D]; [exact D|]. rewrite sqrt_neg_0 in Hv by lra. unfold Rdiv in Hv. lra. }
  unfold Rdiv. apply Rmult_lt_compat_r; [apply Rinv_0_lt_compat; exact Hk|]. apply sqrt_lt_1; unfold Rdiv in *; lra.
Qed.
Print Assumptions C65_rates_refuted.
(** The hypotheses can be met: a flat surface around the spot, and one strike and maturity of it. *)
Lemma black_some N f v k : exists x, black_opt N f v k Call = Ok x.
Proof. unfold black_opt, payout. destruct (_ || _)%bool; eexists; reflexivity. Qed.
Example C65_case N n : normal_law N n ->
  (forall t, exists atm, call N (flat 100 (1 / 5)) None 100 t = Ok atm /\ exists x, In x [50; 100; 200] /\ in_band 100 (half_width atm) x) /\
  (forall x t, exists v, local_vol N (flat 100 (1 / 5)) (Some NoView) x t = Ok v) /\ FillSpec.increasing [50; 100; 200] /\
  BlackModel.epsilon <= 100 * 110 * (1 - 1 / 10000) /\ 1 / 20 <= 1 / 5 * sqrt 1 <= 2 /\ Rabs (ln (100 / 110)) <= 3 * (1 / 5 * sqrt 1).
Proof.
  intros HN. split; [|split; [|split; [|split; [|split]]]].
  - intros t. unfold call, flat. cbn [implied_vol spot_ obind]. rewrite Rplus_0_r. unfold black_scholes. destruct (black_some N 100 (1 / 5 * sqrt t) 100) as (x & E). exists x. split; [exact E|]. exists 100. split; [cbn; intuition|].
    assert (0 <= 1 / 5 * sqrt t) as Hv by (pose proof (sqrt_pos t); lra). destruct (C48_bounds N n 100 (1 / 5 * sqrt t) 100 Call x (Rmax 0 (100 - 100)) HN Hv eq_refl) as [B _]. destruct (B ltac:(lra) ltac:(lra) E) as [B1 _]. pose proof (Rmax_l 0 (100 - 100)). unfold in_band, half_width. lra.
  - intros x t. unfold local_vol, call, flat. cbn [implied_vol spot_ obind spread q_ r_]. unfold black_scholes. repeat match goal with |- context [black_opt N 100 ?v ?k Call] => destruct (black_some N 100 v k) as (? & ->); cbn [obind] end. eexists. reflexivity.
  - repeat constructor; lra.
  - unfold BlackModel.epsilon. lra.
  - rewrite sqrt_1. lra.
  - rewrite sqrt_1. pose proof (ln_upper (100 / 110) ltac:(lra)). pose proof (ln_lower (100 / 110) ltac:(lra)) as H2. replace (/ (100 / 110)) with (11 / 10) in H2 by field. apply Rabs_le. lra.
Qed.
