(** C94: prices of options with different strikes leave no arbitrage. *)
From Coq Require Import String Reals List ZArith Permutation Lra Lia.
From Coq Require Import Floats.SpecFloat.
From Verif Require Import Base StringModel StringSpec BlackModel BlackSpec BlackProofs BlackNormal BlackProps CalibModel MertonSpec MertonProofs MertonProps MertonSeriesProps ExpectSpec ExpectProofs ExpectProps MomentSpec MomentProofs MomentProps
  ScriptModel ScriptSpec FuzzySpec DomainSpec DomainModel ValueModel ValueSpec ValueProps SimModel SimProps DateModel DrawModel DrawSpec DrawProps StringProofs BsSpec PriceModel PriceSpec PriceProps MomentValueProps StrikeSpec StrikeProofs.
From Verif Require BsModel.
Import ListNotations.
Local Open Scope R_scope.

Lemma dens_nonneg N n : normal_law N n -> forall z, 0 <= n z.
Proof. intros HN z. left. exact (n_pos N n HN z). Qed.
Lemma mix_enough f k1 k2 w : epsilon <= f * k1 -> epsilon <= f * k2 -> 0 <= w <= 1 -> epsilon <= f * (w * k1 + (1 - w) * k2).
Proof. intros. nra. Qed.
Lemma mix_pos k1 k2 w : 0 < k1 -> 0 < k2 -> 0 <= w <= 1 -> 0 < w * k1 + (1 - w) * k2.
Proof. intros. destruct (Rle_lt_dec w (1 / 2)); nra. Qed.
(** Black's and Bachelier's formulas, for every forward and volatility, at the strikes for which the formula is used *)
Theorem C94_black N n f v : normal_law N n -> 0 < f -> 0 <= v ->
  no_arbitrage (fun t k => black_opt N f v k t) 1 (fun t => t <> NotSet) (fun k => 0 < k /\ epsilon <= f * k).
Proof.
  intros HN Hf Hv.
  assert (HC : forall k1 k2 w, 0 < k1 /\ epsilon <= f * k1 -> 0 < k2 /\ epsilon <= f * k2 -> 0 <= w <= 1 -> 0 < w * k1 + (1 - w) * k2 /\ epsilon <= f * (w * k1 + (1 - w) * k2)) by (intros k1 k2 w (A1 & A2) (B1 & B2) Hw; split; [now apply mix_pos|now apply mix_enough]).
  apply (prices_fine (mean n) (mean_lin n) (fun g h x y => mean_le n g h x y (dens_nonneg N n HN)) 1 (mean_const N n HN 1) (Rle_refl 1) (lognormal f (if Rlt_dec v epsilon then 0 else v)) 1 Rle_0_1 _ _ _ HC).
  intros t k Ht (Hk & Hfk). destruct (Rlt_dec v epsilon) as [H|H].
  - exists (pay t f k). split; [rewrite (proj1 (C48_zero_vol N n f v k t ltac:(rewrite Rabs_pos_eq; lra))); now apply pay_ok|].
    eapply mean_ext; [|exact (mean_const N n HN (pay t f k))]. intros z. cbv beta. unfold lognormal. replace (0 * z - 0 * 0 / 2) with 0 by lra. rewrite exp_0, Rmult_1_r. lra.
  - destruct (C88_black N n f v k t HN Hf Hk ltac:(lra) Hfk Ht) as (x & g & Ex & Hg & Hm). exists x. split; [exact Ex|]. eapply mean_ext; [|exact Hm]. intros z. specialize (Hg z). rewrite pay_ok in Hg by exact Ht. injection Hg as <-. lra.
Qed.
Print Assumptions C94_black.
Theorem C94_bachelier N n f v : normal_law N n -> 0 <= v -> no_arbitrage (fun t k => bachelier_opt N n f v k t) 1 (fun t => t <> NotSet) (fun k => epsilon <= f * k).
Proof.
  intros HN Hv. assert (HC : forall k1 k2 w, epsilon <= f * k1 -> epsilon <= f * k2 -> 0 <= w <= 1 -> epsilon <= f * (w * k1 + (1 - w) * k2)) by (intros; now apply mix_enough).
  apply (prices_fine (mean n) (mean_lin n) (fun g h x y => mean_le n g h x y (dens_nonneg N n HN)) 1 (mean_const N n HN 1) (Rle_refl 1) (shifted f (if Rlt_dec v epsilon then 0 else v)) 1 Rle_0_1 _ _ _ HC).
  intros t k Ht Hfk. destruct (Rlt_dec v epsilon) as [H|H].
  - exists (pay t f k). split; [rewrite (proj2 (C48_zero_vol N n f v k t ltac:(rewrite Rabs_pos_eq; lra))); now apply pay_ok|].
    eapply mean_ext; [|exact (mean_const N n HN (pay t f k))]. intros z. cbv beta. unfold shifted. rewrite Rmult_0_l, Rplus_0_r. lra.
  - destruct (C88_bachelier N n f v k t HN ltac:(lra) Hfk Ht) as (x & g & Ex & Hg & Hm). exists x. split; [exact Ex|]. eapply mean_ext; [|exact Hm]. intros z. specialize (Hg z). rewrite pay_ok in Hg by exact Ht. injection Hg as <-. lra.
Qed.
Print Assumptions C94_bachelier.
(** Finding: not across the threshold: for a strike under it the code gives the payout on the forward, so that a call costs less than one with a higher strike. *)
Theorem C94_threshold_refuted N n f v : normal_law N n -> 0 < f -> epsilon <= v ->
  exists k1 k2 x1 x2, 0 < k1 < k2 /\ black_opt N f v k1 Call = Ok x1 /\ black_opt N f v k2 Call = Ok x2 /\ x1 < x2.
Proof.
  intros HN Hf Hv. pose proof eps_pos as He. set (k2 := epsilon / f). assert (H2 : 0 < k2) by (now apply Rdiv_lt_0_compat). assert (E2 : f * k2 = epsilon) by (unfold k2; field; lra).
  destruct (call_some N f v k2) as (x2 & X2). destruct (C48_bounds N n f v k2 Call x2 (Rmax 0 (f - k2)) HN ltac:(lra) eq_refl) as (B & _).
  destruct (B Hf H2 X2) as (_ & B2 & _). specialize (B2 Hv ltac:(lra)). pose proof (Rmax_r 0 (f - k2)) as M1. pose proof (Rmax_l 0 (f - k2)) as M0.
  set (d := Rmin (x2 - Rmax 0 (f - k2)) k2 / 2). assert (Hd : 0 < d) by (unfold d; apply Rdiv_lt_0_compat; [apply Rmin_glb_lt; lra|lra]).
  assert (D1 : d < x2 - Rmax 0 (f - k2)) by (unfold d in *; pose proof (Rmin_l (x2 - Rmax 0 (f - k2)) k2); lra). assert (D2 : d < k2) by (unfold d in *; pose proof (Rmin_r (x2 - Rmax 0 (f - k2)) k2); lra).
  exists (k2 - d), k2, (Rmax 0 (f - (k2 - d))), x2. split; [lra|]. split.
  - unfold black_opt. destruct (is_positive_spec (f * (k2 - d))) as [H|H]; [exfalso; nra|]. cbn [negb]. rewrite Bool.orb_true_r. reflexivity.
  - split; [exact X2|]. apply Rmax_lub_lt; lra.
Qed.
Print Assumptions C94_threshold_refuted.
(** The jump-diffusion price of C66. *)
Theorem C94_merton N n spot vol mat intens m d : normal_law N n -> 0 < spot -> 0 <= intens * mat ->
  no_arbitrage (fun _ k => merton N spot k vol mat intens m d) 1 (fun t => t = Call)
    (fun k => 0 < k /\ forall i, (i < 10)%nat -> epsilon <= vol_after vol mat d i * sqrt mat /\ epsilon <= forward_after spot mat intens m d i * k).
Proof.
  intros HN Hs Hi. set (E := fun (f : nat * R -> R) x => exists b : nat -> R, (forall i, (i < 10)%nat -> mean n (fun z => f (i, z)) (b i)) /\ x = sum_f_R0 (fun i => poisson (intens * mat) i * b i) 9).
  eapply (prices_fine E) with (one := sum_f_R0 (poisson (intens * mat)) 9) (S := fun p => lognormal (forward_after spot mat intens m d (fst p)) (vol_after vol mat d (fst p) * sqrt mat) (snd p)).
  - intros f g x y c e (b & Hb & ->) (b' & Hb' & ->). exists (fun i => c * b i + e * b' i). split; [intros i Hlt; apply (mean_lin n); auto|].
    rewrite !scal_sum, <- sum_plus. apply sum_eq. intros i _. ring.
  - intros f g x y H (b & Hb & ->) (b' & Hb' & ->). apply sum_Rle. intros i Hlt. apply Rmult_le_compat_l; [now apply poisson_nonneg|]. apply (mean_le n (fun z => f (i, z)) (fun z => g (i, z))); [exact (dens_nonneg N n HN)|intros z; apply H|apply Hb; lia|apply Hb'; lia].
  - exists (fun _ => 1). split; [intros i _; apply (mean_const N n HN)|]. apply sum_eq. intros i _. ring.
  - now apply poisson_sum_le.
  - lra.
  - intros k1 k2 w (A1 & A2) (B1 & B2) Hw. split; [now apply mix_pos|]. intros i Hlt. split; [now apply A2|]. apply mix_enough; [now apply A2|now apply B2|exact Hw].
  - intros t k -> (Hk & He). destruct (C66_expectation N n spot k vol mat intens m d HN Hs Hk He) as (b & Hb & Hm). eexists. split; [exact Hm|]. exists b. split; [|reflexivity].
    intros i Hlt. eapply mean_ext; [|apply Hb; exact Hlt]. intros z. cbn [pay fst snd]. lra.
Qed.
Print Assumptions C94_merton.

Section Value.
Variables (f_log f_sqrt f_exp : R -> R) (f_pow : R -> R -> R).
Local Notation RN := (RNum f_log f_sqrt f_exp f_pow).
#[local] Hint Extern 0 Num => exact (RNum f_log f_sqrt f_exp f_pow) : typeclass_instances.
Context {B : Type}.
Variable sobol_skip : Z -> B -> outcome B.
Variable sobol_fill : B -> outcome (list spec_float * B).
Variable sobol_new : nat -> B.
Variable inverse_ncdf : spec_float -> spec_float.
Variable bridged : list spec_float -> list spec_float.
Local Notation value := (@bs_value f_log f_sqrt f_exp f_pow B sobol_skip sobol_fill sobol_new inverse_ncdf bridged (exact_tests f_log f_sqrt f_exp f_pow)).
Local Notation bs_path := (bs_path f_log f_sqrt f_exp f_pow).
Local Notation european := (european f_log f_sqrt f_exp f_pow).
Lemma first_draw m T zs : 0 < T -> bs_path m [T] zs = bs_path m [T] [nth 0 zs 0].
Proof.
  clear. intros HT. unfold PriceSpec.bs_path. cbn [List.length seq map]. do 2 f_equal. match goal with |- ?a = ?b => change (@eq R a b) end.
  unfold from_today, position. cbn [nth]. destruct (Req_EM_T T 0) as [H|_]; [lra|]. unfold brownian. cbn [List.length Nat.sub BsSpec.sum]. destruct zs; reflexivity.
Qed.
Lemma paid_pays m T k t zs : 0 < T -> t = Call \/ t = Put ->
  paid f_log f_sqrt f_exp f_pow m T k t zs = exp (- (BsModel.b_rate m * T)) * pay t (lognormal (forward m T) (BsModel.b_vol m * sqrt T) (nth 0 zs 0)) k.
Proof. clear. intros HT Ht. unfold paid. rewrite first_draw by exact HT. apply (european_pays f_log f_sqrt f_exp f_pow m T k t _ _ HT Ht). apply pay_ok. destruct Ht as [->| ->]; discriminate. Qed.
Lemma average_ext {A} (f g : A -> R) l : (forall a, f a = g a) -> average f l = average g l.
Proof. clear. intros H. unfold average, total. now rewrite (map_ext f g H). Qed.
(** The values simulated for calls and puts, with the same numbers, leave none either: exactly, for every number of paths and every strike. *)
Theorem C94_value_mrg32 years today day m method use_bb n_paths pool ts order : let T := years (day - today)%Z in
  0 < BsModel.b_spot m -> 0 < T -> same_up_to_case method (lit "mrg32") -> (0 < n_paths < 2 ^ 31)%Z -> ~ (n_paths = 2 ^ 31 - 1 /\ (pool <= 1)%nat)%Z ->
  (forall v, List.length v = 1%nat -> List.length (bridged v) = 1%nat) ->
  tasks n_paths (Z.of_nat (num_threads pool)) = Ok ts -> some_schedule pool (List.length ts) order ->
  no_arbitrage (fun t k => value years today m [] [day] (european t k) method use_bb n_paths pool order) (exp (- (BsModel.b_rate m * T))) (fun t => t = Call \/ t = Put) (fun _ => True).
Proof.
  intros T Hs HT Em Hn Hx Hb Et Ho.
  set (vectors := flat_map (fun s => map (fun i => map real_of (dressed bridged use_bb (mrg_vector inverse_ncdf 1 (fst s) i))) (seq 0 (Z.to_nat (snd s)))) ts).
  assert (L : List.length vectors = Z.to_nat n_paths).
  { destruct (C21_partition n_paths (Z.of_nat (num_threads pool))) as (l & room & El & _ & C & F & _); [lia|unfold num_threads; lia|unfold num_threads; lia|].
    rewrite Et in El. injection El as <-. apply (spans_length ts _ F C (fun first i => map real_of (dressed bridged use_bb (mrg_vector inverse_ncdf 1 first i)))). }
  apply (average_prices vectors (fun zs => lognormal (forward m T) (BsModel.b_vol m * sqrt T) (nth 0 zs 0))); [lia|left; apply exp_pos|auto|].
  intros t k Ht _. rewrite <- (average_ext (paid f_log f_sqrt f_exp f_pow m T k t)) by (intros zs; now apply paid_pays).
  pose proof (C87_bs_mrg32 f_log f_sqrt f_exp f_pow sobol_skip sobol_fill sobol_new inverse_ncdf bridged years today m [] [day] (european t k) (lit "pay") method use_bb n_paths pool ts order) as H.
  cbv zeta in H. cbn [map] in H. fold T in H. rewrite (one_time T HT) in H. rewrite H; [|now apply C88_can_price|apply european_ready|assumption|lia|lia|assumption|assumption|assumption]. clear H.
  apply f_equal. unfold average. rewrite L, INR_IZR_INZ, Z2Nat.id by lia. apply (f_equal (fun x : R => x / IZR n_paths)). apply (batches_total f_log f_sqrt f_exp f_pow ts (paid f_log f_sqrt f_exp f_pow m T k t)).
Qed.
Theorem C94_value_sobol years today day m method use_bb n_paths pool order vector : let T := years (day - today)%Z in
  0 < BsModel.b_spot m -> 0 < T -> same_up_to_case method (lit "sobol") -> (0 < n_paths < 2 ^ 31)%Z -> ~ (n_paths = 2 ^ 31 - 1 /\ (pool <= 1)%nat)%Z ->
  sequence sobol_skip sobol_fill vector (sobol_new 1) -> (forall k, List.length (vector k) = 1%nat) -> (forall v, List.length v = 1%nat -> List.length (bridged v) = 1%nat) ->
  (forall ts, tasks n_paths (Z.of_nat (num_threads pool)) = Ok ts -> some_schedule pool (List.length ts) order) ->
  no_arbitrage (fun t k => value years today m [] [day] (european t k) method use_bb n_paths pool order) (exp (- (BsModel.b_rate m * T))) (fun t => t = Call \/ t = Put) (fun _ => True).
Proof.
  intros T Hs HT Em Hn Hx Hq Hl Hb Ho. set (vectors := map (fun i => map real_of (dressed bridged use_bb (vector (Z.of_nat i)))) (seq 0 (Z.to_nat n_paths))).
  assert (L : List.length vectors = Z.to_nat n_paths) by (unfold vectors; now rewrite map_length, seq_length).
  apply (average_prices vectors (fun zs => lognormal (forward m T) (BsModel.b_vol m * sqrt T) (nth 0 zs 0))); [lia|left; apply exp_pos|auto|].
  intros t k Ht _. rewrite <- (average_ext (paid f_log f_sqrt f_exp f_pow m T k t)) by (intros zs; now apply paid_pays).
  pose proof (C87_bs_sobol f_log f_sqrt f_exp f_pow sobol_skip sobol_fill sobol_new inverse_ncdf bridged years today m [] [day] (european t k) (lit "pay") method use_bb n_paths pool order vector) as H.
  cbv zeta in H. cbn [map] in H. fold T in H. rewrite (one_time T HT) in H. rewrite H; [|now apply C88_can_price|apply european_ready|assumption|lia|assumption|assumption|assumption|assumption|assumption]. clear H.
  apply f_equal. unfold average. rewrite L, INR_IZR_INZ, Z2Nat.id by lia. apply (f_equal (fun x : R => x / IZR n_paths)). apply (sum_total f_log f_sqrt f_exp f_pow (Z.to_nat n_paths) (paid f_log f_sqrt f_exp f_pow m T k t)).
Qed.
End Value.
Print Assumptions C94_value_mrg32.
Print Assumptions C94_value_sobol.
(** forward 100, 20 per cent, strikes 90, 100 and 110 and a butterfly of them; the settings of C89 meet what is asked of the simulation *)
Example C94_case : exists N n x1 x2 x, normal_law N n /\ (0 < 90 /\ epsilon <= 100 * 90) /\ (0 < 110 /\ epsilon <= 100 * 110) /\
  black_opt N 100 (1 / 5) 90 Call = Ok x1 /\ black_opt N 100 (1 / 5) 110 Call = Ok x2 /\ black_opt N 100 (1 / 5) 100 Call = Ok x /\ x1 - 20 <= x2 <= x1 /\ x <= (x1 + x2) / 2 /\ 10 < x1 /\ 0 < x2.
Proof.
  destruct normal_law_exists as (N & n & HN). assert (A : 0 < 90 /\ epsilon <= 100 * 90) by (unfold epsilon; lra). assert (C : 0 < 110 /\ epsilon <= 100 * 110) by (unfold epsilon; lra).
  destruct (C94_black N n 100 (1 / 5) HN ltac:(lra) ltac:(lra) Call 90 110 (1 / 2) ltac:(discriminate) A C ltac:(lra) ltac:(lra)) as (x1 & x2 & x & E1 & E2 & E & S & V). cbv beta in E1, E2, E. replace (1 / 2 * 90 + (1 - 1 / 2) * 110) with 100 in E by lra.
  exists N, n, x1, x2, x. do 6 (split; [assumption|]). cbn [slope_fine] in S. split; [lra|]. split; [lra|].
  destruct (C48_bounds N n 100 (1 / 5) 90 Call x1 _ HN ltac:(lra) eq_refl) as (B1 & _). destruct (C48_bounds N n 100 (1 / 5) 110 Call x2 _ HN ltac:(lra) eq_refl) as (B2 & _).
  destruct (B1 ltac:(lra) ltac:(lra) E1) as (_ & B & _). destruct (B2 ltac:(lra) ltac:(lra) E2) as (_ & D & _). specialize (B ltac:(unfold epsilon; lra) (proj2 A)). specialize (D ltac:(unfold epsilon; lra) (proj2 C)).
  split; [eapply Rle_lt_trans; [|exact B]; eapply Rle_trans; [|apply Rmax_r]; lra|]. eapply Rle_lt_trans; [|exact D]. apply Rmax_l.
Qed.
