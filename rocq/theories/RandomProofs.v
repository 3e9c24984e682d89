From Coq Require Import ZArith List Bool Lia ZifyBool Reals Lra Znumtheory.
From Coq Require Import Floats.SpecFloat.
From Flocq Require Import Core.
From Verif Require Import Base DateModel FloatReal ScriptModel ScriptEval RandomModel RandomSpec.
Import ListNotations.
Open Scope Z_scope.

(** * One step of MRG32k3a *)
Lemma rem_mod a m : 0 < m -> (if Z.rem a m <? 0 then Z.rem a m + m else Z.rem a m) = a mod m.
Proof.
  intros Hm. pose proof (Z.quot_rem' a m) as D. pose proof (Z.rem_bound_abs a m ltac:(lia)) as B. rewrite (Z.abs_eq m) in B by lia. destruct (Z.ltb_spec (Z.rem a m) 0).
  - apply (Z.mod_unique _ _ (Z.quot a m - 1)); [left; lia|lia].
  - apply (Z.mod_unique _ _ (Z.quot a m)); [left; lia|lia].
Qed.
Lemma fmodulus_ok x m : Z.abs x <= 2 ^ 53 -> 0 < m <= 2 ^ 32 -> Z.abs x / m < 2 ^ 21 -> fmodulus (fl_of_Z x) m = fl_of_Z (x mod m).
Proof.
  intros Hx Hm Hq. unfold fmodulus. rewrite quot_trunc by assumption. rewrite <- (rem_mod x m) by lia.
  pose proof (Z.quot_rem' x m) as D. pose proof (Z.rem_bound_abs x m ltac:(lia)) as B. rewrite (Z.abs_eq m) in B by lia.
  pose proof (Z.quot_abs_l x m ltac:(lia)) as Ha. assert (Hs : Z.abs (m * Z.quot x m) <= Z.abs x).
  { destruct (Z.le_ge_cases 0 x) as [L|L]; [pose proof (Z.mul_quot_le x m L ltac:(lia))|pose proof (Z.mul_quot_ge x m L ltac:(lia))]; lia. }
  assert (Hq2 : Z.abs (Z.quot x m) <= 2 ^ 53) by nia. assert (Hp : Z.abs (Z.quot x m * m) <= 2 ^ 53) by (rewrite Z.mul_comm; lia).
  rewrite fmul_Z; [|exact Hq2|lia|exact Hp|intros E; split; nia]. rewrite fsub_Z; [|exact Hx|exact Hp|lia]. replace (x - Z.quot x m * m) with (Z.rem x m) by lia.
  rewrite fltb_Z by lia. destruct (Z.rem x m <? 0) eqn:E; [|reflexivity]. apply fadd_Z; lia.
Qed.
Definition word (z : Z) : Prop := 0 <= z < 2 ^ 32.
Definition words (v : row) : Prop := let '(a, b, c) := v in word a /\ word b /\ word c.
Definition mrg_at (a b : Z) (vx vy : row) : mrg :=
  let '(x, x1, x2) := vx in let '(y, y1, y2) := vy in Mrg a b (fl_of_Z x) (fl_of_Z x1) (fl_of_Z x2) (fl_of_Z y) (fl_of_Z y1) (fl_of_Z y2).
Lemma xstep_words v : words v -> words (xstep v).
Proof. destruct v as [[x x1] x2]. unfold words, word, xstep. intros (A & B & C). pose proof (Z.mod_pos_bound (a12 * x1 - a13 * x2) m1 eq_refl). unfold m1 in *. repeat split; lia. Qed.
Lemma ystep_words v : words v -> words (ystep v).
Proof. destruct v as [[x x1] x2]. unfold words, word, ystep. intros (A & B & C). pose proof (Z.mod_pos_bound (a21 * x - a23 * x2) m2 eq_refl). unfold m2 in *. repeat split; lia. Qed.
Definition head (v : row) : Z := fst (fst v).
Lemma xstep_head v : 0 <= head (xstep v) < m1.
Proof. destruct v as [[x x1] x2]. apply Z.mod_pos_bound. reflexivity. Qed.
Lemma ystep_head v : 0 <= head (ystep v) < m2.
Proof. destruct v as [[x x1] x2]. apply Z.mod_pos_bound. reflexivity. Qed.
Lemma div_lt_pow z m k : 0 < m -> z < m * k -> z / m < k.
Proof. intros. now apply Z.div_lt_upper_bound. Qed.
Lemma mrg_next_ok a b vx vy : words vx -> words vy ->
  mrg_next (mrg_at a b vx vy) = Ok (fdiv (fl_of_Z (numer (head (xstep vx)) (head (ystep vy)))) (fl_of_Z m1p1), mrg_at a b (xstep vx) (ystep vy)).
Proof.
  intros Wx Wy. pose proof (xstep_head vx) as Hx. pose proof (ystep_head vy) as Hy. destruct vx as [[x x1] x2], vy as [[y y1] y2]. destruct Wx as (X0 & X1 & X2), Wy as (Y0 & Y1 & Y2). unfold word in *.
  unfold mrg_next, mrg_at. cbn [RandomModel.xn RandomModel.xn1 RandomModel.xn2 RandomModel.yn RandomModel.yn1 RandomModel.yn2 seed_a seed_b xstep ystep head fst] in *.
  rewrite (fmul_Z a12 x1), (fmul_Z a13 x2), (fmul_Z a21 y), (fmul_Z a23 y2) by (unfold a12, a13, a21, a23; lia).
  rewrite (fsub_Z (a12 * x1)), (fsub_Z (a21 * y)) by (unfold a12, a13, a21, a23; lia).
  rewrite (fmodulus_ok (a12 * x1 - a13 * x2) m1); [|unfold a12, a13; lia|unfold m1; lia|apply div_lt_pow; unfold m1, a12, a13; lia].
  rewrite (fmodulus_ok (a21 * y - a23 * y2) m2); [|unfold a21, a23; lia|unfold m2; lia|apply div_lt_pow; unfold m2, a21, a23; lia].
  set (X := (a12 * x1 - a13 * x2) mod m1) in *. set (Y := (a21 * y - a23 * y2) mod m2) in *. clearbody X Y. unfold m1, m2 in *.
  rewrite fltb_Z by lia. rewrite fsub_Z by lia. unfold numer. destruct (Y <? X); [reflexivity|]. rewrite (fadd_Z (X - Y)) by (unfold m1; lia). reflexivity.
Qed.

(** * Congruent histories give the same deviates *)
Definition cong (m : Z) (v w : row) : Prop :=
  let '(a, b, c) := v in let '(a', b', c') := w in a mod m = a' mod m /\ b mod m = b' mod m /\ c mod m = c' mod m.
Lemma cong_refl m v : cong m v v.
Proof. destruct v as [[a b] c]. cbn. auto. Qed.
Lemma cong_trans m u v w : cong m u v -> cong m v w -> cong m u w.
Proof. destruct u as [[a b] c], v as [[a' b'] c'], w as [[a2 b2] c2]. cbn. intuition congruence. Qed.
Lemma cong_sym m u v : cong m u v -> cong m v u.
Proof. destruct u as [[a b] c], v as [[a' b'] c']. cbn. intuition congruence. Qed.
Lemma lin_mod m p q x y x' y' : 0 < m -> x mod m = x' mod m -> y mod m = y' mod m -> (p * x - q * y) mod m = (p * x' - q * y') mod m.
Proof.
  intros Hm H1 H2. rewrite (Zminus_mod (p * x)), (Zminus_mod (p * x')), (Zmult_mod p x), (Zmult_mod p x'), (Zmult_mod q y), (Zmult_mod q y'), H1, H2. reflexivity.
Qed.
Lemma xstep_cong v w : cong m1 v w -> cong m1 (xstep v) (xstep w) /\ head (xstep v) = head (xstep w).
Proof.
  destruct v as [[a b] c], w as [[a' b'] c']. cbn [cong xstep head fst]. intros (H1 & H2 & H3). pose proof (lin_mod m1 a12 a13 b c b' c' eq_refl H2 H3) as E. rewrite E. auto.
Qed.
Lemma ystep_cong v w : cong m2 v w -> cong m2 (ystep v) (ystep w) /\ head (ystep v) = head (ystep w).
Proof.
  destruct v as [[a b] c], w as [[a' b'] c']. cbn [cong ystep head fst]. intros (H1 & H2 & H3). pose proof (lin_mod m2 a21 a23 a c a' c' eq_refl H1 H3) as E. rewrite E. auto.
Qed.
Definition same (s t : mrg) : Prop := exists a b vx vy wx wy, s = mrg_at a b vx vy /\ t = mrg_at a b wx wy /\ words vx /\ words vy /\ words wx /\ words wy /\ cong m1 vx wx /\ cong m2 vy wy.
Lemma same_next s t : same s t -> exists u s' t', mrg_next s = Ok (u, s') /\ mrg_next t = Ok (u, t') /\ same s' t'.
Proof.
  intros (a & b & vx & vy & wx & wy & -> & -> & V1 & V2 & W1 & W2 & C1 & C2). destruct (xstep_cong _ _ C1) as [D1 E1]. destruct (ystep_cong _ _ C2) as [D2 E2].
  rewrite !mrg_next_ok by assumption. rewrite E1, E2. eexists _, _, _. split; [reflexivity|]. split; [reflexivity|].
  exists a, b, (xstep vx), (ystep vy), (xstep wx), (ystep wy). auto 10 using xstep_words, ystep_words.
Qed.
Lemma same_draws n : forall s t, same s t -> exists l s' t', draws mrg_next n s = Ok (l, s') /\ draws mrg_next n t = Ok (l, t') /\ same s' t' /\ length l = n.
Proof.
  induction n as [|n IH]; intros s t H; cbn [draws]; [exists [], s, t; auto|]. destruct (same_next s t H) as (u & s1 & t1 & -> & -> & H1). cbn [obind snd fst].
  destruct (IH s1 t1 H1) as (l & s2 & t2 & -> & -> & H2 & L). cbn [obind snd fst]. exists (u :: l), s2, t2. cbn [length]. auto.
Qed.
Lemma iterate_S {A} (f : A -> A) n a : iterate f (S n) a = iterate f n (f a).
Proof. unfold iterate. induction n as [|n IH]; [reflexivity|]. cbn [Nat.iter nat_rect] in *. now rewrite IH. Qed.
Lemma iter_words_x n v : words v -> words (iterate xstep n v).
Proof. induction n as [|n IH]; intros H; cbn; [exact H|]. apply xstep_words, IH, H. Qed.
Lemma iter_words_y n v : words v -> words (iterate ystep n v).
Proof. induction n as [|n IH]; intros H; cbn; [exact H|]. apply ystep_words, IH, H. Qed.
Lemma draws_at a b n : forall vx vy, words vx -> words vy ->
  draws mrg_next n (mrg_at a b vx vy) =
    Ok (map (fun k => fdiv (fl_of_Z (numer (head (iterate xstep (S k) vx)) (head (iterate ystep (S k) vy)))) (fl_of_Z m1p1)) (seq 0 n), mrg_at a b (iterate xstep n vx) (iterate ystep n vy)).
Proof.
  induction n as [|n IH]; intros vx vy Wx Wy; cbn [draws]; [reflexivity|]. rewrite mrg_next_ok by assumption. cbn [obind fst snd]. rewrite IH by auto using xstep_words, ystep_words. cbn [obind fst snd].
  rewrite <- !iterate_S. cbn [seq map]. f_equal. f_equal. f_equal. rewrite <- seq_shift, map_map. apply map_ext. intros k. now rewrite <- !iterate_S.
Qed.

(** * Powers of the transition matrices *)
Section Powers.
Variable m : Z.
Hypothesis Hm : 0 < m < 2 ^ 32.
Definition dot (a b : row) : Z := let '(a0, a1, a2) := a in let '(b0, b1, b2) := b in a0 * b0 + a1 * b1 + a2 * b2.
Definition act (M : mat) (v : row) : row := let '(r0, r1, r2) := M in (dot r0 v, dot r1 v, dot r2 v).
Definition wordsm (M : mat) : Prop := let '(r0, r1, r2) := M in words r0 /\ words r1 /\ words r2.
Lemma prod_small x y : word x -> word y -> w64 (x * y) = x * y.
Proof. unfold word, w64. intros. apply Z.mod_small. nia. Qed.
Lemma dotmod_ok a b : words a -> words b -> dotmod m a b = dot a b mod m.
Proof.
  destruct a as [[a0 a1] a2], b as [[b0 b1] b2]. intros (A0 & A1 & A2) (B0 & B1 & B2). unfold dotmod, dot. rewrite !prod_small by assumption.
  assert (S : forall p q, w64 (p mod m + q mod m) mod m = (p + q) mod m).
  { intros p q. pose proof (Z.mod_pos_bound p m ltac:(lia)). pose proof (Z.mod_pos_bound q m ltac:(lia)). unfold w64. rewrite (Z.mod_small (_ + _) (2 ^ 64)) by lia. symmetry. apply Zplus_mod. }
  assert (S0 : forall p, w64 (0 + p mod m) mod m = p mod m) by (intros p; rewrite <- (Z.mod_0_l m) at 1 by lia; rewrite S; reflexivity).
  rewrite S0, (S (a0 * b0)), S. reflexivity.
Qed.
Lemma mod_word z : word (z mod m).
Proof. pose proof (Z.mod_pos_bound z m ltac:(lia)). unfold word. lia. Qed.
Lemma col_words k M : wordsm M -> words (col k M).
Proof.
  destruct M as [[[[a0 a1] a2] [[b0 b1] b2]] [[c0 c1] c2]]. intros ((A0 & A1 & A2) & (B0 & B1 & B2) & (C0 & C1 & C2)). cbn. destruct (k =? 0); [auto|]. destruct (k =? 1); auto.
Qed.
Lemma vprd_ok M v : wordsm M -> words v -> words (vprd m M v) /\ cong m (vprd m M v) (act M v).
Proof.
  destruct M as [[r0 r1] r2]. intros (H0 & H1 & H2) Hv. unfold vprd, act. rewrite !dotmod_ok by assumption. split; [cbn; auto using mod_word|]. cbn. rewrite !Z.mod_mod by lia. auto.
Qed.
Lemma dot_cong r v w : cong m v w -> dot r v mod m = dot r w mod m.
Proof.
  destruct r as [[r0 r1] r2], v as [[a b] c], w as [[a' b'] c']. cbn. intros (H1 & H2 & H3). rewrite (Zplus_mod (_ + _)), (Zplus_mod (r0 * a)), (Zmult_mod r0 a), (Zmult_mod r1 b), (Zmult_mod r2 c), H1, H2, H3.
  rewrite <- (Zmult_mod r0 a'), <- (Zmult_mod r1 b'), <- (Zmult_mod r2 c'), <- (Zplus_mod (r0 * a')), <- Zplus_mod. reflexivity.
Qed.
Lemma act_cong M v w : cong m v w -> cong m (act M v) (act M w).
Proof. destruct M as [[r0 r1] r2]. intros H. cbn. auto using dot_cong. Qed.
Lemma dot_row_cong r r' v : cong m r r' -> dot r v mod m = dot r' v mod m.
Proof.
  intros H. assert (C : forall a b, dot a b = dot b a) by (intros [[? ?] ?] [[? ?] ?]; cbn; ring). rewrite (C r), (C r'). now apply dot_cong.
Qed.
Lemma mprd_ok A B : wordsm A -> wordsm B -> wordsm (mprd m A B) /\ forall v, cong m (act (mprd m A B) v) (act A (act B v)).
Proof.
  intros WA WB. destruct A as [[r0 r1] r2]. pose proof WA as (A0 & A1 & A2). unfold mprd. rewrite !dotmod_ok by auto using col_words. split; [cbn; auto 12 using mod_word|]. intros v.
  assert (E : forall r, dot (dot r (col 0 B) mod m, dot r (col 1 B) mod m, dot r (col 2 B) mod m) v mod m = dot r (act B v) mod m).
  { intros r. rewrite (dot_row_cong _ (dot r (col 0 B), dot r (col 1 B), dot r (col 2 B))) by (cbn; rewrite !Z.mod_mod by lia; auto). f_equal.
    destruct r as [[p q] s], B as [[[[a0 a1] a2] [[b0 b1] b2]] [[c0 c1] c2]], v as [[x y] z]. cbn. ring. }
  cbn [act cong]. rewrite !E. auto.
Qed.
(** the matrix [M] makes [k] steps of [step] *)
Definition makes (step : row -> row) (M : mat) (k : Z) : Prop := wordsm M /\ forall v, cong m (act M v) (iterate step (Z.to_nat k) v).
Variable step : row -> row.
Hypothesis step_cong : forall v w, cong m v w -> cong m (step v) (step w).
Lemma iterate_cong n : forall v w, cong m v w -> cong m (iterate step n v) (iterate step n w).
Proof. induction n as [|n IH]; intros v w H; cbn; [exact H|]. apply step_cong, IH, H. Qed.
Lemma iterate_add j k v : iterate step (j + k) v = iterate step j (iterate step k v).
Proof. unfold iterate. induction j as [|j IH]; [reflexivity|]. change (step (Nat.iter (j + k) step v) = step (Nat.iter j step (Nat.iter k step v))). now rewrite IH. Qed.
Lemma makes_prod A B j k : 0 <= j -> 0 <= k -> makes step A j -> makes step B k -> makes step (mprd m A B) (j + k).
Proof.
  intros Hj Hk [WA HA] [WB HB]. destruct (mprd_ok A B WA WB) as [W H]. split; [exact W|]. intros v. eapply cong_trans; [apply H|]. rewrite Z2Nat.inj_add by assumption. rewrite iterate_add.
  eapply cong_trans; [apply act_cong, HB|]. apply HA.
Qed.
Lemma makes_ident : makes step mident 0.
Proof. split; [cbn; unfold word; lia|]. intros [[x y] z]. change (Z.to_nat 0) with 0%nat. cbn [act mident dot iterate Nat.iter nat_rect cong]. split; [f_equal; lia|split; f_equal; lia]. Qed.
End Powers.
Arguments iterate_cong m {step}.
Lemma makes_a : makes m1 xstep ai0 1.
Proof.
  split; [cbn; unfold word, a12, m1, a13; lia|]. intros [[x y] z]. change (iterate xstep (Z.to_nat 1) (x, y, z)) with (xstep (x, y, z)). cbn [act ai0 dot xstep cong].
  rewrite Z.mod_mod by discriminate. split; [|split; f_equal; ring]. replace (0 * x + a12 * y + (m1 - a13) * z) with (a12 * y - a13 * z + z * m1) by ring. apply Z_mod_plus_full.
Qed.
Lemma makes_b : makes m2 ystep bi0 1.
Proof.
  split; [cbn; unfold word, a21, m2, a23; lia|]. intros [[x y] z]. change (iterate ystep (Z.to_nat 1) (x, y, z)) with (ystep (x, y, z)). cbn [act bi0 dot ystep cong].
  rewrite Z.mod_mod by discriminate. split; [|split; f_equal; ring]. replace (a21 * x + 0 * y + (m2 - a23) * z) with (a21 * x - a23 * z + z * m2) by ring. apply Z_mod_plus_full.
Qed.
Lemma power_loop_ok fuel : forall n ab bb ai bi j p, 0 <= n < 2 ^ Z.of_nat fuel -> 0 <= j -> 0 <= p ->
  makes m1 xstep ab j -> makes m2 ystep bb j -> makes m1 xstep ai p -> makes m2 ystep bi p ->
  exists ra rb, power_loop fuel n ab bb ai bi = Ok (ra, rb) /\ makes m1 xstep ra (j + n * p) /\ makes m2 ystep rb (j + n * p).
Proof.
  assert (M1 : 0 < m1 < 2 ^ 32) by (unfold m1; lia). assert (M2 : 0 < m2 < 2 ^ 32) by (unfold m2; lia).
  assert (SC1 : forall v w, cong m1 v w -> cong m1 (xstep v) (xstep w)) by (intros; now apply xstep_cong). assert (SC2 : forall v w, cong m2 v w -> cong m2 (ystep v) (ystep w)) by (intros; now apply ystep_cong).
  induction fuel as [|fuel IH]; intros n ab bb ai bi j p Hn Hj Hp Ha Hb Hi1 Hi2.
  - cbn [power_loop]. replace n with 0 by (change (2 ^ Z.of_nat 0) with 1 in Hn; lia). cbn. exists ab, bb. rewrite Z.add_0_r. auto.
  - cbn [power_loop]. destruct (Z.leb_spec n 0) as [L|L]; [replace n with 0 by lia; exists ab, bb; cbn; rewrite Z.add_0_r; auto|].
    rewrite Nat2Z.inj_succ, Z.pow_succ_r in Hn by lia. pose proof (Zdiv2_odd_eqn n) as D. rewrite Z.div2_div in D.
    assert (Hn2 : 0 <= n / 2 < 2 ^ Z.of_nat fuel) by (split; [apply Z.div_pos; lia|apply Z.div_lt_upper_bound; lia]).
    destruct (IH (n / 2) (if Z.odd n then mprd m1 ab ai else ab) (if Z.odd n then mprd m2 bb bi else bb) (mprd m1 ai ai) (mprd m2 bi bi) (j + (if Z.odd n then p else 0)) (p + p) Hn2) as (ra & rb & E & R1 & R2).
    + destruct (Z.odd n); lia.
    + lia.
    + destruct (Z.odd n); [now apply makes_prod|now rewrite Z.add_0_r].
    + destruct (Z.odd n); [now apply makes_prod|now rewrite Z.add_0_r].
    + now apply makes_prod.
    + now apply makes_prod.
    + exists ra, rb. split; [exact E|]. assert (Eq : j + (if Z.odd n then p else 0) + n / 2 * (p + p) = j + n * p) by (destruct (Z.odd n); lia). rewrite Eq in R1, R2. auto.
Qed.
Lemma mrg_new_at a b : mrg_new a b = mrg_at a b (a, a, a) (b, b, b).
Proof. reflexivity. Qed.
Lemma trunc_Z z : Z.abs z <= 2 ^ 53 -> fl_trunc (fl_of_Z z) = z.
Proof. intros H. rewrite (trunc_holds _ _ (holds_Z z H)). apply Ztrunc_IZR. Qed.
Lemma mrg_skip_ok n d s : word (seed_a s) -> word (seed_b s) -> 0 <= n * d < 2 ^ 64 ->
  exists g, mrg_skip n d s = Ok g /\ same g (mrg_at (seed_a s) (seed_b s) (iterate xstep (Z.to_nat (n * d / 2)) (seed_a s, seed_a s, seed_a s)) (iterate ystep (Z.to_nat (n * d / 2)) (seed_b s, seed_b s, seed_b s))).
Proof.
  intros Wa Wb Hn. unfold mrg_skip, w64. rewrite (Z.mod_small (n * d)) by exact Hn. set (N := n * d) in *. clearbody N.
  assert (E : (if Z.odd N then (N - 1) / 2 else N / 2) = N / 2). { pose proof (Zdiv2_odd_eqn N) as D. rewrite Z.div2_div in D. destruct (Z.odd N); [|reflexivity]. symmetry. replace N with ((N - 1) / 2 * 2 + 1) at 1; [rewrite Z.add_comm, Z.div_add by lia; change (1 / 2) with 0; lia|]. replace (N - 1) with (N / 2 * 2) at 1 by lia. rewrite Z.div_mul; lia. }
  rewrite E. assert (M1 : 0 < m1 < 2 ^ 32) by (unfold m1; lia). assert (M2 : 0 < m2 < 2 ^ 32) by (unfold m2; lia).
  assert (HN : 0 <= N / 2 < 2 ^ Z.of_nat 64) by (split; [apply Z.div_pos; lia|]; change (2 ^ Z.of_nat 64) with (2 ^ 64); apply Z.div_lt_upper_bound; lia).
  assert (I1 : makes m1 xstep mident 0) by (apply makes_ident; assumption). assert (I2 : makes m2 ystep mident 0) by (apply makes_ident; assumption).
  destruct (power_loop_ok 64 (N / 2) mident mident ai0 bi0 0 1 HN ltac:(lia) ltac:(lia) I1 I2 makes_a makes_b) as (ra & rb & EL & R1 & R2).
  rewrite Z.mul_1_r, Z.add_0_l in R1. rewrite Z.mul_1_r, Z.add_0_l in R2. rewrite EL. cbn [obind fst snd]. unfold mrg_new. cbn [RandomModel.xn RandomModel.xn1 RandomModel.xn2 RandomModel.yn RandomModel.yn1 RandomModel.yn2].
  unfold word in Wa, Wb. rewrite !trunc_Z by lia. destruct R1 as [WA RA], R2 as [WB RB].
  set (va := (seed_a s, seed_a s, seed_a s)) in *. set (vb := (seed_b s, seed_b s, seed_b s)) in *.
  assert (Wva : words va) by (unfold va, words, word; auto). assert (Wvb : words vb) by (unfold vb, words, word; auto).
  destruct (vprd_ok m1 M1 ra va WA Wva) as [V1 C1]. destruct (vprd_ok m2 M2 rb vb WB Wvb) as [V2 C2].
  destruct (vprd m1 ra va) as [[p q] r], (vprd m2 rb vb) as [[p' q'] r']. eexists. split; [reflexivity|].
  exists (seed_a s), (seed_b s), (p, q, r), (p', q', r'), (iterate xstep (Z.to_nat (N / 2)) va), (iterate ystep (Z.to_nat (N / 2)) vb). split; [reflexivity|]. split; [reflexivity|].
    split; [exact V1|]. split; [exact V2|]. split; [now apply iter_words_x|]. split; [now apply iter_words_y|]. split; (eapply cong_trans; [eassumption|auto]).
Qed.

(** * Filling vectors *)
Section Fill.
Variable a b : Z.
Hypothesis Wa : word a.
Hypothesis Wb : word b.
(** the state after [k] draws *)
Definition after (k : nat) : mrg := mrg_at a b (iterate xstep k (a, a, a)) (iterate ystep k (b, b, b)).
Definition stretch (k n : nat) : list spec_float := map (deviate a b) (seq k n).
Lemma words_a : words (a, a, a). Proof. cbn. auto. Qed.
Lemma words_b : words (b, b, b). Proof. cbn. auto. Qed.
Lemma iterate_plus {A} (f : A -> A) j k v : iterate f (j + k) v = iterate f j (iterate f k v).
Proof. unfold iterate. induction j as [|j IH]; [reflexivity|]. change (f (Nat.iter (j + k) f v) = f (Nat.iter j f (Nat.iter k f v))). now rewrite IH. Qed.
Lemma draws_after k n : draws mrg_next n (after k) = Ok (stretch k n, after (k + n)).
Proof.
  unfold after. rewrite draws_at by (auto using iter_words_x, iter_words_y, words_a, words_b). rewrite <- !iterate_plus. rewrite (Nat.add_comm n k). f_equal. f_equal.
  unfold stretch. assert (E : forall m s, seq (k + s) m = map (fun i => k + i)%nat (seq s m)). { induction m as [|m IH]; intros s; cbn [seq map]; [reflexivity|]. f_equal. rewrite <- IH. f_equal. lia. }
  specialize (E n 0%nat). rewrite Nat.add_0_r in E. rewrite E, map_map. apply map_ext. intros i. unfold deviate, xs, ys. rewrite <- !iterate_plus. replace (S (k + i)) with (S i + k)%nat by lia. reflexivity.
Qed.
Lemma after_same k : same (after k) (after k).
Proof. exists a, b, (iterate xstep k (a, a, a)), (iterate ystep k (b, b, b)), (iterate xstep k (a, a, a)), (iterate ystep k (b, b, b)). auto 12 using iter_words_x, iter_words_y, words_a, words_b, cong_refl. Qed.
(** states with the same future *)
Definition at_point (s : mrg) (k : nat) : Prop := same s (after k).
Lemma draws_point s k n : at_point s k -> exists s', draws mrg_next n s = Ok (stretch k n, s') /\ at_point s' (k + n).
Proof.
  intros H. destruct (same_draws n _ _ H) as (l & s' & t' & E1 & E2 & H1 & _). rewrite draws_after in E2. injection E2 as <- <-. exists s'. auto.
Qed.
Variable icdf : spec_float -> spec_float.
Definition flip (u : spec_float) : spec_float := fsub (fl_of_Z 1) u.
(** the [j]-th vector of uniforms: fresh numbers at even places, their mirror images at odd places *)
Definition uniform_path (d j : nat) : list spec_float :=
  let fresh := stretch (Nat.div2 j * d) d in if Nat.even j then fresh else map flip fresh.
Definition normal_path (d j : nat) : list spec_float := map icdf (stretch (j * d) d).
Lemma stretch_length k n : length (stretch k n) = n.
Proof. unfold stretch. now rewrite map_length, seq_length. Qed.
Lemma uniforms_ok d n : forall s j, length (cache s) = d -> at_point (gen s) (Nat.div2 (S j) * d) -> anti s = Nat.odd j ->
  (Nat.odd j = true -> cache s = stretch (Nat.div2 j * d) d) -> uniforms mrg_next n s = Ok (map (uniform_path d) (seq j n)).
Proof.
  induction n as [|n IH]; intros s j Hc Hp Ha Hs; [reflexivity|]. cbn [uniforms]. unfold fill_uniform. rewrite Hc, Nat.ltb_irrefl, Ha. cbn [seq map]. unfold uniform_path at 1. rewrite <- Nat.negb_odd. destruct (Nat.odd j) eqn:O.
  - rewrite (Hs eq_refl). cbn [obind fst snd negb]. rewrite IH with (j := S j).
    + cbn [obind]. rewrite firstn_all2 by (rewrite stretch_length; lia). reflexivity.
    + cbn [cache]. apply stretch_length.
    + cbn [gen]. change (Nat.div2 (S (S j))) with (S (Nat.div2 j)). apply Nat.odd_spec in O as [k Ek]. replace (S (Nat.div2 j)) with (Nat.div2 (S j)); [exact Hp|].
      replace (S j) with (2 * S k)%nat by lia. replace j with (S (2 * k))%nat by lia. rewrite Nat.div2_double, Nat.div2_succ_double. reflexivity.
    + cbn [anti]. rewrite Nat.odd_succ, <- Nat.negb_odd, O. reflexivity.
    + intros O2. rewrite Nat.odd_succ, <- Nat.negb_odd, O in O2. discriminate.
  - destruct (draws_point _ _ d Hp) as (g & E & P). rewrite E. cbn [obind fst snd negb]. assert (Ev : Nat.even j = true) by (now rewrite <- Nat.negb_odd, O). apply Nat.even_spec in Ev as [k Ek].
    assert (D1 : Nat.div2 (S j) = k) by (subst j; rewrite Nat.div2_succ_double; reflexivity). assert (D0 : Nat.div2 j = k) by (subst j; apply Nat.div2_double). rewrite D1 in *. rewrite IH with (j := S j).
    + cbn [obind]. now rewrite D0.
    + cbn [cache]. rewrite app_length, stretch_length, skipn_length. lia.
    + cbn [gen]. change (Nat.div2 (S (S j))) with (S (Nat.div2 j)). rewrite D0. replace (S k * d)%nat with (k * d + d)%nat by lia. exact P.
    + cbn [anti]. now rewrite Nat.odd_succ, <- Nat.negb_odd, O.
    + intros _. cbn [cache]. rewrite D1. rewrite skipn_all2 by lia. apply app_nil_r.
Qed.
Lemma normals_ok d n : forall s k, length (cache s) = d -> at_point (gen s) k -> normals mrg_next icdf n s = Ok (map (fun i => map icdf (stretch (k + i * d) d)) (seq 0 n)).
Proof.
  induction n as [|n IH]; intros s k Hc Hp; [reflexivity|]. cbn [normals]. unfold fill_normal. rewrite Hc. destruct (draws_point _ _ d Hp) as (g & E & P). rewrite E. cbn [obind fst snd].
  rewrite IH with (k := (k + d)%nat) by assumption. cbn [obind seq map]. rewrite Nat.mul_0_l, Nat.add_0_r. do 2 f_equal. rewrite <- seq_shift, map_map. apply map_ext. intros i. do 2 f_equal. lia.
Qed.
End Fill.

(** * Ranges of deviates *)
Definition margin (u : spec_float) : Prop := exists r, holds u r /\ (bpow radix2 (-32) <= r <= 1 - bpow radix2 (-32))%R.
Lemma margin_open u : margin u -> open01 u.
Proof.
  intros (r & H & B). pose proof (bpow_gt_0 radix2 (-32)). assert (Hz : holds (fl_of_Z 0) 0) by (apply (holds_Z 0); lia). assert (H1 : holds (fl_of_Z 1) 1) by (apply (holds_Z 1); lia).
  split; [apply (holds_ltb _ _ _ _ Hz H)|apply (holds_ltb _ _ _ _ H H1)]; lra.
Qed.
Lemma margin_flip u : margin u -> margin (fsub (fl_of_Z 1) u).
Proof.
  intros (r & H & B). pose proof (bpow_gt_0 radix2 (-32)) as P. assert (H1 : holds (fl_of_Z 1) 1) by (apply (holds_Z 1); lia).
  assert (S : (bpow radix2 (-32) <= 1)%R) by (change 1%R with (bpow radix2 0); apply bpow_le; lia).
  exists (rnd (1 - r)). split; [apply holds_sub; auto; apply Rle_trans with 1%R; [apply Rabs_le; lra|change 1%R with (bpow radix2 0); apply bpow_le; lia]|].
  assert (E1 : rnd (bpow radix2 (-32)) = bpow radix2 (-32)) by (apply rnd_rep, generic_format_bpow; unfold SpecFloat.fexp, SpecFloat.emin, prec, emax; lia).
  assert (E2 : rnd (1 - bpow radix2 (-32)) = (1 - bpow radix2 (-32))%R).
  { apply rnd_rep. replace (1 - bpow radix2 (-32))%R with (IZR (2 ^ 32 - 1) * bpow radix2 (-32))%R; [apply rep_float; lia|]. rewrite minus_IZR. change (IZR (2 ^ 32)) with (bpow radix2 32). rewrite Rmult_minus_distr_r, <- bpow_plus. change (bpow radix2 (32 + -32)) with 1%R. ring. }
  split; [rewrite <- E1 at 1|rewrite <- E2]; apply rnd_le; lra.
Qed.
Lemma numer_range x y : 0 <= x < m1 -> 0 <= y < m2 -> 0 < numer x y < m1p1.
Proof. unfold numer, m1, m2, m1p1. intros. destruct (Z.ltb_spec y x); lia. Qed.
Lemma margin_numer x y : 0 <= x < m1 -> 0 <= y < m2 -> margin (fdiv (fl_of_Z (numer x y)) (fl_of_Z m1p1)).
Proof. intros Hx Hy. pose proof (numer_range x y Hx Hy). apply fraction; [assumption|unfold m1p1; lia]. Qed.

Section Runs.
Context {G : Type}.
Variable next : G -> outcome (spec_float * G).
Variable skip : Z -> Z -> G -> outcome G.
Variable icdf : spec_float -> spec_float.
Variable Inv : G -> Prop.
Hypothesis next_ok : forall g, Inv g -> exists u g', next g = Ok (u, g') /\ Inv g' /\ margin u.
Variable Dim : nat.
Hypothesis skip_ok : forall n g, 0 <= n * Z.of_nat Dim < 2 ^ 64 -> Inv g -> exists g', skip n (Z.of_nat Dim) g = Ok g' /\ Inv g'.
Lemma draws_inv n : forall g, Inv g -> exists l g', draws next n g = Ok (l, g') /\ Inv g' /\ Forall margin l /\ length l = n.
Proof.
  induction n as [|n IH]; intros g H; cbn [draws]; [exists [], g; auto|]. destruct (next_ok g H) as (u & g1 & -> & H1 & M). cbn [obind fst snd]. destruct (IH g1 H1) as (l & g2 & -> & H2 & F & L). cbn [obind fst snd].
  exists (u :: l), g2. cbn [length]. auto.
Qed.
Definition op_fits (o : op) : Prop := match o with Skip n => 0 <= n * Z.of_nat Dim < 2 ^ 64 | _ => True end.
Lemma run_ops_inv ops : forall s, Forall op_fits ops -> length (cache s) = Dim -> Inv (gen s) -> (anti s = true -> Forall margin (cache s)) ->
  exists outs, run_ops next skip icdf ops s = Ok outs /\ Forall (Forall open01) outs.
Proof.
  induction ops as [|o ops IH]; intros s Hf Hd Hi Ha; cbn [run_ops]; [exists []; auto|]. apply Forall_cons_iff in Hf as [Hf1 Hf2]. destruct o as [| |n].
  - unfold fill_uniform. rewrite Nat.ltb_irrefl. destruct (anti s).
    + cbn [obind fst snd]. destruct (IH (Rng false (cache s) (gen s)) Hf2 Hd Hi) as (outs & E & F); [discriminate|]. rewrite E. cbn [obind]. eexists. split; [reflexivity|]. constructor; [|exact F].
      rewrite firstn_all. rewrite Forall_map. eapply Forall_impl; [|apply Ha; reflexivity]. intros u Hu. apply margin_open, margin_flip, Hu.
    + destruct (draws_inv (length (cache s)) (gen s) Hi) as (l & g & E & Hg & Fl & Ll). rewrite E. cbn [obind fst snd].
      destruct (IH (Rng true (l ++ skipn (length (cache s)) (cache s)) g) Hf2) as (outs & E2 & F); [cbn [cache]; rewrite app_length, skipn_length; lia|exact Hg|intros _; cbn [cache]; rewrite skipn_all; now rewrite app_nil_r|].
      rewrite E2. cbn [obind]. eexists. split; [reflexivity|]. constructor; [|exact F]. eapply Forall_impl; [|exact Fl]. intros u. apply margin_open.
  - unfold fill_normal. destruct (draws_inv (length (cache s)) (gen s) Hi) as (l & g & E & Hg & Fl & Ll). rewrite E. cbn [obind fst snd]. apply IH; auto.
  - unfold skip_to. rewrite Hd. destruct (skip_ok n (gen s) Hf1 Hi) as (g & E & Hg). rewrite E. cbn [obind]. apply IH; auto.
Qed.
End Runs.

(** the invariant of MRG32k3a *)
Definition mrg_inv (s : mrg) : Prop := exists a b vx vy, s = mrg_at a b vx vy /\ word a /\ word b /\ words vx /\ words vy.
Lemma mrg_next_inv g : mrg_inv g -> exists u g', mrg_next g = Ok (u, g') /\ mrg_inv g' /\ margin u.
Proof.
  intros (a & b & vx & vy & -> & Wa & Wb & Wx & Wy). rewrite mrg_next_ok by assumption. eexists _, _. split; [reflexivity|]. split.
  - exists a, b, (xstep vx), (ystep vy). auto 8 using xstep_words, ystep_words.
  - apply margin_numer; [apply xstep_head|apply ystep_head].
Qed.
Lemma mrg_at_seeds a b vx vy : seed_a (mrg_at a b vx vy) = a /\ seed_b (mrg_at a b vx vy) = b.
Proof. destruct vx as [[x x1] x2], vy as [[y y1] y2]. split; reflexivity. Qed.
Lemma mrg_skip_inv d n g : 0 <= n * d < 2 ^ 64 -> mrg_inv g -> exists g', mrg_skip n d g = Ok g' /\ mrg_inv g'.
Proof.
  intros Hn (a & b & vx & vy & -> & Wa & Wb & Wx & Wy). destruct (mrg_at_seeds a b vx vy) as [Ea Eb]. set (g := mrg_at a b vx vy) in *. clearbody g.
  destruct (mrg_skip_ok n d g) as (g' & E & H); [now rewrite Ea|now rewrite Eb|exact Hn|]. exists g'. split; [exact E|]. clear E.
  destruct H as (a' & b' & ux & uy & wx & wy & -> & E & U1 & U2 & _). exists a', b', ux, uy. split; [reflexivity|].
  apply (f_equal (fun s => (seed_a s, seed_b s))) in E. rewrite !(proj1 (mrg_at_seeds _ _ _ _)), !(proj2 (mrg_at_seeds _ _ _ _)) in E. injection E as <- <-. rewrite Ea, Eb. auto.
Qed.
(** the invariant of ShuffledIRN_ *)
Definition irn_inv (n : nat) (s : irn) : Prop := length (cells s) = 55%nat /\ length (shuffle s) = n /\ Forall (fun z => 0 <= z < 2 ^ 30) (shuffle s) /\ 0 <= irl s < 55.
Lemma vput_gen {A} (l : list A) i v : 0 <= i < Z.of_nat (length l) -> exists l', vput l i v = Ok l' /\ length l' = length l /\ forall P, Forall P l -> P v -> Forall P l'.
Proof.
  intros H. unfold vput. replace ((0 <=? i) && (i <? Z.of_nat (length l))) with true by lia. eexists. split; [reflexivity|].
  assert (G : forall n (l : list A), (n < length l)%nat -> length (upd_nat l n v) = length l /\ forall P, Forall P l -> P v -> Forall P (upd_nat l n v)).
  { induction n as [|n IH]; intros [|x r] Hn; cbn [length] in Hn; try lia; cbn [upd_nat length].
    - split; [reflexivity|]. intros P HP Hv. inversion HP; subst. now constructor.
    - destruct (IH r ltac:(lia)) as [L F]. split; [now rewrite L|]. intros P HP Hv. inversion HP; subst. constructor; auto. }
  apply G. lia.
Qed.
Lemma irn_step_ok n s : irn_inv n s -> exists v s', irn_step s = Ok (v, s') /\ 0 <= v < 2 ^ 30 /\ irn_inv n s' /\ shuffle s' = shuffle s.
Proof.
  intros (C & S & F & I). unfold irn_step. set (l := if irl s - 1 <? 0 then 54 else irl s - 1). assert (Hl : 0 <= l < 55) by (unfold l; destruct (irl s - 1 <? 0) eqn:E; lia). clearbody l.
  pose proof (Z.mod_pos_bound (l + 31) 55 eq_refl). rewrite (vget_ok _ _ 0) by lia. cbn [obind]. rewrite (vget_ok _ _ 0) by lia. cbn [obind]. set (v := w32 _ mod 2 ^ 30).
  assert (Hv : 0 <= v < 2 ^ 30) by (apply Z.mod_pos_bound; lia). clearbody v. destruct (vput_gen (cells s) l v ltac:(lia)) as (c & E & L & _). rewrite E. cbn [obind]. exists v, (Irn c (shuffle s) l). split; [reflexivity|]. split; [exact Hv|]. split; [|reflexivity].
  unfold irn_inv. cbn [cells shuffle irl]. split; [lia|auto].
Qed.
Lemma irn_cells_length n z : length (irn_cells n z) = n.
Proof. revert z. induction n as [|n IH]; intros z; cbn [irn_cells length]; [reflexivity|]. now rewrite IH. Qed.
Lemma irn_shuffle_ok k : forall n s, irn_inv n s -> exists s', irn_shuffle k s = Ok s' /\ irn_inv (n + k) s'.
Proof.
  induction k as [|k IH]; intros n s H; cbn [irn_shuffle]; [exists s; rewrite Nat.add_0_r; auto|]. destruct (irn_step_ok n s H) as (v & s1 & -> & Hv & (C & Sh & F & I) & _). cbn [obind fst snd].
  destruct (IH (S n) (Irn (cells s1) (shuffle s1 ++ [v]) (irl s1))) as (s' & E & H'); [|exists s'; rewrite Nat.add_succ_r; auto].
  unfold irn_inv. cbn [cells shuffle irl]. split; [exact C|]. split; [rewrite app_length; cbn; lia|]. split; [apply Forall_app; auto|exact I].
Qed.
Lemma irn_new_ok seed : exists s, irn_of_seed seed = Ok s /\ irn_inv 128 s.
Proof. apply (irn_shuffle_ok 128 0). unfold irn_inv. cbn [cells shuffle irl length]. rewrite irn_cells_length. split; [reflexivity|]. split; [reflexivity|]. split; [constructor|lia]. Qed.
Lemma irn_mul_holds : holds irn_mul (bpow radix2 (-31)).
Proof.
  assert (E : rnd (IZR 1 / IZR 2) = bpow radix2 (-1)) by (replace (IZR 1 / IZR 2)%R with (bpow radix2 (-1)) by (cbn; field); apply rnd_rep, generic_format_bpow; unfold SpecFloat.fexp, SpecFloat.emin, prec, emax; lia).
  assert (H2 : holds (fdiv (fl_of_Z 1) (fl_of_Z 2)) (bpow radix2 (-1))) by (rewrite <- E; apply holds_div; [apply holds_Z; lia|apply holds_Z; lia|lra|apply div_big; lia]).
  assert (Q : (bpow radix2 (-1) / IZR (2 ^ 30) = bpow radix2 (-31))%R) by (change (IZR (2 ^ 30)) with (bpow radix2 30); unfold Rdiv; rewrite <- bpow_opp, <- bpow_plus; reflexivity).
  assert (E2 : rnd (bpow radix2 (-1) / IZR (2 ^ 30)) = bpow radix2 (-31)) by (rewrite Q; apply rnd_rep, generic_format_bpow; unfold SpecFloat.fexp, SpecFloat.emin, prec, emax; lia).
  unfold irn_mul. rewrite <- E2. apply holds_div; [exact H2|apply holds_Z; lia|apply IZR_neq; lia|]. rewrite Q. rewrite Rabs_pos_eq by apply bpow_ge_0. apply bpow_le. lia.
Qed.
Lemma irn_next_ok s : irn_inv 128 s -> exists u s', irn_next s = Ok (u, s') /\ irn_inv 128 s' /\ margin u.
Proof.
  intros H. unfold irn_next. destruct (irn_step_ok 128 s H) as (v & s1 & -> & Hv & (C & S & F & I) & _). cbn [obind fst snd]. pose proof (Z.mod_pos_bound v 128 eq_refl) as Hk.
  rewrite (vget_ok _ _ 0) by lia. cbn [obind]. set (r := nth (Z.to_nat (v mod 128)) (shuffle s1) 0). assert (Hr : 0 <= r < 2 ^ 30) by (rewrite Forall_forall in F; apply F, nth_In; lia). clearbody r.
  destruct (vput_gen (shuffle s1) (v mod 128) v ltac:(lia)) as (sh & E & L & FP). rewrite E. cbn [obind]. eexists _, _. split; [reflexivity|]. split.
  - unfold irn_inv. cbn [cells shuffle irl]. split; [exact C|]. split; [lia|]. split; [now apply FP|exact I].
  - assert (Q : rnd (bpow radix2 (-31) * IZR (2 * r + 1)) = (bpow radix2 (-31) * IZR (2 * r + 1))%R) by (apply rnd_rep; rewrite Rmult_comm; apply rep_float; lia).
    assert (B1 : (1 <= IZR (2 * r + 1))%R) by (apply IZR_le; lia). assert (B2 : (IZR (2 * r + 1) <= IZR (2 ^ 31 - 1))%R) by (apply IZR_le; lia). rewrite minus_IZR in B2. change (IZR (2 ^ 31)) with (bpow radix2 31) in B2.
    assert (P31 : (bpow radix2 (-31) * bpow radix2 31 = 1)%R) by (rewrite <- bpow_plus; reflexivity). assert (P32 : (bpow radix2 (-31) = bpow radix2 (-32) + bpow radix2 (-32))%R) by (replace (-31) with (1 + -32) by lia; rewrite bpow_plus; change (bpow radix2 1) with 2%R; ring).
    pose proof (bpow_gt_0 radix2 (-32)) as G0. pose proof (bpow_gt_0 radix2 (-31)) as G1.
    assert (Lo : (bpow radix2 (-31) * 1 <= bpow radix2 (-31) * IZR (2 * r + 1))%R) by (apply Rmult_le_compat_l; lra).
    assert (Hi : (bpow radix2 (-31) * IZR (2 * r + 1) <= bpow radix2 (-31) * (bpow radix2 31 - 1))%R) by (apply Rmult_le_compat_l; lra). rewrite Rmult_minus_distr_l, P31, Rmult_1_r in Hi. rewrite Rmult_1_r in Lo.
    exists (bpow radix2 (-31) * IZR (2 * r + 1))%R. split; [|lra]. rewrite <- Q. apply holds_mul; [exact irn_mul_holds|apply holds_Z; lia|].
    apply Rle_trans with 1%R; [apply Rabs_le; lra|change 1%R with (bpow radix2 0); apply bpow_le; lia].
Qed.
