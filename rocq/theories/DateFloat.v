(** The double-precision calendar conversion equals the exact integer one on every 16-bit serial. *)
From Coq Require Import ZArith List Bool Lia ZifyBool.
From Coq Require Import Floats.SpecFloat.
From Verif Require Import Base DateModel FloatLemmas.
Open Scope Z_scope.

Lemma fl_of_Z_exact z : 2 ^ 21 <= z < 2 ^ 22 -> exists R, fl_of_Z z = S754_finite false R (-31) /\ Z.pos R = z * 2 ^ 31.
Proof. intros H. destruct (normalize_exact z 0 22) as (R & E1 & E2); try lia. exists R. split; assumption. Qed.

(** Integer part of a quotient of scaled integers. *)
Lemma div_trunc X Y a b m1 m2 e1 e2 :
  0 < X -> 0 < Y < 2 ^ 20 -> 0 <= a -> 0 <= b -> Z.pos m1 = X * 2 ^ a -> Z.pos m2 = Y * 2 ^ b ->
  2 ^ 52 <= Z.pos m1 < 2 ^ 53 -> 2 ^ 52 <= Z.pos m2 < 2 ^ 53 ->
  e1 + a = e2 + b -> -300 <= e1 <= 300 -> -300 <= e2 <= 300 -> b - a <= 20 ->
  fl_trunc (SFdiv 53 1024 (S754_finite false m1 e1) (S754_finite false m2 e2)) = X / Y.
Proof.
  intros HX HY Ha Hb Hm1 Hm2 H1 H2 He Hr1 Hr2 Hba.
  destruct (div_pos_bound m1 e1 m2 e2 H1 H2 Hr1 Hr2) as (R & e' & q & -> & Hq & He' & Hv).
  rewrite (trunc_scaled R e' (e1 - e2 - 53)) by lia.
  set (v := Z.pos R * 2 ^ (e' - (e1 - e2 - 53))) in *. clearbody v.
  assert (Ek : - (e1 - e2 - 53) = 53 + a - b) by lia. rewrite Ek.
  set (k := 53 + a - b) in *. assert (Hk : 33 <= k) by lia.
  assert (Hpow : 2 ^ 53 * 2 ^ a = 2 ^ k * 2 ^ b) by (rewrite <- !Z.pow_add_r by lia; f_equal; lia).
  assert (Hq' : q = X * 2 ^ k / Y).
  { rewrite Hq, Hm1, Hm2. replace (X * 2 ^ a * 2 ^ 53) with (X * (2 ^ 53 * 2 ^ a)) by ring. rewrite Hpow.
    replace (X * (2 ^ k * 2 ^ b)) with (X * 2 ^ k * 2 ^ b) by ring.
    apply Z.div_mul_cancel_r; [lia | apply Z.pow_nonzero; lia]. }
  assert (Hp : 2 ^ k = 2 ^ 33 * 2 ^ (k - 33)) by (rewrite <- Z.pow_add_r by lia; f_equal; lia).
  assert (Hp0 : 0 < 2 ^ (k - 33)) by (apply Z.pow_pos_nonneg; lia).
  set (N := X / Y). pose proof (Z.div_mod X Y ltac:(lia)) as Hdm. pose proof (Z.mod_pos_bound X Y ltac:(lia)) as Hmb.
  fold N in Hdm. set (P := 2 ^ k) in *. assert (HP : 2 ^ 33 <= P) by nia.
  symmetry. apply (Z.div_unique v P N (v - P * N)); [|ring].
  (* bounds of q *)
  pose proof (Z.div_mod (X * P) Y ltac:(lia)) as Hqm. pose proof (Z.mod_pos_bound (X * P) Y ltac:(lia)) as Hqb.
  rewrite <- Hq' in Hqm.
  left. split.
  - (* N * P <= 2 * (q / 2) *)
    assert (Heven : exists h, P = 2 * h) by (exists (2 ^ 32 * 2 ^ (k - 33)); rewrite Hp; ring).
    destruct Heven as (h & Hh).
    assert (N * P <= q) by nia.
    assert (N * h <= q / 2) by (apply Z.div_le_lower_bound; nia). nia.
  - (* q + 2 < (N + 1) * P *)
    assert (Hu : Y * q <= X * P) by nia.
    assert (Y * (q + 2) < Y * ((N + 1) * P)); [|nia].
    assert (X + 1 <= (N + 1) * Y) by nia.
    assert ((X + 1) * P <= Y * ((N + 1) * P)) by nia.
    nia.
Qed.

Lemma alpha_ok serial : 2440587 <= serial <= 2506200 ->
  fl_trunc (fdiv (fsub (fl_of_Z serial) lit_1867216_25) lit_36524_25) = (4 * serial - 7468865) / 146097.
Proof.
  intros H. destruct (fl_of_Z_exact serial) as (R & -> & HR); [lia|].
  unfold fsub, lit_1867216_25, SFsub. change (Z.min (-31) (-32)) with (-32).
  unfold shl_align. change (-32 - -31) with (-1). change (-32 - -32) with 0. cbn [fst cond_Zopp].
  rewrite shift_pos_Z, HR.
  match goal with |- context [binary_normalize _ _ ?z _ _] => replace z with ((4 * serial - 7468865) * 2 ^ 30) by lia end.
  unfold prec, emax.
  destruct (normalize_exact ((4 * serial - 7468865) * 2 ^ 30) (-32) 52) as (R2 & -> & HR2); try lia.
  unfold fdiv, lit_36524_25, prec, emax.
  apply (div_trunc (4 * serial - 7468865) 146097 31 35); try lia.
Qed.

Lemma C_ok B : 2400000 <= B <= 2600000 ->
  fl_trunc (fdiv (fsub (fl_of_Z B) lit_122_1) lit_365_25) = (20 * B - 2442) / 7305.
Proof.
  intros H. destruct (fl_of_Z_exact B) as (R & -> & HR); [lia|].
  unfold fsub, lit_122_1, SFsub. change (Z.min (-31) (-46)) with (-46).
  unfold shl_align. change (-46 - -31) with (-15). change (-46 - -46) with 0. cbn [fst cond_Zopp].
  rewrite shift_pos_Z, HR.
  match goal with |- context [binary_normalize _ _ (?a - ?b) _ _] => set (d := a - b) end.
  assert (Hd : d = B * 2 ^ 46 - 8592023664092774) by (unfold d; lia). clearbody d.
  destruct d as [|dp|dp]; try lia. cbn [binary_normalize]. unfold binary_round, prec, emax.
  assert (Hdig : Z.pos (digits2_pos dp) = 68) by (apply digits2_unique; lia). rewrite Hdig.
  change (fexp 53 1024 (68 + -46)) with (-31). unfold shl_align. change (-31 - -46) with 15.
  destruct (round_aux_pos (Z.pos dp) (-46) loc_Exact 15) as (R2 & e2 & -> & He2 & HR2 & Hv); try lia.
  assert (Hv' : Z.pos dp - 2 ^ 15 < Z.pos R2 * 2 ^ (e2 - -46) <= Z.pos dp + 2 ^ 15).
  { pose proof (Z.div_mod (Z.pos dp) (2 ^ 15) ltac:(lia)). pose proof (Z.mod_pos_bound (Z.pos dp) (2 ^ 15) ltac:(lia)). lia. }
  assert (E2 : e2 = -31).
  { destruct (Z.lt_trichotomy (e2 - -46) 15) as [L|[E|L]]; [|lia|].
    - assert (0 < 2 ^ (e2 - -46) <= 2 ^ 14) by (split; [apply Z.pow_pos_nonneg; lia | apply Z.pow_le_mono_r; lia]). nia.
    - assert (2 ^ 16 <= 2 ^ (e2 - -46)) by (apply Z.pow_le_mono_r; lia). nia. }
  subst e2. change (-31 - -46) with 15 in Hv'. clear Hv.
  unfold fdiv, lit_365_25, prec, emax.
  destruct (div_pos_bound R2 (-31) 6425545952722944 (-44) HR2) as (R3 & e3 & q & -> & Hq & He3 & Hv3); try lia.
  change (-31 - -44 - 53) with (-40) in *.
  rewrite (trunc_scaled R3 e3 (-40)) by lia.
  generalize dependent (Z.pos R3 * 2 ^ (e3 - -40)). intros v Hv3.
  assert (Hlo : q - 1 <= v <= q + 2) by (pose proof (Z.div_mod q 2 ltac:(lia)); pose proof (Z.mod_pos_bound q 2 ltac:(lia)); lia).
  assert (Hqb : 6425545952722944 * q <= Z.pos R2 * 2 ^ 53 < 6425545952722944 * (q + 1)).
  { pose proof (Z.div_mod (Z.pos R2 * 2 ^ 53) 6425545952722944 ltac:(lia)).
    pose proof (Z.mod_pos_bound (Z.pos R2 * 2 ^ 53) 6425545952722944 ltac:(lia)). lia. }
  pose proof (Z.div_mod (20 * B - 2442) 7305 ltac:(lia)) as HN.
  pose proof (Z.mod_pos_bound (20 * B - 2442) 7305 ltac:(lia)) as HNb.
  assert (Hne : (20 * B - 2442) mod 7305 <> 0).
  { intros E. rewrite E in HN. generalize dependent ((20 * B - 2442) / 7305). intros; lia. }
  generalize dependent ((20 * B - 2442) / 7305). intros N HN. 
  generalize dependent ((20 * B - 2442) mod 7305). intros r HN Hr Hne.
  symmetry. apply (Z.div_unique v (2 ^ (- -40)) N (v - 2 ^ 40 * N)); [|change (- -40) with 40; ring].
  left. change (2 ^ (- -40)) with (2 ^ 40).
  assert (Hd2 : Z.pos dp = B * 2 ^ 46 - 8592023664092774) by assumption.
  clear - Hd2 Hv' Hlo Hqb HN Hr Hne H. lia.
Qed.

(** The remaining steps have small domains. *)
Definition eq3 (a b : Z * Z * Z) : bool :=
  let '(x, y, z) := a in let '(u, v, w) := b in (x =? u) && (y =? v) && (z =? w).
Lemma D_sweep : all_range 6600 300 (fun c => fl_trunc (fmul lit_365_25 (fl_of_Z c)) =? (1461 * c) / 4) = true.
Proof. vm_cast_no_check (eq_refl true). Qed.
Lemma E_sweep : all_range 1 500 (fun n => fl_trunc (fdiv (fl_of_Z n) lit_30_6001) =? (n * 10000) / 306001) = true.
Proof. vm_cast_no_check (eq_refl true). Qed.
Lemma F_sweep : all_range 0 20 (fun e => fl_trunc (fmul lit_30_6001 (fl_of_Z e)) =? (306001 * e) / 10000) = true.
Proof. vm_cast_no_check (eq_refl true). Qed.

Lemma D_ok c : 6600 <= c < 6900 -> fl_trunc (fmul lit_365_25 (fl_of_Z c)) = (1461 * c) / 4.
Proof. intros H. apply Z.eqb_eq. exact (all_range_spec 6600 300 _ ltac:(lia) D_sweep c ltac:(lia)). Qed.
Lemma E_ok n : 1 <= n <= 500 -> fl_trunc (fdiv (fl_of_Z n) lit_30_6001) = (n * 10000) / 306001.
Proof. intros H. apply Z.eqb_eq. exact (all_range_spec 1 500 _ ltac:(lia) E_sweep n ltac:(lia)). Qed.
Lemma F_ok e : 0 <= e < 20 -> fl_trunc (fmul lit_30_6001 (fl_of_Z e)) = (306001 * e) / 10000.
Proof. intros H. apply Z.eqb_eq. exact (all_range_spec 0 20 _ ltac:(lia) F_sweep e ltac:(lia)). Qed.

Ltac Zify.zify_post_hook ::= Z.div_mod_to_equations.
Lemma ymd_exact s : 0 <= s < 65536 -> ymd s = excel_date_to_ymd_Z (to_excel s).
Proof.
  intros H. unfold ymd, to_excel, EXCEL_OFFSET, excel_date_to_ymd, excel_date_to_ymd_Z. cbv zeta.
  rewrite alpha_ok by lia.
  set (serial := s + 25568 + 2415019). assert (Hs : 2440587 <= serial <= 2506122) by lia. clearbody serial. clear H s.
  set (alpha := (4 * serial - 7468865) / 146097). assert (Ha : 15 <= alpha <= 17) by lia. clearbody alpha.
  rewrite Z.quot_div_nonneg by lia.
  set (B := serial + 1 + alpha - alpha / 4 + 1524). assert (HB : 2442000 <= B <= 2508000) by lia. clearbody B.
  rewrite C_ok by lia.
  set (C := (20 * B - 2442) / 7305). assert (HC : 6685 <= C <= 6866) by lia.
  assert (HBC : 1461 * C <= 4 * B - 488 <= 1461 * C + 1461) by lia. clearbody C.
  rewrite D_ok by lia.
  set (D := 1461 * C / 4). assert (Hn : 1 <= B - D <= 500) by lia. clearbody D.
  rewrite E_ok by lia. set (n := B - D) in *. clearbody n.
  assert (HE : 0 <= n * 10000 / 306001 < 20) by lia.
  rewrite F_ok by assumption. reflexivity.
Qed.
