(** C48: option prices. *)
From Coq Require Import Ascii String Reals List Bool Lra Lia.
From Verif Require Import Base StringModel BrentModel BrentSpec BrentProofs BlackModel BlackSpec BlackProofs BlackNormal.
Import ListNotations.
Local Open Scope R_scope.

(** Payoffs: call minus put is spot minus strike, the straddle is their sum, and none is negative.  An option type
    that was never set is refused. *)
Theorem C48_payoff s k : parity (fun t => payout t s k) s k /\ (forall t x, payout t s k = Ok x -> 0 <= x) /\ payout NotSet s k = Throw.
Proof.
  split; [apply payout_parity|]. split; [|reflexivity]. intros [| | |] x; cbn [payout]; intros E; try discriminate; assert (exists y, Ok y = Ok x /\ 0 <= y) as (y & Ey & Hy); try (eexists; split; [exact E|]; first [apply Rmax_l|apply Rabs_pos]); now injection Ey as <-.
Qed.
Print Assumptions C48_payoff.

(** Put-call parity and the straddle, for every forward, volatility and strike and every symmetric distribution
    function (any density in the second formula). *)
Theorem C48_parity N n f v k : symmetric N -> parity (fun t => black_opt N f v k t) f k /\ parity (fun t => bachelier_opt N n f v k t) f k.
Proof. intros H. split; [now apply black_parity|now apply bach_parity]. Qed.
Example C48_parity_ex : symmetric (fun x => 1 / 2 + x) /\ black_opt (fun x => 1 / 2 + x) 4 1 4 Call = Ok 4.
Proof.
  split; [intros x; lra|]. rewrite black_formula; [|unfold epsilon; rewrite Rabs_R1; lra|unfold epsilon; lra]. cbv zeta. unfold d_plus, d_minus. replace (4 / 4) with 1 by field. rewrite ln_1. apply f_equal. field.
Qed.
Print Assumptions C48_parity.

(** A volatility the code takes for zero gives the payoff of the forward, in both formulas and for any N and n. *)
Theorem C48_zero_vol N n f v k t : Rabs v < epsilon -> black_opt N f v k t = payout t f k /\ bachelier_opt N n f v k t = payout t f k.
Proof. intros H. unfold black_opt, bachelier_opt. destruct (is_zero_spec v); [now split|contradiction]. Qed.
Example C48_zero_vol_ex : Rabs 0 < epsilon. Proof. rewrite Rabs_R0. apply eps_pos. Qed.
Print Assumptions C48_zero_vol.

(** The sensitivities returned beside the Black price are its rates of change, for every option type. *)
Theorem C48_black_greeks N n f v k t : normal_law N n -> counts v -> epsilon < f * k -> t <> NotSet ->
  exists delta vega, black_greeks N n f v k t = Ok (Some (delta, vega)) /\ rate (fun x => black_opt N x v k t) f delta /\ rate (fun x => black_opt N f x k t) v vega.
Proof.
  intros HN Hv Hfk Ht. pose proof eps_pos as He. pose proof (counts_ne v Hv) as Hv0. assert (0 < f * k) as Hp by lra. pose proof (call_fwd N n HN f v k Hp Hv0) as Df. pose proof (call_vol N n HN f v k Hp Hv0) as Dv.
  destruct (near_product f k Hfk) as (ef & Hef & Nf). destruct (near_vol v Hv) as (ev & Hev & Nv). pose proof (nl_sym _ _ HN) as Hs. unfold black_greeks. unfold counts in Hv.
  destruct (reqb_spec v 0); [contradiction|]. destruct (rleb_spec (f * k) 0); [lra|]. cbn [orb].
  destruct t; [| | |contradiction]; do 2 eexists; (split; [reflexivity|split]).
  - exists (fun x => call_of N x v k), ef. split; [assumption|]. split; [|exact Df]. intros y Hy. apply black_formula; [lra|now apply Nf].
  - exists (fun x => call_of N f x k), ev. split; [assumption|]. split; [|exact Dv]. intros y Hy. apply black_formula; [now apply Nv|lra].
  - exists (fun x => call_of N x v k - x + k), ef. split; [assumption|]. split.
    + intros y Hy. rewrite black_formula by (try apply Nf; lra). cbv zeta. rewrite !Hs. apply f_equal. unfold call_of. ring.
    + eapply rate_value; [apply derivable_pt_lim_plus; [apply derivable_pt_lim_minus; [exact Df|apply derivable_pt_lim_id]|apply derivable_pt_lim_const]|]. rewrite Hs. ring.
  - exists (fun x => call_of N f x k - f + k), ev. split; [assumption|]. split.
    + intros y Hy. rewrite black_formula by (try apply Nv; lra). cbv zeta. rewrite !Hs. apply f_equal. unfold call_of. ring.
    + eapply rate_value; [apply derivable_pt_lim_plus; [apply derivable_pt_lim_minus; [exact Dv|apply derivable_pt_lim_const]|apply derivable_pt_lim_const]|]. ring.
  - exists (fun x => 2 * call_of N x v k - x + k), ef. split; [assumption|]. split.
    + intros y Hy. rewrite black_formula by (try apply Nf; lra). cbv zeta. rewrite !Hs. apply f_equal. unfold call_of. ring.
    + eapply rate_value; [apply derivable_pt_lim_plus; [apply derivable_pt_lim_minus; [apply derivable_pt_lim_mult; [apply derivable_pt_lim_const|exact Df]|apply derivable_pt_lim_id]|apply derivable_pt_lim_const]|]. unfold fct_cte. rewrite Hs. ring.
  - exists (fun x => 2 * call_of N f x k - f + k), ev. split; [assumption|]. split.
    + intros y Hy. rewrite black_formula by (try apply Nv; lra). cbv zeta. rewrite !Hs. apply f_equal. unfold call_of. ring.
    + eapply rate_value; [apply derivable_pt_lim_plus; [apply derivable_pt_lim_minus; [apply derivable_pt_lim_mult; [apply derivable_pt_lim_const|exact Dv]|apply derivable_pt_lim_const]|apply derivable_pt_lim_const]|]. unfold fct_cte. ring.
Qed.
Example C48_greeks_ex : (exists N n, normal_law N n) /\ counts (1 / 5) /\ epsilon < 100 * 110.
Proof. split; [exact normal_law_exists|]. split; [unfold counts, epsilon, Rabs; destruct Rcase_abs; lra|unfold epsilon; lra]. Qed.
Print Assumptions C48_black_greeks.

(** The same for the Bachelier price. *)
Theorem C48_bachelier_greeks N n f v k t : normal_law N n -> counts v -> epsilon < f * k -> t <> NotSet ->
  exists delta vega, bachelier_greeks N n f v k t = Ok (Some (delta, vega)) /\ rate (fun x => bachelier_opt N n x v k t) f delta /\ rate (fun x => bachelier_opt N n f x k t) v vega.
Proof.
  intros HN Hv Hfk Ht. pose proof eps_pos as He. pose proof (counts_ne v Hv) as Hv0. assert (0 < f * k) as Hp by lra. pose proof (bcall_fwd N n HN f v k Hv0) as Df. pose proof (bcall_vol N n HN f v k Hv0) as Dv.
  destruct (near_product f k Hfk) as (ef & Hef & Nf). destruct (near_vol v Hv) as (ev & Hev & Nv). pose proof (nl_sym _ _ HN) as Hs. unfold bachelier_greeks. unfold counts in Hv.
  destruct (reqb_spec v 0); [contradiction|].
  destruct t; [| | |contradiction]; do 2 eexists; (split; [reflexivity|split]).
  - exists (fun x => bcall_of N n x v k), ef. split; [assumption|]. split; [|exact Df]. intros y Hy. apply bach_formula; [lra|now apply Nf].
  - exists (fun x => bcall_of N n f x k), ev. split; [assumption|]. split; [|exact Dv]. intros y Hy. apply bach_formula; [now apply Nv|lra].
  - exists (fun x => bcall_of N n x v k - x + k), ef. split; [assumption|]. split.
    + intros y Hy. rewrite bach_formula by (try apply Nf; lra). cbv zeta. rewrite !Hs. apply f_equal. unfold bcall_of. ring.
    + eapply rate_value; [apply derivable_pt_lim_plus; [apply derivable_pt_lim_minus; [exact Df|apply derivable_pt_lim_id]|apply derivable_pt_lim_const]|]. rewrite Hs. ring.
  - exists (fun x => bcall_of N n f x k - f + k), ev. split; [assumption|]. split.
    + intros y Hy. rewrite bach_formula by (try apply Nv; lra). cbv zeta. rewrite !Hs. apply f_equal. unfold bcall_of. ring.
    + eapply rate_value; [apply derivable_pt_lim_plus; [apply derivable_pt_lim_minus; [exact Dv|apply derivable_pt_lim_const]|apply derivable_pt_lim_const]|]. ring.
  - exists (fun x => 2 * bcall_of N n x v k - x + k), ef. split; [assumption|]. split.
    + intros y Hy. rewrite bach_formula by (try apply Nf; lra). cbv zeta. apply f_equal. unfold bcall_of. ring.
    + eapply rate_value; [apply derivable_pt_lim_plus; [apply derivable_pt_lim_minus; [apply derivable_pt_lim_mult; [apply derivable_pt_lim_const|exact Df]|apply derivable_pt_lim_id]|apply derivable_pt_lim_const]|]. unfold fct_cte. rewrite Hs. ring.
  - exists (fun x => 2 * bcall_of N n f x k - f + k), ev. split; [assumption|]. split.
    + intros y Hy. rewrite bach_formula by (try apply Nv; lra). cbv zeta. apply f_equal. unfold bcall_of. ring.
    + eapply rate_value; [apply derivable_pt_lim_plus; [apply derivable_pt_lim_minus; [apply derivable_pt_lim_mult; [apply derivable_pt_lim_const|exact Dv]|apply derivable_pt_lim_const]|apply derivable_pt_lim_const]|]. unfold fct_cte. ring.
Qed.
Print Assumptions C48_bachelier_greeks.

Lemma black_values N n f v k : normal_law N n -> 0 < f -> 0 < k -> epsilon <= v -> epsilon <= f * k ->
  black_opt N f v k Call = Ok (call_of N f v k) /\ black_opt N f v k Put = Ok (call_of N k v f) /\ black_opt N f v k Straddle = Ok (call_of N f v k + call_of N k v f) /\
  call_of N f v k - call_of N k v f = f - k.
Proof.
  intros HN Hf Hk Hv Hp. pose proof eps_pos. destruct (black_parity N f v k (nl_sym _ _ HN)) as (c & p & w & E1 & E2 & E3 & H1 & H2).
  assert (black_opt N f v k Call = Ok (call_of N f v k)) as F1 by (rewrite black_formula by (try rewrite Rabs_pos_eq; lra); reflexivity).
  assert (black_opt N f v k Put = Ok (call_of N k v f)) as F2 by (rewrite black_formula by (try rewrite Rabs_pos_eq; lra); cbv zeta; rewrite (put_swap N) by lra; reflexivity).
  assert (c = call_of N f v k) by congruence. assert (p = call_of N k v f) by congruence. subst c p. rewrite E3, H2. auto.
Qed.
Lemma bach_values N n f v k : normal_law N n -> epsilon <= v -> epsilon <= f * k ->
  bachelier_opt N n f v k Call = Ok (bcall_of N n f v k) /\ bachelier_opt N n f v k Put = Ok (bcall_of N n k v f) /\ bachelier_opt N n f v k Straddle = Ok (bcall_of N n f v k + bcall_of N n k v f) /\
  bcall_of N n f v k - bcall_of N n k v f = f - k.
Proof.
  intros HN Hv Hp. pose proof eps_pos. destruct (bach_parity N n f v k (nl_sym _ _ HN)) as (c & p & w & E1 & E2 & E3 & H1 & H2).
  assert (bachelier_opt N n f v k Call = Ok (bcall_of N n f v k)) as F1 by (rewrite bach_formula by (try rewrite Rabs_pos_eq; lra); reflexivity).
  assert (bachelier_opt N n f v k Put = Ok (bcall_of N n k v f)) as F2 by (rewrite bach_formula by (try rewrite Rabs_pos_eq; lra); cbv zeta; rewrite (bput_swap N n HN) by lra; reflexivity).
  assert (c = bcall_of N n f v k) by congruence. assert (p = bcall_of N n k v f) by congruence. subst c p. rewrite E3, H2. auto.
Qed.
Lemma ok_eq (a b : R) (o : outcome R) : o = Ok a -> o = Ok b -> a = b. Proof. congruence. Qed.
Lemma black_above N n f v k t x y : normal_law N n -> 0 < f -> 0 < k -> epsilon <= v -> epsilon <= f * k -> black_opt N f v k t = Ok x -> payout t f k = Ok y -> y < x.
Proof.
  intros HN Hf Hk Hv Hp E E'. pose proof eps_pos. destruct (black_values N n f v k HN Hf Hk Hv Hp) as (E1 & E2 & E3 & H1). pose proof (call_pos N n HN f v k Hf Hk ltac:(lra)). pose proof (call_pos N n HN k v f Hk Hf ltac:(lra)).
  destruct t; [rewrite <- (ok_eq _ _ _ E1 E), <- (ok_eq _ _ _ eq_refl E')|rewrite <- (ok_eq _ _ _ E2 E), <- (ok_eq _ _ _ eq_refl E')|rewrite <- (ok_eq _ _ _ E3 E), <- (ok_eq _ _ _ eq_refl E')|discriminate]; unfold Rmax, Rabs; try destruct (Rle_dec _ _); try destruct (Rcase_abs _); lra.
Qed.
Lemma bach_above N n f v k t x y : normal_law N n -> epsilon <= v -> epsilon <= f * k -> bachelier_opt N n f v k t = Ok x -> payout t f k = Ok y -> y < x.
Proof.
  intros HN Hv Hp E E'. pose proof eps_pos. destruct (bach_values N n f v k HN Hv Hp) as (E1 & E2 & E3 & H1). pose proof (bcall_pos N n HN f v k ltac:(lra)). pose proof (bcall_pos N n HN k v f ltac:(lra)).
  destruct t; [rewrite <- (ok_eq _ _ _ E1 E), <- (ok_eq _ _ _ eq_refl E')|rewrite <- (ok_eq _ _ _ E2 E), <- (ok_eq _ _ _ eq_refl E')|rewrite <- (ok_eq _ _ _ E3 E), <- (ok_eq _ _ _ eq_refl E')|discriminate]; unfold Rmax, Rabs; try destruct (Rle_dec _ _); try destruct (Rcase_abs _); lra.
Qed.
(** Bounds: with a non-negative volatility no price is below the payoff of the forward, and strictly above it when
    the volatility counts; for positive forward and strike a Black call is worth at most the forward and a put at
    most the strike. *)
Theorem C48_bounds N n f v k t x y : normal_law N n -> 0 <= v -> payout t f k = Ok y ->
  (0 < f -> 0 < k -> black_opt N f v k t = Ok x -> y <= x /\ (epsilon <= v -> epsilon <= f * k -> y < x) /\ (t = Call -> x <= f) /\ (t = Put -> x <= k)) /\
  (bachelier_opt N n f v k t = Ok x -> y <= x /\ (epsilon <= v -> epsilon <= f * k -> y < x)).
Proof.
  intros HN Hv Ey. pose proof eps_pos as He. split.
  - intros Hf Hk Ex. destruct (black_cases N f v k t) as [E|[E1 E2]].
    + assert (x = y) as -> by congruence. split; [lra|]. split; [intros A B; apply (black_above N n f v k t y y); congruence||assumption|].
      split; intros ->; cbn [payout] in Ey; rewrite <- (ok_eq _ _ _ eq_refl Ey); unfold Rmax; destruct (Rle_dec _ _); lra.
    + rewrite Rabs_pos_eq in E1 by lra. pose proof (black_above N n f v k t x y HN Hf Hk E1 E2 Ex Ey) as Hlt. split; [lra|]. split; [auto|]. destruct (black_values N n f v k HN Hf Hk E1 E2) as (F1 & F2 & F3 & H1).
      assert (forall g j, 0 < g -> 0 < j -> call_of N g v j <= g) as Hup.
      { intros g j Hg Hj. unfold call_of. pose proof (N_one N n HN (d_plus g v j)). pose proof (N_pos N n HN (d_minus g v j)). nra. }
      split; intros ->; [rewrite <- (ok_eq _ _ _ F1 Ex)|rewrite <- (ok_eq _ _ _ F2 Ex)]; auto.
  - intros Ex. destruct (bach_cases N n f v k t) as [E|[E1 E2]].
    + assert (x = y) as -> by congruence. split; [lra|]. intros A B. apply (bach_above N n f v k t y y); congruence||assumption.
    + rewrite Rabs_pos_eq in E1 by lra. pose proof (bach_above N n f v k t x y HN E1 E2 Ex Ey). split; [lra|auto].
Qed.
Print Assumptions C48_bounds.

Lemma black_rises N n f k t v1 v2 x1 x2 : normal_law N n -> 0 < f -> 0 < k -> epsilon <= f * k -> 0 <= v1 -> v1 < v2 -> epsilon <= v2 -> black_opt N f v1 k t = Ok x1 -> black_opt N f v2 k t = Ok x2 -> x1 < x2.
Proof.
  intros HN Hf Hk Hp H0 H12 H2 E1 E2. pose proof eps_pos as He. destruct (Rle_lt_dec epsilon v1) as [H1|H1].
  - assert (forall g j, 0 < g -> 0 < j -> call_of N g v1 j < call_of N g v2 j) as Hup.
    { intros g j Hg Hj. apply (mono_lt (fun v => call_of N g v j) (fun v => g * n (d_plus g v j))); [assumption| |].
      - intros v Hv. apply (call_vol N n HN); [nra|lra].
      - intros v Hv. apply Rmult_lt_0_compat; [assumption|apply (n_pos N n HN)]. }
    pose proof (Hup f k Hf Hk). pose proof (Hup k f Hk Hf). destruct (black_values N n f v1 k HN Hf Hk H1 Hp) as (A1 & A2 & A3 & _). destruct (black_values N n f v2 k HN Hf Hk H2 Hp) as (B1 & B2 & B3 & _).
    destruct t; [rewrite <- (ok_eq _ _ _ A1 E1), <- (ok_eq _ _ _ B1 E2)|rewrite <- (ok_eq _ _ _ A2 E1), <- (ok_eq _ _ _ B2 E2)|rewrite <- (ok_eq _ _ _ A3 E1), <- (ok_eq _ _ _ B3 E2)|rewrite black_formula in E1 by (try rewrite Rabs_pos_eq; lra); discriminate]; lra.
  - apply (black_above N n f v2 k t x2 x1); try assumption. rewrite <- E1. symmetry. apply (C48_zero_vol N n). rewrite Rabs_pos_eq; lra.
Qed.
Lemma bach_rises N n f k t v1 v2 x1 x2 : normal_law N n -> epsilon <= f * k -> 0 <= v1 -> v1 < v2 -> epsilon <= v2 -> bachelier_opt N n f v1 k t = Ok x1 -> bachelier_opt N n f v2 k t = Ok x2 -> x1 < x2.
Proof.
  intros HN Hp H0 H12 H2 E1 E2. pose proof eps_pos as He. destruct (Rle_lt_dec epsilon v1) as [H1|H1].
  - assert (forall g j, bcall_of N n g v1 j < bcall_of N n g v2 j) as Hup.
    { intros g j. apply (mono_lt (fun v => bcall_of N n g v j) (fun v => n ((g - j) / v))); [assumption| |].
      - intros v Hv. apply (bcall_vol N n HN). lra.
      - intros v Hv. apply (n_pos N n HN). }
    pose proof (Hup f k). pose proof (Hup k f). destruct (bach_values N n f v1 k HN H1 Hp) as (A1 & A2 & A3 & _). destruct (bach_values N n f v2 k HN H2 Hp) as (B1 & B2 & B3 & _).
    destruct t; [rewrite <- (ok_eq _ _ _ A1 E1), <- (ok_eq _ _ _ B1 E2)|rewrite <- (ok_eq _ _ _ A2 E1), <- (ok_eq _ _ _ B2 E2)|rewrite <- (ok_eq _ _ _ A3 E1), <- (ok_eq _ _ _ B3 E2)|rewrite bach_formula in E1 by (try rewrite Rabs_pos_eq; lra); discriminate]; lra.
  - apply (bach_above N n f v2 k t x2 x1); try assumption. rewrite <- E1. symmetry. apply (C48_zero_vol N n). rewrite Rabs_pos_eq; lra.
Qed.
(** More volatility never lowers a price, and raises it when it counts: so a price has at most one volatility. *)
Theorem C48_vol_increasing N n f k t v1 v2 x1 x2 : normal_law N n -> 0 <= v1 -> v1 < v2 ->
  (0 < f -> 0 < k -> black_opt N f v1 k t = Ok x1 -> black_opt N f v2 k t = Ok x2 -> x1 <= x2 /\ (epsilon <= v2 -> epsilon <= f * k -> x1 < x2)) /\
  (bachelier_opt N n f v1 k t = Ok x1 -> bachelier_opt N n f v2 k t = Ok x2 -> x1 <= x2 /\ (epsilon <= v2 -> epsilon <= f * k -> x1 < x2)).
Proof.
  intros HN H0 H12. pose proof eps_pos as He. split.
  - intros Hf Hk E1 E2. split; [|intros A B; now apply (black_rises N n f k t v1 v2)]. destruct (Rle_lt_dec epsilon v2) as [A|A]; [destruct (Rle_lt_dec epsilon (f * k)) as [B|B]; [left; now apply (black_rises N n f k t v1 v2)|]|].
    + right. destruct (black_cases N f v1 k t) as [C|C]; [|lra]. destruct (black_cases N f v2 k t) as [D|D]; [congruence|lra].
    + right. destruct (C48_zero_vol N n f v1 k t) as [C _]; [rewrite Rabs_pos_eq; lra|]. destruct (C48_zero_vol N n f v2 k t) as [D _]; [rewrite Rabs_pos_eq; lra|]. congruence.
  - intros E1 E2. split; [|intros A B; now apply (bach_rises N n f k t v1 v2)]. destruct (Rle_lt_dec epsilon v2) as [A|A]; [destruct (Rle_lt_dec epsilon (f * k)) as [B|B]; [left; now apply (bach_rises N n f k t v1 v2)|]|].
    + right. destruct (bach_cases N n f v1 k t) as [C|C]; [|lra]. destruct (bach_cases N n f v2 k t) as [D|D]; [congruence|lra].
    + right. destruct (C48_zero_vol N n f v1 k t) as [_ C]; [rewrite Rabs_pos_eq; lra|]. destruct (C48_zero_vol N n f v2 k t) as [_ D]; [rewrite Rabs_pos_eq; lra|]. congruence.
Qed.
Print Assumptions C48_vol_increasing.

(** the points the search holds *)
Definition seen (P : R * R -> Prop) (s : search) : Prop :=
  match s with Start _ _ _ _ => True | Hunt q _ _ _ _ => P q | Bracketed b => sign_change b /\ P (pa b) /\ P (pb b) /\ slot_d b <> Unset end.
Lemma seen_weaken (P Q : R * R -> Prop) s : (forall q, P q -> Q q) -> seen P s -> seen Q s.
Proof. intros H. destruct s as [| |b]; cbn [seen]; auto. intros (A & B & C & D). auto. Qed.
Lemma next_seen P s : seen P s -> exists x s1, search_next s = Ok (x, s1).
Proof.
  destruct s as [x st i t|q x st i t|b]; cbn [seen search_next]; intros H; [eauto|eauto|]. destruct H as (_ & _ & _ & Hd). unfold next_x. destruct (bisect b), (slot_d b); try contradiction; cbn [obind]; eauto.
Qed.
Lemma put_seen P s s1 x y : seen P s -> search_next s = Ok (Val x, s1) -> P (x, y) ->
  exists s', search_put s1 y = Ok s' /\ seen P s' /\ match s' with Bracketed b => pa b = (x, y) \/ pb b = (x, y) | _ => True end.
Proof.
  intros Hs E1 HP. destruct s as [x0 st i t'|k x0 st i t'|b'].
  - cbn [search_next] in E1. injection E1 as -> <-. cbn [search_put]. eexists. split; [reflexivity|]. cbn [seen]. auto.
  - cbn [search_next] in E1. injection E1 as -> <-. cbn [search_put]. destruct (rleb_spec (y * snd k) 0) as [Q|Q].
    + unfold initialize. cbn [snd]. destruct (rleb_spec (snd k * y) 0); [|lra]. destruct (rltb _ _); cbn [obind]; eexists; (split; [reflexivity|]); cbn [seen pa pb slot_d]; unfold sign_change; cbn [pa pb snd]; (split; [|auto]); (split; [lra|]); split; auto; split; auto; discriminate.
    + destruct (rltb _ _); eexists; (split; [reflexivity|]); cbn [seen]; auto.
  - cbn [search_next] in E1. destruct (next_x b') as [[x1 b1]| | |] eqn:En; try discriminate. cbn [obind] in E1. injection E1 as -> <-. cbn [search_put].
    unfold next_x in En. destruct (if bisect b' then _ else _) as [c| | |]; try discriminate. cbn [obind] in En. injection En as Ex <-. unfold put_y. cbn [slot_d pa pb pc]. rewrite Ex. destruct Hs as (S1 & S2 & S3 & S4). unfold sign_change in S1.
    destruct (rltb_spec 0 (y * snd (pa b'))) as [Q|Q]; cbn [fst snd].
    + assert (y * snd (pb b') <= 0) as Hs by (destruct (Rle_lt_dec (y * snd (pb b')) 0); [assumption|]; exfalso; assert (0 < (y * snd (pa b')) * (y * snd (pb b'))) by (now apply Rmult_lt_0_compat); nra).
      destruct (rltb _ _); cbn [obind]; eexists; (split; [reflexivity|]); cbn [seen pa pb slot_d]; unfold sign_change; cbn [pa pb snd]; (split; [|auto]); (split; [lra|]); split; auto; split; auto; discriminate.
    + destruct (rltb _ _); cbn [obind]; eexists; (split; [reflexivity|]); cbn [seen pa pb slot_d]; unfold sign_change; cbn [pa pb snd]; (split; [|auto]); (split; [lra|]); split; auto; split; auto; discriminate.
Qed.
Definition tried_point (opt : R -> outcome R) (price : R) (A : list R) (q : R * R) : Prop := In (exp (fst q)) A /\ opt (exp (fst q)) = Ok (snd q + price).
Lemma loop_ok opt x_tol f_tol price : (forall v, exists p, opt v = Ok p) -> forall m s A, seen (tried_point opt price A) s ->
  iv_loop opt x_tol f_tol price m s = Throw \/ exists r l, iv_loop opt x_tol f_tol price m s = Ok (r, l) /\ (length l <= m)%nat /\
    forall v, r = Some v -> 0 < v /\ In v l /\ solves opt x_tol f_tol price (A ++ l) v.
Proof.
  intros Ho. induction m as [|m IH]; intros s A Hs; [now left|]. cbn [iv_loop]. destruct (next_seen _ s Hs) as (x & s1 & En). rewrite En. cbn [obind]. destruct x as [| |x]; [right; exists None, []; split; [reflexivity|]; split; [cbn; lia|discriminate]..|].
  destruct (Ho (exp x)) as [p Ep]. rewrite Ep. cbn [obind]. assert (tried_point opt price (A ++ [exp x]) (x, p - price)) as HP.
  { split; cbn [fst snd]; [apply in_or_app; right; now left|]. rewrite Ep. apply f_equal. ring. }
  assert (seen (tried_point opt price (A ++ [exp x])) s) as Hs'. { revert Hs. apply seen_weaken. intros q [B C]. split; [apply in_or_app; now left|assumption]. }
  destruct (put_seen _ s s1 x (p - price) Hs' En HP) as (s2 & E2 & S2 & Hend). unfold converged. rewrite E2. cbn [obind]. destruct (rltb_spec (Rabs (p - price)) f_tol) as [Hf|Hf]; cbn [orb].
  { right. exists (Some (exp x)), [exp x]. split; [reflexivity|]. split; [cbn; lia|]. intros v Ev. injection Ev as <-. split; [apply exp_pos|]. split; [now left|]. exists p. auto. }
  destruct (match s2 with Bracketed b => rltb (width b) x_tol | _ => false end) eqn:Ew.
  - destruct s2 as [| |b]; try discriminate. destruct (rltb_spec (width b) x_tol) as [Hw|]; [|discriminate]. right. exists (Some (exp x)), [exp x]. split; [reflexivity|]. split; [cbn; lia|]. intros v Ev. injection Ev as <-. split; [apply exp_pos|]. split; [now left|].
    exists p. split; [assumption|]. right. destruct S2 as (Sg & [A1 A2] & [B1 B2] & _). unfold sign_change in Sg. unfold width in Hw. destruct Hend as [Hq|Hq]; rewrite Hq in *; cbn [fst snd] in *.
    + exists (exp (fst (pb b))), (snd (pb b) + price). split; [assumption|]. split; [apply exp_pos|]. split; [assumption|]. rewrite !ln_exp. split; [lra|exact Hw].
    + exists (exp (fst (pa b))), (snd (pa b) + price). split; [assumption|]. split; [apply exp_pos|]. split; [assumption|]. rewrite !ln_exp. split; [lra|]. rewrite Rabs_minus_sym. exact Hw.
  - destruct (IH s2 (A ++ [exp x]) S2) as [E|(r & l & E & Hl & Hr)]; rewrite E; cbn [obind]; [now left|right]. exists r, (exp x :: l). split; [reflexivity|]. split; [cbn [length]; lia|].
    intros v Ev. destruct (Hr v Ev) as (C1 & C2 & C3). split; [assumption|]. split; [now right|]. rewrite <- app_assoc in C3. exact C3.
Qed.
Lemma black_total N f k t : t <> NotSet -> forall v, exists p, black_opt N f v k t = Ok p.
Proof. intros Ht v. unfold black_opt. destruct (_ || _); destruct t; try contradiction; cbn [payout]; eauto. Qed.
Lemma bach_total N n f k t : t <> NotSet -> forall v, exists p, bachelier_opt N n f v k t = Ok p.
Proof. intros Ht v. unfold bachelier_opt. destruct (_ || _); destruct t; try contradiction; cbn [payout]; eauto. Qed.
(** Implied volatilities, for any N and n and all arguments: the search ends after at most thirty evaluations, with an
    error or a volatility; a volatility it returns is positive and solves the equation within the tolerances. *)
Theorem C48_implied N n f k t price guess :
  let x_tol := 1 / 10 ^ 10 * Rmax 1 f in let f_tol := 1 / 10 ^ 10 * Rmax 1 price in
  let good opt o := o = Throw \/ exists r l, o = Ok (r, l) /\ (length l <= 30)%nat /\ forall v, r = Some v -> 0 < v /\ solves opt x_tol f_tol price l v in
  good (fun v => black_opt N f v k t) (black_iv N f k t price guess) /\ good (fun v => bachelier_opt N n f v k t) (bachelier_iv N n f k t price guess).
Proof.
  intros x_tol f_tol good. assert (forall opt start, (t <> NotSet -> forall v, exists p, opt v = Ok p) -> good opt (implied opt f k t price start)) as H.
  { intros opt start Ho. unfold implied. destruct (payout t f k) as [y| | |] eqn:Ep; cbn [obind]; [|left; reflexivity|destruct t; discriminate..]. destruct (rltb price y); [now left|].
    assert (t <> NotSet) as Ht by (intros ->; discriminate). destruct (loop_ok opt x_tol f_tol price (Ho Ht) 30%nat (new_search start epsilon 0) [] Logic.I) as [E|(r & l & E & Hl & Hr)]; [left; exact E|right]. exists r, l. split; [exact E|]. split; [exact Hl|].
    intros v Ev. destruct (Hr v Ev) as (A & _ & B). now split. }
  split; apply H; intros Ht; [now apply black_total|now apply bach_total].
Qed.
Print Assumptions C48_implied.

Lemma implied_between (opt : R -> outcome R) x_tol f_tol price l v v0 : 0 < v -> 0 < v0 ->
  (forall w p, 0 < w -> opt w = Ok p -> (w < v0 -> p < price) /\ (v0 < w -> price < p)) ->
  solves opt x_tol f_tol price l v -> exists p, opt v = Ok p /\ (Rabs (p - price) < f_tol \/ Rabs (ln v - ln v0) < x_tol).
Proof.
  intros Hv H0 Hm (p & Ep & [H|(v' & p' & _ & Hv' & Ep' & Hs & Hl)]); exists p; (split; [assumption|]); [now left|right]. destruct (Hm v p Hv Ep) as [A1 A2]. destruct (Hm v' p' Hv' Ep') as [B1 B2].
  assert (forall a b, 0 < a -> a < b -> ln a < ln b) as Hln by (intros; now apply ln_increasing).
  destruct (Rtotal_order v v0) as [C|[->|C]].
  - apply A1 in C as Cp. destruct (Rlt_le_dec v' v0) as [D|D]; [apply B1 in D; exfalso; nra|]. pose proof (Hln v v0 Hv C). assert (ln v0 <= ln v') by (destruct D as [D| ->]; [left; now apply Hln|lra]). revert Hl. unfold Rabs. repeat destruct Rcase_abs; lra.
  - rewrite Rminus_eq_0, Rabs_R0. pose proof (Rabs_pos (ln v0 - ln v')). lra.
  - apply A2 in C as Cp. destruct (Rlt_le_dec v0 v') as [D|D]; [apply B2 in D; exfalso; nra|]. pose proof (Hln v0 v H0 C). assert (ln v' <= ln v0) by (destruct D as [D| ->]; [left; now apply Hln|lra]). revert Hl. unfold Rabs. repeat destruct Rcase_abs; lra.
Qed.
(** Round trip: the volatility implied by a Black or Bachelier price prices the option back within the tolerance, or
    its logarithm is within the tolerance of the volatility the price came from. *)
Theorem C48_implied_round_trip N n f k t price guess v0 v l : normal_law N n -> epsilon <= v0 -> epsilon <= f * k ->
  let x_tol := 1 / 10 ^ 10 * Rmax 1 f in let f_tol := 1 / 10 ^ 10 * Rmax 1 price in
  (0 < f -> 0 < k -> black_opt N f v0 k t = Ok price -> black_iv N f k t price guess = Ok (Some v, l) ->
   exists p, black_opt N f v k t = Ok p /\ (Rabs (p - price) < f_tol \/ Rabs (ln v - ln v0) < x_tol)) /\
  (bachelier_opt N n f v0 k t = Ok price -> bachelier_iv N n f k t price guess = Ok (Some v, l) ->
   exists p, bachelier_opt N n f v k t = Ok p /\ (Rabs (p - price) < f_tol \/ Rabs (ln v - ln v0) < x_tol)).
Proof.
  intros HN H0 Hp x_tol f_tol. pose proof eps_pos as He. destruct (C48_implied N n f k t price guess) as [[C|(r & l' & C & _ & Hr)] G]; split.
  - intros Hf Hk Eq Ei. congruence.
  - intros Eq Ei. destruct G as [G|(r & l' & G & _ & Hr)]; [congruence|]. assert (r = Some v /\ l' = l) as [-> ->] by (split; congruence). destruct (Hr v eq_refl) as [Hv Hs]. apply (implied_between (fun v => bachelier_opt N n f v k t) x_tol f_tol price l v v0); [assumption|lra| |assumption].
    intros w p Hw Ep. split; intros Hlt; [apply (bach_rises N n f k t w v0)|apply (bach_rises N n f k t v0 w)]; try assumption; lra.
  - intros Hf Hk Eq Ei. assert (r = Some v /\ l' = l) as [-> ->] by (split; congruence). destruct (Hr v eq_refl) as [Hv Hs]. apply (implied_between (fun v => black_opt N f v k t) x_tol f_tol price l v v0); [assumption|lra| |assumption].
    intros w p Hw Ep. split; intros Hlt; [apply (black_rises N n f k t w v0)|apply (black_rises N n f k t v0 w)]; try assumption; lra.
  - intros Eq Ei. destruct G as [G|(r' & l2 & G & _ & Hr')]; [congruence|]. assert (r' = Some v /\ l2 = l) as [-> ->] by (split; congruence). destruct (Hr' v eq_refl) as [Hv Hs]. apply (implied_between (fun v => bachelier_opt N n f v k t) x_tol f_tol price l v v0); [assumption|lra| |assumption].
    intros w p Hw Ep. split; intros Hlt; [apply (bach_rises N n f k t w v0)|apply (bach_rises N n f k t v0 w)]; try assumption; lra.
Qed.
(** the search does return when the guess is right *)
Example C48_implied_ex N n : normal_law N n -> exists price l, black_opt N 100 1 110 Call = Ok price /\ black_iv N 100 110 Call price 1 = Ok (Some (exp 0), l).
Proof.
  intros HN. destruct (black_values N n 100 1 110 HN) as (E & _); [lra|lra|unfold epsilon; lra..|]. exists (call_of N 100 1 110). pose proof (call_pos N n HN 100 1 110 ltac:(lra) ltac:(lra) ltac:(lra)) as Hc. set (c := call_of N 100 1 110) in *. clearbody c.
  exists [exp 0]. split; [exact E|]. unfold black_iv, implied. cbn [payout obind]. destruct (rltb_spec c (Rmax 0 (100 - 110))) as [H|H]; [exfalso; unfold Rmax in H; destruct (Rle_dec _ _); lra|].
  cbn [iv_loop]. unfold new_search. cbn [search_next obind]. destruct (rltb_spec 0 1); [|lra]. rewrite ln_1, exp_0, E. cbn [obind]. unfold converged. cbn [search_put obind].
  rewrite Rminus_eq_0, Rabs_R0. destruct (rltb_spec 0 (1 / 10 ^ 10 * Rmax 1 c)) as [|Hn]; [reflexivity|]. exfalso. apply Hn. pose proof (Rmax_l 1 c). lra.
Qed.
Print Assumptions C48_implied_round_trip.

(** A Bachelier option on a forward or with a strike that is zero, or of opposite signs, is priced as if there were no
    volatility, whatever the volatility. *)
Theorem C48_bachelier_negative_refuted N n : exists f k, forall v, bachelier_opt N n f v k Call = Ok 0.
Proof.
  exists 0, (1 / 100). intros v. unfold bachelier_opt. destruct (is_positive_spec (0 * (1 / 100))) as [H|H]; [pose proof eps_pos; lra|]. cbn [negb]. rewrite orb_true_r. cbn [payout]. apply f_equal. unfold Rmax. destruct (Rle_dec _ _); lra.
Qed.
Print Assumptions C48_bachelier_negative_refuted.

(** So no volatility can be implied there: at a zero forward the search always fails, from every guess, although a
    Bachelier volatility for the price exists (the formula itself is v n(0)). *)
Theorem C48_bachelier_iv_refuted N n guess : 0 < n 0 -> bachelier_iv N n 0 0 Call 1 guess = Throw /\ exists v, 0 < v /\ (0 - 0) * N ((0 - 0) / v) + v * n ((0 - 0) / v) = 1.
Proof.
  intros Hn. split.
  - unfold bachelier_iv, implied. cbn [payout obind]. destruct (rltb_spec 1 (Rmax 0 (0 - 0))) as [|_]; [reflexivity|].
    assert (forall v, bachelier_opt N n 0 v 0 Call = Ok 0) as E.
    { intros v. unfold bachelier_opt. destruct (is_positive_spec (0 * 0)) as [H|H]; [pose proof eps_pos; lra|]. cbn [negb]. rewrite orb_true_r. cbn [payout]. apply f_equal. unfold Rmax. destruct (Rle_dec _ _); lra. }
    set (xt := 1 / 10 ^ 10 * Rmax 1 0). set (ft := 1 / 10 ^ 10 * Rmax 1 1). assert (ft < 1) as Hft by (unfold ft, Rmax; destruct (Rle_dec _ _); lra).
    assert (forall m s, (match s with Start _ _ _ _ => True | Hunt q _ _ _ _ => snd q = -1 | Bracketed _ => False end) -> iv_loop (fun v => bachelier_opt N n 0 v 0 Call) xt ft 1 m s = Throw) as Hloop; [|apply Hloop; exact Logic.I].
    induction m as [|m IH]; intros s Hs; [reflexivity|]. cbn [iv_loop]. destruct s as [x st i t|q x st i t|b]; [| |contradiction]; cbn [search_next obind]; rewrite E; cbn [obind]; unfold converged; cbn [search_put obind].
    + destruct (rltb_spec (Rabs (0 - 1)) ft) as [H|H]; [exfalso; unfold Rabs in H; destruct Rcase_abs; lra|]. cbn [orb]. rewrite IH; [reflexivity|]. cbn [snd]. lra.
    + rewrite Hs. destruct (rleb_spec ((0 - 1) * -1) 0); [lra|]. destruct (rltb_spec (Rabs (-1)) (Rabs (0 - 1))) as [H|_]; [exfalso; unfold Rabs in H; repeat destruct Rcase_abs; lra|]. cbn [obind].
      destruct (rltb_spec (Rabs (0 - 1)) ft) as [H|H]; [exfalso; unfold Rabs in H; destruct Rcase_abs; lra|]. cbn [orb]. rewrite IH; [reflexivity|]. cbn [snd]. lra.
  - exists (/ n 0). split; [now apply Rinv_0_lt_compat|]. rewrite Rminus_eq_0. unfold Rdiv. rewrite !Rmult_0_l, Rplus_0_l. apply Rinv_l. lra.
Qed.
Print Assumptions C48_bachelier_iv_refuted.

(** With both forward and strike negative the Black formula is used and gives a negative price. *)
Theorem C48_black_negative_refuted N n : normal_law N n -> exists x, black_opt N (-1) 1 (-1) Call = Ok x /\ x < 0.
Proof.
  intros HN. rewrite black_formula; [|unfold epsilon; rewrite Rabs_R1; lra|unfold epsilon; lra]. eexists. split; [reflexivity|]. unfold d_plus. set (m := d_minus (-1) 1 (-1)). clearbody m. pose proof (N_lt N n HN m (m + 1) ltac:(lra)). lra.
Qed.
Print Assumptions C48_black_negative_refuted.

(** Sensitivities can be asked for by name, but not by the names the distribution itself reports. *)
Theorem C48_names_refuted vol g : parameter_derivatives vol g parameter_names = Throw /\
  parameter_derivatives vol g [lit "delta"%string; lit "vega"%string; lit "volvega"%string] = Ok [(lit "delta"%string, fst g); (lit "vega"%string, snd g); (lit "volvega"%string, vol * snd g)].
Proof. split; reflexivity. Qed.
Print Assumptions C48_names_refuted.
