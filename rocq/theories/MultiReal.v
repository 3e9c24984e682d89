(** With real numbers, each column of adjoints evolves as the adjoints of one result do. *)
From Coq Require Import Reals List Arith Bool Lia Lra.
From Verif Require Import Base Vec BlockModel BlockProofs AadModel AadSpec AadStore AadProofs AadExec AadRealSpec AadReal AadGradient MultiModel MultiProofs.
Import ListNotations.
Open Scope R_scope.

Section Columns.
Variable K : nat.
Notation row := (@row R).
Notation anode := (@anode R).
Notation mrow := (@m_row R).
Notation mdeps := (@m_deps R).
Notation mset := (@m_set R).
Notation radd := (row_add Rplus Rmult).
Notation mdown := (m_down Rplus Rmult).
Notation mone := (m_one Rplus Rmult r_tiny r_is_zero).
Notation mall := (m_all Rplus Rmult r_tiny r_is_zero).
Notation zadj := (adj 0).
Notation zdeps := (deps 0).
Notation zset := (a_set 0).
Notation zdown := (a_down 0 Rplus Rmult).
Notation zone := (a_one 0 Rplus Rmult r_is_zero r_is_zero).
Notation zall := (a_all 0 Rplus Rmult r_is_zero r_is_zero).

Definition col (j : nat) (A : list row) : list anode := map (fun a : row => (fst a, nth j (snd a) 0)) A.
Definition wide (A : list row) : Prop := Forall (fun a : row => length (snd a) = K) A.
(** dependencies go down *)
Definition low (A : list row) : Prop := forall k, Forall (fun w => (snd w < k)%nat) (mdeps A k).

Lemma col_length j A : length (col j A) = length A.
Proof. apply map_length. Qed.
Lemma col_nth j A k : nth k (col j A) ([], 0) = (mdeps A k, nth j (mrow A k) 0).
Proof.
  unfold m_deps, m_row. revert k. induction A as [|a A IH]; intros [|k]; cbn [col map nth m_blank fst snd]; try reflexivity; try (destruct j; reflexivity). apply IH.
Qed.
Lemma col_adj j A k : zadj (col j A) k = nth j (mrow A k) 0.
Proof. unfold adj, blank_a. now rewrite col_nth. Qed.
Lemma col_deps j A k : zdeps (col j A) k = mdeps A k.
Proof. unfold deps, blank_a. now rewrite col_nth. Qed.
Lemma map_set_nth {X Y} (f : X -> Y) l : forall k x, map f (set_nth l k x) = set_nth (map f l) k (f x).
Proof. induction l as [|y l IH]; intros [|k] x; cbn; try reflexivity. now rewrite IH. Qed.
Lemma col_set j A k r : col j (mset A k r) = zset (col j A) k (nth j r 0).
Proof. unfold m_set, a_set. rewrite col_deps. unfold col. now rewrite map_set_nth. Qed.
Lemma wide_row A k : wide A -> (k < length A)%nat -> length (mrow A k) = K.
Proof. intros H Hk. unfold m_row. unfold wide in H. rewrite Forall_forall in H. apply H, nth_In, Hk. Qed.
Lemma wide_set A k r : wide A -> length r = K -> wide (mset A k r).
Proof.
  intros H Hr. unfold wide, m_set in *. set (d := mdeps A k). clearbody d. revert k. induction H as [|a A Ha H IH]; intros [|k]; cbn [set_nth]; constructor; auto.
Qed.
Lemma low_set A k r : low A -> (k < length A)%nat -> low (mset A k r).
Proof. intros H Hk i. rewrite m_set_deps by exact Hk. apply H. Qed.
Lemma radd_nth w j : forall xs ys, length xs = length ys -> (j < length ys)%nat -> nth j (radd w xs ys) 0 = nth j ys 0 + w * nth j xs 0.
Proof.
  unfold row_add. induction j as [|j IH]; intros [|x xs] [|y ys] Hl Hj; cbn [length combine map nth fst snd] in *; try discriminate; try lia; [reflexivity|]. apply IH; lia.
Qed.
Lemma mdown_wide xs ws : forall A, wide A -> length xs = K -> Forall (fun w => (snd w < length A)%nat) ws -> wide (mdown xs ws A).
Proof.
  induction ws as [|[w p] ws IH]; intros A HA Hx Hw; cbn [m_down]; [exact HA|]. inversion Hw as [|? ? Hp Hw']; subst. cbn [snd] in Hp. apply IH; [|exact Hx|now rewrite m_set_length].
  apply wide_set; [exact HA|]. apply row_add_length; [now apply wide_row|exact Hx].
Qed.
Lemma mdown_low xs ws : forall A, low A -> Forall (fun w => (snd w < length A)%nat) ws -> low (mdown xs ws A).
Proof.
  induction ws as [|[w p] ws IH]; intros A HA Hw; cbn [m_down]; [exact HA|]. inversion Hw as [|? ? Hp Hw']; subst. cbn [snd] in Hp. apply IH; [|now rewrite m_set_length]. now apply low_set.
Qed.
Lemma mdown_col j xs ws : forall A, wide A -> length xs = K -> (j < K)%nat -> Forall (fun w => (snd w < length A)%nat) ws -> col j (mdown xs ws A) = zdown (nth j xs 0) ws (col j A).
Proof.
  induction ws as [|[w p] ws IH]; intros A HA Hx Hj Hw; cbn [m_down a_down]; [reflexivity|]. inversion Hw as [|? ? Hp Hw']; subst. cbn [snd] in Hp. pose proof (wide_row A p HA Hp) as Lp.
  rewrite IH; auto; [|apply wide_set; [exact HA|now apply row_add_length]|now rewrite m_set_length].
  rewrite col_set, radd_nth, col_adj by lia. f_equal. f_equal. ring.
Qed.
Lemma zset_same A k : zset A k (zadj A k) = A.
Proof.
  unfold a_set, deps, adj. rewrite <- surjective_pairing. revert k. induction A as [|a A IH]; intros [|k]; cbn [set_nth nth]; try reflexivity. now rewrite IH.
Qed.
Lemma zdown_zero ws : forall A, zdown 0 ws A = A.
Proof. induction ws as [|[w p] ws IH]; intros A; cbn [a_down]; [reflexivity|]. replace (zadj A p + 0 * w) with (zadj A p) by ring. now rewrite zset_same, IH. Qed.
Lemma is_zero_iff x : r_is_zero x = true <-> x = 0.
Proof. unfold r_is_zero. destruct (Req_EM_T x 0); split; intros H; auto; discriminate. Qed.

Lemma mone_ok k A d : wide A -> low A -> (k < length A)%nat -> snd (mone k (A, d)) = false ->
  d = false /\ wide (fst (mone k (A, d))) /\ low (fst (mone k (A, d))) /\ forall j, (j < K)%nat -> (col j (fst (mone k (A, d))), false) = zone k (col j A, false).
Proof.
  intros HA Hl Hk Hd. unfold m_one in *. unfold a_one. pose proof (wide_row A k HA Hk) as Lk.
  assert (HF : Forall (fun w => (snd w < length A)%nat) (mdeps A k)) by (eapply Forall_impl; [|apply (Hl k)]; cbv beta; intros; lia).
  destruct (length (mdeps A k) =? 0)%nat eqn:E0.
  { cbn [fst snd] in *. split; [exact Hd|]. split; [exact HA|]. split; [exact Hl|]. intros j Hj. rewrite col_deps, E0. reflexivity. }
  destruct (forallb r_tiny (mrow A k)) eqn:Et; cbn [fst snd] in *.
  - apply orb_false_elim in Hd as [Hd Hz]. apply negb_false_iff in Hz. split; [exact Hd|]. split; [exact HA|]. split; [exact Hl|]. intros j Hj. rewrite col_deps, E0, col_adj.
    rewrite forallb_forall in Hz. rewrite (Hz (nth j (mrow A k) 0)) by (apply nth_In; lia). reflexivity.
  - split; [exact Hd|]. split; [now apply mdown_wide|]. split; [now apply mdown_low|]. intros j Hj. rewrite col_deps, E0, col_adj, mdown_col by auto.
    destruct (r_is_zero (nth j (mrow A k) 0)) eqn:Ez; [|reflexivity]. apply is_zero_iff in Ez. rewrite Ez, zdown_zero. cbn. reflexivity.
Qed.
Lemma mall_drops l : forall s, snd (mall l s) = false -> snd s = false.
Proof.
  induction l as [|k l IH]; intros s H; [exact H|]. unfold m_all in *. cbn [fold_left] in H. apply IH in H. destruct s as [A d]. unfold m_one in H. destruct (length (mdeps A k) =? 0)%nat; [exact H|].
  destruct (forallb r_tiny (mrow A k)); cbn [snd] in *; [apply orb_false_elim in H; tauto|exact H].
Qed.
Lemma mall_ok l : forall A d, wide A -> low A -> Forall (fun k => (k < length A)%nat) l -> snd (mall l (A, d)) = false ->
  forall j, (j < K)%nat -> (col j (fst (mall l (A, d))), false) = zall l (col j A, false).
Proof.
  induction l as [|k l IH]; intros A d HA Hl HF Hd j Hj; [reflexivity|]. inversion HF as [|? ? Hk HF']; subst. unfold m_all, a_all in *. cbn [fold_left] in *.
  pose proof (mall_drops l (mone k (A, d)) Hd) as Hd1. destruct (mone_ok k A d HA Hl Hk Hd1) as (-> & W & L & C). rewrite <- (C j Hj).
  assert (length (fst (mone k (A, false))) = length A) as El by (rewrite m_one_length; reflexivity).
  rewrite (surjective_pairing (mone k (A, false))) in Hd |- *. apply IH; [exact W|exact L| |exact Hd|exact Hj]. eapply Forall_impl; [|exact HF']. cbv beta. intros a Ha. cbn [fst]. rewrite m_one_length. exact Ha.
Qed.
(** a node above the result has no adjoint to pass on *)
Lemma zone_zero k A : zadj A k = 0 -> zone k (A, false) = (A, false).
Proof. intros H. unfold a_one. destruct (length (zdeps A k) =? 0)%nat; [reflexivity|]. rewrite H. assert (r_is_zero 0 = true) as -> by now apply is_zero_iff. reflexivity. Qed.
Lemma zall_above A r n : (r <= n)%nat -> (forall k, (r < k)%nat -> zadj A k = 0) -> zall (downto n 0) (A, false) = zall (downto r 0) (A, false).
Proof.
  intros Hr H. induction n as [|n IH]; [replace r with 0%nat by lia; reflexivity|]. destruct (Nat.eq_dec r (S n)) as [->|Hne]; [reflexivity|].
  rewrite downto_S by lia. unfold a_all in *. cbn [fold_left]. rewrite zone_zero by (apply H; lia). replace (S n - 1)%nat with n by lia. apply IH. lia.
Qed.
Lemma nth_set_col xs j i (x : R) : (j < length xs)%nat -> nth i (set_nth xs j x) 0 = if (i =? j)%nat then x else nth i xs 0.
Proof. intros H. now rewrite nth_set_nth. Qed.
Lemma mseed_ok rs : forall j A, wide A -> low A -> Forall (fun r => (r < length A)%nat) rs -> (j + length rs <= K)%nat ->
  wide (m_seed 1 j rs A) /\ low (m_seed 1 j rs A) /\
  forall i, col i (m_seed 1 j rs A) = if ((j <=? i) && (i <? j + length rs))%nat then zset (col i A) (nth (i - j) rs 0%nat) 1 else col i A.
Proof.
  induction rs as [|r rs IH]; intros j A HA Hl HF Hj; cbn [m_seed length] in *.
  - split; [exact HA|]. split; [exact Hl|]. intros i. destruct (Nat.leb_spec j i), (Nat.ltb_spec i (j + 0)); try reflexivity. lia.
  - inversion HF as [|? ? Hr HF']; subst. pose proof (wide_row A r HA Hr) as Lr.
    destruct (IH (S j) (mset A r (set_nth (mrow A r) j 1))) as (W & L & C); [apply wide_set; [exact HA|now rewrite set_nth_length]|now apply low_set|now rewrite m_set_length|lia|].
    split; [exact W|]. split; [exact L|]. intros i. rewrite C. clear C IH.
    assert (E : col i (mset A r (set_nth (mrow A r) j 1)) = if (i =? j)%nat then zset (col i A) r 1 else col i A).
    { rewrite col_set, nth_set_col by lia. destruct (Nat.eqb_spec i j); [reflexivity|]. rewrite <- (col_adj i A r). apply zset_same. }
    rewrite E. clear E. destruct (Nat.eqb_spec i j) as [Hne|Hne]; [subst i|].
    + destruct (Nat.leb_spec (S j) j); [lia|]. destruct (Nat.leb_spec j j); [|lia]. destruct (Nat.ltb_spec j (j + S (length rs))); [|lia]. cbn [andb]. now rewrite Nat.sub_diag.
    + destruct (Nat.leb_spec (S j) i), (Nat.leb_spec j i), (Nat.ltb_spec i (S j + length rs)), (Nat.ltb_spec i (j + S (length rs))); cbn [andb]; try reflexivity; try lia.
      replace (i - j)%nat with (S (i - S j)) by lia. reflexivity.
Qed.

(** * The whole computation *)
Variables ncdf erfc : R -> R.
Notation u_eval := (r_ueval ncdf erfc).
Notation rec := (recorded 0 1 Rmult r_beval r_bleft r_bright u_eval r_uder).
Definition zeros (l : list (list (R * nat))) : list row := map (fun ws => (ws, repeat 0 K)) l.

Lemma nth_zeros j n : nth j (repeat 0 n) 0 = 0.
Proof. revert j. induction n as [|n IH]; intros [|j]; cbn; auto. Qed.
Lemma col_zeros j l : col j (zeros l) = fresh 0 l.
Proof. unfold col, zeros, fresh. rewrite map_map. apply map_ext. intros ws. cbn [fst snd]. now rewrite nth_zeros. Qed.
Lemma wide_zeros l : wide (zeros l).
Proof. unfold wide, zeros. apply Forall_forall. intros a Ha. apply in_map_iff in Ha as (ws & <- & _). apply repeat_length. Qed.
Lemma zeros_deps l k : mdeps (zeros l) k = nth k l [].
Proof. unfold m_deps, zeros. revert k. induction l as [|ws l IH]; intros [|k]; cbn [map nth m_blank fst]; try reflexivity. apply IH. Qed.
Lemma fresh_zero l k : zadj (fresh 0 l) k = 0.
Proof. unfold adj, fresh, blank_a. revert k. induction l as [|ws l IH]; intros [|k]; cbn [map nth snd]; try reflexivity. apply IH. Qed.
Lemma low_zeros l : (forall k, Forall (fun w => (snd w < k)%nat) (nth k l [])) -> low (zeros l).
Proof. intros H k. rewrite zeros_deps. apply H. Qed.

Lemma zall_never l : forall A, snd (zall l (A, false)) = false.
Proof.
  induction l as [|k l IH]; intros A; [reflexivity|]. unfold a_all in *. cbn [fold_left]. unfold a_one at 2. destruct (length (zdeps A k) =? 0)%nat; [apply IH|].
  destruct (r_is_zero (zadj A k)) eqn:E; cbn [negb orb]; apply IH.
Qed.
(** adjoint [j] of input node [q] after the results [rs] are propagated *)
Lemma column_value x p rs j r i q d : scoped p 0 -> smooth_program ncdf erfc x p [] -> low (zeros (rec x p [])) -> Forall (fun r => (r < length p)%nat) rs -> (length rs <= K)%nat ->
  nth_error rs j = Some r -> only_input p i q ->
  snd (mall (downto (length p - 1) 0) (m_seed 1 0 rs (zeros (rec x p [])), d)) = false ->
  derivable_pt_lim (fun y => nth r (r_values ncdf erfc (with_input x i y) p []) 0) (x i)
    (nth j (mrow (fst (mall (downto (length p - 1) 0) (m_seed 1 0 rs (zeros (rec x p [])), d))) q) 0).
Proof.
  intros Hs Hsm Hlow HF HK Hj Hq Hd. set (A0 := zeros (rec x p [])) in *.
  assert (length A0 = length p) as HL by (unfold A0, zeros; now rewrite map_length, recorded_length).
  assert (j < length rs)%nat as Hjr by (apply nth_error_Some; congruence).
  assert (r < length p)%nat as Hr by (rewrite Forall_forall in HF; apply HF; eapply nth_error_In; exact Hj).
  destruct (mseed_ok rs 0 A0 (wide_zeros _) Hlow) as (W & L & C); [now rewrite HL|lia|].
  assert (Forall (fun k => (k < length (m_seed 1%R 0 rs A0))%nat) (downto (length p - 1) 0)) as HFd.
  { rewrite m_seed_length, HL. unfold downto. apply Forall_forall. intros k Hk. apply in_rev, in_seq in Hk. lia. }
  pose proof (mall_ok _ _ d W L HFd Hd j ltac:(lia)) as E. rewrite (C j) in E. clear C.
  destruct (Nat.leb_spec 0 j); [|lia]. destruct (Nat.ltb_spec j (0 + length rs)); [|lia]. cbn [andb] in E. rewrite Nat.sub_0_r in E.
  assert (nth j rs 0%nat = r) as Ej by (apply nth_error_nth; exact Hj). rewrite Ej in E. unfold A0 at 2 in E. rewrite col_zeros in E.
  rewrite (zall_above _ r) in E; [|lia|].
  2: { intros k Hk. rewrite a_set_adj by (unfold fresh; rewrite map_length, recorded_length; exact Hr). destruct (Nat.eqb_spec k r); [lia|apply fresh_zero]. }
  rewrite <- (col_adj j). set (F := fst (mall _ _)) in *.
  assert (col j F = fst (a_gradient 0 1 Rplus Rmult r_is_zero r_is_zero r_beval r_bleft r_bright u_eval r_uder x p r)) as ->.
  { unfold a_gradient. rewrite <- E. reflexivity. }
  apply gradient_value; auto. unfold a_gradient. apply zall_never.
Qed.
End Columns.

Section Whole.
Variables ncdf erfc : R -> R.
Variables (BN BA BD K : nat).
Hypothesis HN : (0 < BN)%nat.
Hypothesis HA : (0 < BA)%nat.
Hypothesis HD : (0 < BD)%nat.
Hypothesis HK : (K <= BA)%nat.
Notation u_eval := (r_ueval ncdf erfc).
Notation rec := (recorded 0 1 Rmult r_beval r_bleft r_bright u_eval r_uder).
Notation mall := (m_all Rplus Rmult r_tiny r_is_zero).
Notation msim := (@msim R BN BA BD K).

Lemma set_fst (A : list (@row R)) k r : map fst (m_set A k r) = map fst A.
Proof.
  unfold m_set, m_deps. revert k. induction A as [|a A IH]; intros [|k]; cbn [set_nth nth map fst]; try reflexivity. f_equal. apply IH.
Qed.
Lemma down_fst xs ws : forall A, map fst (m_down Rplus Rmult xs ws A) = map fst A.
Proof. induction ws as [|[w p] ws IH]; intros A; cbn [m_down]; [reflexivity|]. now rewrite IH, set_fst. Qed.
Lemma all_fst l : forall s, map fst (fst (mall l s)) = map fst (fst s).
Proof.
  induction l as [|k l IH]; intros s; [reflexivity|]. unfold m_all in *. cbn [fold_left]. rewrite IH. destruct s as [A d]. unfold m_one. destruct (length (m_deps A k) =? 0)%nat; [reflexivity|].
  destruct (forallb r_tiny (m_row A k)); [reflexivity|]. apply down_fst.
Qed.
Lemma seed_fst rs : forall j A, map fst (m_seed 1 j rs A) = map fst A.
Proof. induction rs as [|r rs IH]; intros j A; cbn [m_seed]; [reflexivity|]. now rewrite IH, set_fst. Qed.
Lemma reset_zeros A : m_reset 0 K A = zeros K (map fst A).
Proof. unfold m_reset, zeros. now rewrite map_map. Qed.
Lemma zeros_fst l : map fst (zeros K l) = l.
Proof. unfold zeros. rewrite map_map. cbn [fst]. apply map_id. Qed.
Lemma sim_low t L l : msim t L (zeros K l) -> low (zeros K l).
Proof.
  intros H k. destruct (Nat.lt_ge_cases k (length (zeros K l))) as [Hk|Hk].
  - destruct (sim_at BN BA BD K HN HA HD HK t L _ k H Hk) as (nd & q & _ & _ & O & _). exact (ro_down _ _ _ _ _ _ _ _ O).
  - unfold m_deps. rewrite nth_overflow by exact Hk. constructor.
Qed.
Definition swept (p : list (stmt R)) (x : nat -> R) (rs : list nat) (d : bool) : list (@row R) * bool :=
  mall (downto (length p - 1) 0) (m_seed 1 0 rs (zeros K (rec x p [])), d).
Lemma start_ok x p : scoped p 0 -> leaves_fit BD p -> exists t L,
  mexec 0 1 Rmult r_beval r_bleft r_bright u_eval r_uder BN BA BD (Mode true K) x p [] (new_mtape 0 BN BA BD) = Ok (numbers 0 BN (r_values ncdf erfc x p []), t) /\
  msim t L (zeros K (rec x p [])) /\ lost t = false.
Proof.
  intros Hs Hf. destruct (mexec_ok 0 1 Rmult r_beval r_bleft r_bright u_eval r_uder BN BA BD K HN HA HD HK x p [] (new_mtape 0 BN BA BD) [] []) as (t & L & E & H & D); auto.
  { apply new_msim; assumption. }
  exists t, L. split; [exact E|]. split; [exact H|exact D].
Qed.
Lemma once_ok x p rs t L : msim t L (zeros K (rec x p [])) -> p <> [] -> Forall (fun r => (r < length p)%nat) rs -> (length rs <= K)%nat ->
  exists t', sweep 1 Rplus Rmult r_tiny r_is_zero BN (Mode true K) (numbers 0 BN (r_values ncdf erfc x p [])) rs t = Ok t' /\ msim t' L (fst (swept p x rs (lost t))) /\ lost t' = snd (swept p x rs (lost t)).
Proof.
  intros H Hp Hf Hr. assert (Lv : length (r_values ncdf erfc x p []) = length p) by (unfold r_values; rewrite values_length; reflexivity). unfold swept. rewrite <- Lv.
  apply (sweep_ok 0 1 Rplus Rmult r_tiny r_is_zero BN BA BD K HN HA HD HK); auto.
  - unfold zeros. rewrite map_length, recorded_length. now rewrite Lv.
  - intros E. rewrite E in Lv. destruct p; [now elim Hp|discriminate].
  - now rewrite Lv.
Qed.
Lemma swept_value x p rs d t L j r i q : scoped p 0 -> smooth_program ncdf erfc x p [] -> low (zeros K (rec x p [])) -> Forall (fun r => (r < length p)%nat) rs -> (length rs <= K)%nat ->
  msim t L (fst (swept p x rs d)) -> snd (swept p x rs d) = false -> nth_error rs j = Some r -> only_input p i q ->
  exists a, get_many (place_of BN q) j t = Ok a /\ derivable_pt_lim (fun y => nth r (r_values ncdf erfc (with_input x i y) p []) 0) (x i) a.
Proof.
  intros Hs Hsm Hl HF Hr H Hd Hj Hq. assert (q < length p)%nat as Hqn by (apply nth_error_Some; rewrite (proj2 (Hq q) eq_refl); discriminate).
  assert (Ln : length (fst (swept p x rs d)) = length p) by (unfold swept; rewrite m_all_length; cbn [fst]; rewrite m_seed_length; unfold zeros; now rewrite map_length, recorded_length).
  assert (j < K)%nat as HjK by (assert (j < length rs)%nat by (apply nth_error_Some; congruence); lia).
  destruct (sim_at BN BA BD K HN HA HD HK t L _ q H) as (_ & _ & _ & _ & _ & _ & _ & _ & _ & _ & Lr); [lia|].
  exists (nth j (m_row (fst (swept p x rs d)) q) 0). split.
  - apply (get_many_ok BN BA BD K HN HA HD HK t L _ q j _ H); [lia|]. apply nth_error_nth'. lia.
  - unfold swept in *. apply (column_value K ncdf erfc x p rs j r i q d); assumption.
Qed.
Lemma sweeps_ok x p ll : forall rs t L A, p <> [] -> msim t L A -> map fst A = rec x p [] -> Forall (fun r => (r < length p)%nat) rs -> (length rs <= K)%nat ->
  Forall (fun l => Forall (fun r => (r < length p)%nat) l /\ (length l <= K)%nat) ll ->
  exists t' L' d, sweeps 0 1 Rplus Rmult r_tiny r_is_zero BN (Mode true K) (numbers 0 BN (r_values ncdf erfc x p [])) (ll ++ [rs]) t = Ok t' /\
    msim t' L' (fst (swept p x rs d)) /\ lost t' = snd (swept p x rs d).
Proof.
  induction ll as [|l ll IH]; intros rs t L A Hp H HfA Hf Hr HF; cbn [app sweeps].
  - pose proof (reset_ok 0 BN BA BD K HN HA HD HK t L A H) as H0. rewrite reset_zeros, HfA in H0. destruct (once_ok x p rs _ L H0 Hp Hf Hr) as (t1 & E & H1 & D1). rewrite E. cbn [obind]. exists t1, L, (lost (reset_many 0 t)). auto.
  - inversion HF as [|? ? [F1 F2] HF']; subst. pose proof (reset_ok 0 BN BA BD K HN HA HD HK t L A H) as H0. rewrite reset_zeros, HfA in H0. destruct (once_ok x p l _ L H0 Hp F1 F2) as (t1 & E & H1 & D1). rewrite E. cbn [obind].
    apply (IH rs t1 L _ Hp H1); auto. unfold swept. rewrite all_fst. cbn [fst]. now rewrite seed_fst, zeros_fst.
Qed.
End Whole.
