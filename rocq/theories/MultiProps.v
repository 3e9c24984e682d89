(** C82: several results differentiated at once. *)
From Coq Require Import Reals ZArith List Arith Bool Lia Lra.
From Verif Require Import Base Vec BlockModel BlockProofs AadModel AadSpec AadProofs AadExec AadRealSpec AadReal AadGradient AadProps MultiModel MultiSpec MultiProofs MultiReal.
Import ListNotations.
Open Scope nat_scope.

Section Lemmas.
Variables ncdf erfc : R -> R.
Variables (BN BA BD K : nat).
Lemma value_numbers x p : map value (numbers 0%R BN (r_values ncdf erfc x p [])) = r_values ncdf erfc x p [].
Proof.
  unfold numbers. rewrite map_map. cbn [value]. set (vs := r_values ncdf erfc x p []). clearbody vs. clear.
  induction vs as [|v vs IH] using rev_ind; [reflexivity|]. rewrite app_length, Nat.add_1_r, seq_S, map_app. cbn [map]. f_equal.
  - etransitivity; [|exact IH]. apply map_ext_in. intros k Hk. apply in_seq in Hk. now rewrite app_nth1 by lia.
  - cbn [Nat.add]. rewrite app_nth2, Nat.sub_diag by lia. reflexivity.
Qed.
Lemma adjoint_numbers x p q j t : q < length p -> adjoint (numbers 0%R BN (r_values ncdf erfc x p [])) q j t = get_many (place_of BN q) j t.
Proof. intros H. unfold adjoint. rewrite numbers_get; [reflexivity|]. unfold r_values. rewrite values_length. exact H. Qed.
End Lemmas.

(** With the tape set for at most [K] results, and no more of them than a block of adjoints holds, a computation of any
    shape can be differentiated for any of its results at once: every number comes out with its value, and when no row of
    adjoints was left out as too small, adjoint [j] of each input is the derivative of result [j]. *)
Theorem C82_jacobian : forall (ncdf erfc : R -> R) (BN BA BD K : nat) (x : nat -> R) (p : list (stmt R)) (results : list nat), 0 < BN -> 0 < BA -> 0 < BD -> K <= BA ->
  p <> [] -> scoped p 0 -> leaves_fit BD p -> Forall (fun r => r < length p) results -> length results <= K -> smooth_program ncdf erfc x p [] ->
  exists ns t, r_jacobian ncdf erfc BN BA BD K x p results = Ok (ns, t) /\ map value ns = r_values ncdf erfc x p [] /\
    (lost t = false -> derivatives ncdf erfc x p results ns t).
Proof.
  intros ncdf erfc BN BA BD K x p results HN HA HD HK Hp Hs Hf Hr Hl Hsm.
  destruct (start_ok ncdf erfc BN BA BD K HN HA HD HK x p Hs Hf) as (t & L & E & H & D).
  destruct (once_ok ncdf erfc BN BA BD K HN HA HD HK x p results t L H Hp Hr Hl) as (t' & E' & H' & D').
  exists (numbers 0%R BN (r_values ncdf erfc x p [])), t'. unfold r_jacobian, jacobian. rewrite E. cbn [obind]. rewrite E'. cbn [obind]. split; [reflexivity|]. split; [apply value_numbers|].
  intros Hd j r i q Hj Hq. assert (q < length p) as Hqn by (apply nth_error_Some; rewrite (proj2 (Hq q) eq_refl); discriminate). rewrite adjoint_numbers by exact Hqn.
  apply (swept_value ncdf erfc BN BA BD K HN HA HD HK x p results (lost t) t' L j r i q); auto; [|congruence]. exact (sim_low BN BA BD K HN HA HD HK t L _ H).
Qed.
Print Assumptions C82_jacobian.

(** The tape is not given up: after the adjoints are reset other results can be taken, as often as wanted, and the
    adjoints are then the derivatives of the results taken last. *)
Theorem C82_again : forall (ncdf erfc : R -> R) (BN BA BD K : nat) (x : nat -> R) (p : list (stmt R)) (first : list nat) (between : list (list nat)) (results : list nat),
  0 < BN -> 0 < BA -> 0 < BD -> K <= BA -> p <> [] -> scoped p 0 -> leaves_fit BD p ->
  Forall (fun l => Forall (fun r => r < length p) l /\ length l <= K) (first :: between ++ [results]) -> smooth_program ncdf erfc x p [] ->
  exists ns t t', r_jacobian ncdf erfc BN BA BD K x p first = Ok (ns, t) /\ r_sweeps BN K ns (between ++ [results]) t = Ok t' /\
    (lost t' = false -> derivatives ncdf erfc x p results ns t').
Proof.
  intros ncdf erfc BN BA BD K x p first between results HN HA HD HK Hp Hs Hf HF Hsm.
  inversion HF as [|? ? [F1 F2] HF']; subst. apply Forall_app in HF' as [FB FR]. inversion FR as [|? ? [R1 R2] _]; subst.
  destruct (start_ok ncdf erfc BN BA BD K HN HA HD HK x p Hs Hf) as (t & L & E & H & D).
  destruct (once_ok ncdf erfc BN BA BD K HN HA HD HK x p first t L H Hp F1 F2) as (t1 & E1 & H1 & D1).
  destruct (sweeps_ok ncdf erfc BN BA BD K HN HA HD HK x p between results t1 L _ Hp H1) as (t2 & L2 & d & E2 & H2 & D2); auto.
  { unfold swept. rewrite all_fst. cbn [fst]. now rewrite seed_fst, zeros_fst. }
  exists (numbers 0%R BN (r_values ncdf erfc x p [])), t1, t2. unfold r_jacobian, jacobian. rewrite E. cbn [obind]. rewrite E1. cbn [obind]. split; [reflexivity|]. split; [exact E2|].
  intros Hd j r i q Hj Hq. assert (q < length p) as Hqn by (apply nth_error_Some; rewrite (proj2 (Hq q) eq_refl); discriminate). rewrite adjoint_numbers by exact Hqn.
  apply (swept_value ncdf erfc BN BA BD K HN HA HD HK x p results d t2 L2 j r i q); auto; [|congruence]. exact (sim_low BN BA BD K HN HA HD HK t L _ H).
Qed.
Print Assumptions C82_again.

(** Taking the results one at a time, on a tape for one result, gives the same adjoints. *)
Theorem C82_one_by_one : forall (ncdf erfc : R -> R) (BN BA BD K : nat) (x : nat -> R) (p : list (stmt R)) (results : list nat) (j r : nat), 0 < BN -> 0 < BA -> 0 < BD -> K <= BA ->
  p <> [] -> scoped p 0 -> leaves_fit BD p -> Forall (fun r => r < length p) results -> length results <= K -> smooth_program ncdf erfc x p [] -> nth_error results j = Some r ->
  exists ns t ms u, r_jacobian ncdf erfc BN BA BD K x p results = Ok (ns, t) /\ r_gradient ncdf erfc BN BD x p r = Ok (ms, u) /\
    (lost t = false -> dropped u = false -> forall i q, only_input p i q -> exists n a, nth_error ms q = Some n /\ get_adjoint (at_node n) u = Ok a /\ adjoint ns q j t = Ok a).
Proof.
  intros ncdf erfc BN BA BD K x p results j r HN HA HD HK Hp Hs Hf Hr Hl Hsm Hj.
  destruct (C82_jacobian ncdf erfc BN BA BD K x p results HN HA HD HK Hp Hs Hf Hr Hl Hsm) as (ns & t & E & _ & Hd).
  assert (r < length p) as Hrp by (rewrite Forall_forall in Hr; apply Hr; eapply nth_error_In; exact Hj).
  destruct (C32_gradient ncdf erfc BN BD x p r HN HD Hs Hf Hrp Hsm) as (ms & u & E2 & _ & Hd2).
  exists ns, t, ms, u. split; [exact E|]. split; [exact E2|]. intros Lt Du i q Hq. destruct (Hd Lt j r i q Hj Hq) as (a & A1 & A2). destruct (Hd2 Du i q Hq) as (n & b & B1 & B2 & B3).
  exists n, a. split; [exact B1|]. assert (a = b) as -> by exact (uniqueness_limite _ _ _ _ A2 B3). auto.
Qed.
Print Assumptions C82_one_by_one.

(** x * y and x + y at (2, 3): nothing is left out, and the four derivatives are 3, 2, 1 and 1 *)
Definition ex_two : list (stmt R) := [Input 0; Input 1; Expr (Bin OPMult (Num 0) (Num 1)); Expr (Bin OPAdd (Num 0) (Num 1))].
Definition ex_at (i : nat) : R := match i with 0 => 2%R | _ => 3%R end.
Lemma tiny_no x : (1 <= x)%R -> r_tiny x = false.
Proof. intros H. unfold r_tiny. rewrite Rabs_pos_eq by lra. destruct (Rle_dec x (2 / 100000000000000)); [lra|reflexivity]. Qed.
Lemma tiny_zero : r_tiny 0 = true.
Proof. unfold r_tiny. rewrite Rabs_R0. destruct (Rle_dec 0 (2 / 100000000000000)); [reflexivity|lra]. Qed.
Example C82_case : let nothing := fun _ : R => 0%R in
  ex_two <> [] /\ scoped ex_two 0 /\ leaves_fit 8 ex_two /\ smooth_program nothing nothing ex_at ex_two [] /\ only_input ex_two 0 0 /\ only_input ex_two 1 1 /\
  exists ns t, r_jacobian nothing nothing 4 5 8 2 ex_at ex_two [2; 3] = Ok (ns, t) /\ lost t = false /\
    adjoint ns 0 0 t = Ok 3%R /\ adjoint ns 1 0 t = Ok 2%R /\ adjoint ns 0 1 t = Ok 1%R /\ adjoint ns 1 1 t = Ok 1%R.
Proof.
  cbv zeta. assert (Hs : scoped ex_two 0) by (cbn; repeat constructor; lia). assert (Hf : leaves_fit 8 ex_two) by (repeat constructor; cbn; lia).
  split; [discriminate|]. split; [exact Hs|]. split; [exact Hf|]. split; [cbn; tauto|]. split; [|split].
  1,2: intros [|[|[|[|k]]]]; cbn; split; intros H; try discriminate; try reflexivity; try lia; destruct k; discriminate.
  destruct (start_ok (fun _ => 0%R) (fun _ => 0%R) 4 5 8 2 ltac:(lia) ltac:(lia) ltac:(lia) ltac:(lia) ex_at ex_two Hs Hf) as (t & L & E & H & D).
  destruct (once_ok (fun _ => 0%R) (fun _ => 0%R) 4 5 8 2 ltac:(lia) ltac:(lia) ltac:(lia) ltac:(lia) ex_at ex_two [2; 3] t L H) as (t' & E' & H' & D').
  { discriminate. } { repeat constructor; cbn; lia. } { cbn; lia. }
  exists (numbers 0%R 4 (r_values (fun _ => 0%R) (fun _ => 0%R) ex_at ex_two [])), t'. unfold r_jacobian, jacobian. rewrite E. cbn [obind]. rewrite E'. cbn [obind]. split; [reflexivity|].
  assert (V : recorded 0%R 1%R Rmult r_beval r_bleft r_bright (r_ueval (fun _ => 0%R) (fun _ => 0%R)) r_uder ex_at ex_two [] = [[]; []; [(3, 0%nat); (2, 1%nat)]; [(1, 0%nat); (1, 1%nat)]]%R).
  { cbn [recorded new_deps weights ex_two value_of app eval nth ex_at r_beval r_bleft r_bright]. repeat f_equal; ring. }
  assert (Sw : swept (fun _ => 0%R) (fun _ => 0%R) 2 ex_two ex_at [2; 3] (lost t) =
    ([([], [3; 1]); ([], [2; 1]); ([(3, 0%nat); (2, 1%nat)], [1; 0]); ([(1, 0%nat); (1, 1%nat)], [0; 1])]%R, false)).
  { rewrite D. unfold swept. rewrite V. assert (T1 : r_tiny 1 = false) by (apply tiny_no; lra). change (downto (length ex_two - 1) 0) with [3; 2; 1; 0]. unfold m_all. cbn [fold_left].
    change (m_seed 1%R 0 [2; 3] (zeros 2 [[]; []; [(3%R, 0); (2%R, 1)]; [(1%R, 0); (1%R, 1)]]))
      with [([], [0; 0]); ([], [0; 0]); ([(3, 0%nat); (2, 1%nat)], [1; 0]); ([(1, 0%nat); (1, 1%nat)], [0; 1])]%R.
    unfold m_one at 4. cbn [m_deps m_row nth fst snd length Nat.eqb forallb]. rewrite tiny_zero, T1. cbn [andb m_down m_set m_deps m_row nth fst snd set_nth row_add map combine].
    unfold m_one at 3. cbn [m_deps m_row nth fst snd length Nat.eqb forallb]. rewrite T1. cbn [andb m_down m_set m_deps m_row nth fst snd set_nth row_add map combine].
    unfold m_one. cbn [m_deps m_row nth fst snd length Nat.eqb]. repeat f_equal; ring. }
  rewrite Sw in H', D'. cbn [fst snd] in H', D'. split; [exact D'|]. rewrite !adjoint_numbers by (cbn; lia).
  repeat split; (eapply (get_many_ok 4 5 8 2); try exact H'; [lia|lia|lia|lia|cbn; lia|reflexivity]).
Qed.

(** More results than a block of adjoints holds (32768 in the code): the very first number overruns its block. *)
Theorem C82_too_many_refuted : forall (D : Type) (zero one : D) (mul : D -> D -> D) (beval : bop -> D -> D -> D) (bleft bright : bop -> D -> D -> D -> D) (ueval : uop -> D -> D -> D) (uder : uop -> D -> D -> D -> D)
  (BN BA BD K : nat) (x : nat -> D) (i : nat) (p : list (stmt D)), 0 < BN -> BA < K ->
  mexec zero one mul beval bleft bright ueval uder BN BA BD (Mode true K) x (Input i :: p) [] (new_mtape zero BN BA BD) = UB.
Proof.
  intros D zero one mul beval bleft bright ueval uder BN BA BD K x i p HN HK. cbn [mexec mexec1]. unfold mfrom_double, mrecord.
  destruct (emplace_place BN (blank_mnode zero) HN (mnodes (new_mtape zero BN BA BD)) [] None (MNode 0 zero None (0, 0) (0, 0)) (init_holds BN (blank_mnode zero) HN)) as (ns & E & _). rewrite E. cbn [obind multi num].
  assert (U : emplace_multi BA zero K (madj (new_mtape zero BN BA BD)) = UB).
  { unfold emplace_multi. set (s := if _ <? K then _ else _). destruct (Nat.leb_spec (next s + K) BA); [lia|reflexivity]. }
  rewrite U. reflexivity.
Qed.
Print Assumptions C82_too_many_refuted.

(** whole numbers with multiplication by a constant *)
Definition z_exec := mexec 0%Z 1%Z Z.mul (fun _ l r => l * r)%Z (fun _ _ r _ => r) (fun _ l _ _ => l) (fun _ l d => l * d)%Z (fun _ _ _ d => d) 4 5 6.
Definition z_new := new_mtape 0%Z 4 5 6.
Definition z_zero (z : Z) : bool := (z =? 0)%Z.

(** Numbers recorded before the tape is set for several results have nowhere to keep them: a result that depends on one of
    them cannot be propagated.  With the setting made first the same computation is differentiated. *)
Theorem C82_late_refuted : let square := [Expr (Bin OPMult (Num 0) (Num 0))] in
  (do (ns, t) <- z_exec (Mode false 1) (fun _ => 5%Z) [Input 0] [] z_new; do (ms, u) <- z_exec (Mode true 2) (fun _ => 5%Z) square ns t;
   sweep 1%Z Z.add Z.mul z_zero z_zero 4 (Mode true 2) ms [1] u) = UB /\
  (do (ns, t) <- z_exec (Mode true 2) (fun _ => 5%Z) [Input 0] [] z_new; do (ms, u) <- z_exec (Mode true 2) (fun _ => 5%Z) square ns t;
   do v <- sweep 1%Z Z.add Z.mul z_zero z_zero 4 (Mode true 2) ms [1] u; adjoint ms 0 0 v) = Ok 10%Z.
Proof. vm_compute. split; reflexivity. Qed.
Print Assumptions C82_late_refuted.

(** While the tape is set for several results, propagation of one result (PropagateToStart) puts the derivative into the
    input's first adjoint and leaves Adjoint(), where it is read, at zero; with the setting off Adjoint() has it. *)
Theorem C82_one_result_refuted : let p := [Input 0; Expr (Un OPMultD (Num 0) 3%Z)] in
  let run md := (do (ns, t) <- z_exec md (fun _ => 5%Z) p [] z_new; do x <- get ns 1; do y <- get ns 0; do u <- mpropagate_to_start 1%Z Z.add Z.mul z_zero z_zero 4 x t; get_single (at_node y) u) in
  run (Mode true 2) = Ok 0%Z /\ run (Mode false 1) = Ok 3%Z.
Proof. vm_compute. split; reflexivity. Qed.
Print Assumptions C82_one_result_refuted.
