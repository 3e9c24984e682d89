(** C22 skip-ahead of MRG32k3a; C23 range of the uniform deviates. *)
From Coq Require Import ZArith List Bool Lia ZifyBool.
From Coq Require Import Floats.SpecFloat.
From Verif Require Import Base DateModel RandomModel RandomSpec RandomProofs.
Import ListNotations.
Open Scope Z_scope.

(** * C22 *)
Lemma w32_word z : word (w32 z).
Proof. unfold word, w32. apply Z.mod_pos_bound. lia. Qed.
Lemma after_0 a b : mrg_new a b = after a b 0.
Proof. reflexivity. Qed.
(** The numbers drawn are those of the recurrences; after SkipTo(n) - from any state [s] of the generator, whatever was
    drawn or skipped before - the numbers drawn are those from place n * dimension / 2 on. *)
Theorem C22_numbers : forall seed k, exists g, draws mrg_next k (mrg_of_seed seed) = Ok (map (deviate (w32 seed) (w32 (seed + 1))) (seq 0 k), g).
Proof. intros seed k. eexists. unfold mrg_of_seed. rewrite after_0. apply (draws_after _ _ (w32_word _) (w32_word _) 0 k). Qed.
Theorem C22_skip_is_generation : forall seed n d s k, seed_a s = w32 seed -> seed_b s = w32 (seed + 1) -> 0 <= n * d < 2 ^ 64 ->
  exists g g', mrg_skip n d s = Ok g /\ draws mrg_next k g = Ok (map (deviate (w32 seed) (w32 (seed + 1))) (seq (Z.to_nat (n * d / 2)) k), g').
Proof.
  intros seed n d s k Ha Hb Hn. destruct (mrg_skip_ok n d s) as (g & E & H); [rewrite Ha; apply w32_word|rewrite Hb; apply w32_word|exact Hn|]. rewrite Ha, Hb in H.
  destruct (draws_point _ _ (w32_word _) (w32_word _) g (Z.to_nat (n * d / 2)) k H) as (g' & E' & _). exists g, g'. auto.
Qed.
(** Parallel batches of uniform vectors that start at an even path continue the sequential stream. *)
Theorem C22_even_batches : forall seed d m k, 2 * Z.of_nat m * Z.of_nat d < 2 ^ 64 ->
  let fresh := rng_new (mrg_of_seed seed) d in
  exists l s, uniforms mrg_next (2 * m + k) fresh = Ok l /\ skip_to mrg_skip (2 * Z.of_nat m) fresh = Ok s /\ uniforms mrg_next k s = Ok (skipn (2 * m) l).
Proof.
  intros seed d m k Hn fresh. pose proof (w32_word seed) as Wa. pose proof (w32_word (seed + 1)) as Wb. unfold fresh, mrg_of_seed. set (a := w32 seed) in *. set (b := w32 (seed + 1)) in *. clearbody a b.
  exists (map (uniform_path a b d) (seq 0 (2 * m + k))). unfold skip_to, rng_new. cbn [cache gen anti]. rewrite repeat_length.
  destruct (mrg_skip_ok (2 * Z.of_nat m) (Z.of_nat d) (mrg_new a b) Wa Wb) as (g & E & H); [split; [apply Z.mul_nonneg_nonneg; lia|exact Hn]|]. rewrite E. cbn [obind]. eexists. split; [|split; [reflexivity|]].
  - apply uniforms_ok; cbn [cache gen anti]; auto; [apply repeat_length|rewrite after_0; change (Nat.div2 1 * d)%nat with 0%nat; now apply after_same|discriminate].
  - rewrite uniforms_ok with (a := a) (b := b) (d := d) (j := (2 * m)%nat).
    + f_equal. rewrite seq_app, map_app, Nat.add_0_l. rewrite skipn_app, map_length, seq_length, Nat.sub_diag. rewrite skipn_all2 by (rewrite map_length, seq_length; lia). reflexivity.
    + exact Wa.
    + exact Wb.
    + apply repeat_length.
    + cbn [gen]. rewrite Nat.div2_succ_double. unfold at_point, after. replace (2 * Z.of_nat m * Z.of_nat d / 2) with (Z.of_nat (m * d)) in H; [rewrite Nat2Z.id in H; exact H|].
      rewrite Nat2Z.inj_mul. replace (2 * Z.of_nat m * Z.of_nat d) with (Z.of_nat m * Z.of_nat d * 2) by ring. rewrite Z.div_mul; lia.
    + cbn [anti]. symmetry. rewrite <- Nat.negb_even, Nat.even_mul. reflexivity.
    + rewrite <- Nat.negb_even, Nat.even_mul. discriminate.
Qed.
(** Finding: batches of normals do not.  After SkipTo(2m) the normals are those of path m, already used. *)
Theorem C22_normals_repeat_refuted : forall icdf seed d m k, 2 * Z.of_nat m * Z.of_nat d < 2 ^ 64 ->
  let fresh := rng_new (mrg_of_seed seed) d in
  exists l s, normals mrg_next icdf (m + k) fresh = Ok l /\ skip_to mrg_skip (2 * Z.of_nat m) fresh = Ok s /\ normals mrg_next icdf k s = Ok (skipn m l).
Proof.
  intros icdf seed d m k Hn fresh. pose proof (w32_word seed) as Wa. pose proof (w32_word (seed + 1)) as Wb. unfold fresh, mrg_of_seed. set (a := w32 seed) in *. set (b := w32 (seed + 1)) in *. clearbody a b.
  exists (map (fun i => map icdf (stretch a b (0 + i * d) d)) (seq 0 (m + k))). unfold skip_to, rng_new. cbn [cache gen anti]. rewrite repeat_length.
  destruct (mrg_skip_ok (2 * Z.of_nat m) (Z.of_nat d) (mrg_new a b) Wa Wb) as (g & E & H); [split; [apply Z.mul_nonneg_nonneg; lia|exact Hn]|]. rewrite E. cbn [obind]. eexists. split; [|split; [reflexivity|]].
  - apply normals_ok; cbn [cache gen anti]; auto; [apply repeat_length|rewrite after_0; now apply after_same].
  - rewrite normals_ok with (a := a) (b := b) (d := d) (k := (m * d)%nat).
    + f_equal. rewrite seq_app, map_app, Nat.add_0_l. rewrite skipn_app, map_length, seq_length, Nat.sub_diag. rewrite skipn_all2 by (rewrite map_length, seq_length; lia). cbn [skipn app].
      assert (Eq : forall j s, seq (m + s) j = map (fun i => m + i)%nat (seq s j)). { induction j as [|j IH]; intros s; cbn [seq map]; [reflexivity|]. f_equal. rewrite <- IH. f_equal. lia. }
      specialize (Eq k 0%nat). rewrite Nat.add_0_r in Eq. rewrite Eq, map_map. apply map_ext. intros i. do 2 f_equal. lia.
    + exact Wa.
    + exact Wb.
    + apply repeat_length.
    + cbn [gen]. unfold at_point, after. replace (2 * Z.of_nat m * Z.of_nat d / 2) with (Z.of_nat (m * d)) in H; [rewrite Nat2Z.id in H; exact H|].
      rewrite Nat2Z.inj_mul. replace (2 * Z.of_nat m * Z.of_nat d) with (Z.of_nat m * Z.of_nat d * 2) by ring. rewrite Z.div_mul; lia.
Qed.
(** Finding: with an odd number of paths the batch of uniforms repeats numbers too (the sequential stream would give the
    mirror image of the first vector). *)
Theorem C22_odd_refuted : exists seed u v s,
  uniforms mrg_next 2 (rng_new (mrg_of_seed seed) 1) = Ok [[u]; [v]] /\ skip_to mrg_skip 1 (rng_new (mrg_of_seed seed) 1) = Ok s /\ uniforms mrg_next 1 s = Ok [[u]] /\ SFeqb u v = false.
Proof.
  exists 1234. eexists _, _, _. split; [vm_compute; reflexivity|]. split; [vm_compute; reflexivity|]. split; vm_compute; reflexivity.
Qed.
(** Finding: the other generator does not skip at all. *)
Theorem C22_irn_refuted : forall n s, skip_to irn_skip n s = Ok (Rng (anti s) (cache s) (gen s)).
Proof. reflexivity. Qed.
Print Assumptions C22_numbers.
Print Assumptions C22_skip_is_generation.
Print Assumptions C22_even_batches.
Print Assumptions C22_normals_repeat_refuted.
Print Assumptions C22_odd_refuted.
Print Assumptions C22_irn_refuted.
(** sequential paths 2 and 3 against the batch that starts at path 2 (in dimension 3, 1 by 1 numbers of the recurrence) *)
Example C22_example : (do s <- skip_to mrg_skip 2 (rng_new (mrg_of_seed 1234) 3); uniforms mrg_next 2 s) =
  (do l <- uniforms mrg_next 4 (rng_new (mrg_of_seed 1234) 3); Ok (skipn 2 l)) /\
  map (xs 1234) [0; 1; 2; 3; 4]%nat = [1234; 731579368; 731579368; 1322640389; 3925098102].
Proof. split; vm_compute; reflexivity. Qed.
Example C22_example_far : exists g, mrg_skip 1000000007 12 (mrg_of_seed 99) = Ok g.
Proof. eexists. vm_compute. reflexivity. Qed.

(** * C23 *)
(** For every seed and every sequence of vectors of uniforms, vectors of normals and skips, no call fails and every
    uniform deviate returned is strictly between 0 and 1. *)
Theorem C23_mrg_in_open_interval : forall seed d icdf ops, Forall (fun o => match o with Skip n => 0 <= n * Z.of_nat d < 2 ^ 64 | _ => True end) ops ->
  exists outs, run_ops mrg_next mrg_skip icdf ops (rng_new (mrg_of_seed seed) d) = Ok outs /\ Forall (Forall open01) outs.
Proof.
  intros seed d icdf ops H. apply (run_ops_inv mrg_next mrg_skip icdf mrg_inv mrg_next_inv d (fun n g Hn Hg => mrg_skip_inv (Z.of_nat d) n g Hn Hg)); [exact H|apply repeat_length| |discriminate].
  cbn [rng_new gen]. exists (w32 seed), (w32 (seed + 1)), (w32 seed, w32 seed, w32 seed), (w32 (seed + 1), w32 (seed + 1), w32 (seed + 1)). split; [reflexivity|]. pose proof (w32_word seed). pose proof (w32_word (seed + 1)). cbn [words]. repeat split; try assumption; apply w32_word.
Qed.
Theorem C23_irn_in_open_interval : forall seed d icdf ops, Forall (fun o => match o with Skip n => 0 <= n * Z.of_nat d < 2 ^ 64 | _ => True end) ops ->
  exists g outs, irn_of_seed seed = Ok g /\ run_ops irn_next irn_skip icdf ops (rng_new g d) = Ok outs /\ Forall (Forall open01) outs.
Proof.
  intros seed d icdf ops H. destruct (irn_new_ok seed) as (g & E & I). exists g.
  destruct (run_ops_inv irn_next irn_skip icdf (irn_inv 128) irn_next_ok d (fun n g _ Hg => ex_intro _ g (conj eq_refl Hg)) ops (rng_new g d) H) as (outs & E2 & F); [apply repeat_length|exact I|discriminate|].
  exists outs. auto.
Qed.
(** Finding: a vector shorter than the generator's dimension, followed by a full one, gives the deviate 1. *)
Theorem C23_short_vector_refuted :
  (do p <- fill_uniform mrg_next 1 (rng_new (mrg_of_seed 1) 2); do q <- fill_uniform mrg_next 2 (snd p); Ok (map (fun u => SFeqb u (fl_of_Z 1)) (fst q))) = Ok [false; true].
Proof. vm_compute. reflexivity. Qed.
Print Assumptions C23_mrg_in_open_interval.
Print Assumptions C23_irn_in_open_interval.
Print Assumptions C23_short_vector_refuted.
Example C23_example : exists l, run_ops mrg_next mrg_skip (fun u => u) [Uniform; Uniform; Normal; Skip 7; Uniform] (rng_new (mrg_of_seed (-1)) 2) = Ok l /\ length l = 3%nat.
Proof. eexists. vm_compute. auto. Qed.
