(** C93: how many independent paths a simulation with mrg32 numbers has. *)
From Coq Require Import String Reals List ZArith Permutation Lra Lia.
From Coq Require Import Floats.SpecFloat.
From Verif Require Import Base StringModel StringSpec BlackModel BlackSpec BlackNormal ExpectSpec ExpectProps MomentSpec MomentProofs MomentProps ScriptModel ScriptSpec FuzzySpec DomainSpec DomainModel ValueModel ValueSpec ValueProps
  SimModel SimProofs SimProps DateModel DrawModel DrawSpec DrawProps StringProofs BsSpec PriceModel PriceSpec PriceProps MomentValueProps RepeatSpec RepeatProofs.
From Verif Require BsModel.
Import ListNotations.
Local Open Scope R_scope.

(** Tasks that begin at even path numbers draw rows of one stream of numbers: the tasks' vectors, in order, are the rows used. *)
Theorem C93_rows inverse dim ts : List.Forall (fun t => (0 <= fst t)%Z /\ Z.even (fst t) = true) ts ->
  flat_map (fun t => map (mrg_vector inverse dim (fst t)) (seq 0 (Z.to_nat (snd t)))) ts = map (row inverse dim) (rows_used ts).
Proof.
  induction 1 as [|t ts (H0 & He) _ IH]; [reflexivity|]. unfold rows_used in *. cbn [flat_map]. rewrite map_app, IH. f_equal.
  assert (G : forall k s, map (mrg_vector inverse dim (fst t)) (seq s k) = map (row inverse dim) (seq (Z.to_nat (fst t) / 2 + s) k)).
  { induction k as [|k IHk]; intros s; [reflexivity|]. cbn [seq map]. rewrite vector_row by assumption. f_equal. rewrite IHk. now rewrite Nat.add_succ_r. }
  rewrite G. now rewrite Nat.add_0_r.
Qed.
Print Assumptions C93_rows.
(** Tasks of an even size, all full, are the even batches. *)
Theorem C93_batches h b threads : (0 < h)%nat -> (Z.of_nat (2 * h * b) < 2 ^ 31)%Z -> batch_size (Z.of_nat (2 * h * b)) threads = Ok (Z.of_nat (2 * h)) ->
  tasks (Z.of_nat (2 * h * b)) threads = Ok (even_batches h b).
Proof.
  intros Hh Hl Hb. unfold tasks. rewrite Hb. cbn [obind]. rewrite to_int_id by lia. rewrite Nat2Z.id. unfold even_batches.
  assert (G : forall k s fuel, (2 * h * k <= fuel)%nat -> spawn fuel (Z.of_nat (2 * h)) (Z.of_nat (2 * h * s)) (Z.of_nat (2 * h * k)) = Ok (map (fun i => (Z.of_nat (2 * h * i), Z.of_nat (2 * h))) (seq s k))).
  { clear - Hh. induction k as [|k IH]; intros s fuel Hf.
    - rewrite Nat.mul_0_r. destruct fuel; reflexivity.
    - destruct fuel as [|fuel]; [nia|]. cbn [spawn]. destruct (Z.leb_spec (Z.of_nat (2 * h * S k)) 0); [nia|]. rewrite Z.min_r by nia.
      replace (Z.of_nat (2 * h * s) + Z.of_nat (2 * h))%Z with (Z.of_nat (2 * h * S s)) by nia. replace (Z.of_nat (2 * h * S k) - Z.of_nat (2 * h))%Z with (Z.of_nat (2 * h * k)) by nia.
      rewrite IH by nia. reflexivity. }
  rewrite <- (G b 0%nat (2 * h * b)%nat) by lia. now rewrite Nat.mul_0_r.
Qed.
Print Assumptions C93_batches.
(** As soon as there are two such batches, two different paths of the simulation have the same numbers, whatever the dimension. *)
Theorem C93_twice_refuted inverse dim h b : (0 < h)%nat -> (1 < b)%nat ->
  In (0, Z.of_nat (2 * h))%Z (even_batches h b) /\ In (Z.of_nat (2 * h), Z.of_nat (2 * h)) (even_batches h b) /\
  forall i, (i < h)%nat -> mrg_vector inverse dim 0 (h + i) = mrg_vector inverse dim (Z.of_nat (2 * h)) i.
Proof.
  intros Hh Hb. unfold even_batches. split; [apply in_map_iff; exists 0%nat; split; [now rewrite Nat.mul_0_r|apply in_seq; lia]|].
  split; [apply in_map_iff; exists 1%nat; split; [now rewrite Nat.mul_1_r|apply in_seq; lia]|].
  intros i Hi. rewrite !vector_row; [|lia|apply Z.even_spec; exists (Z.of_nat h); lia|lia|reflexivity]. f_equal. rewrite Nat2Z.id. change (Z.to_nat 0 / 2)%nat with 0%nat. replace (2 * h)%nat with (h * 2)%nat by ring. rewrite Nat.div_mul by lia. reflexivity.
Qed.
Print Assumptions C93_twice_refuted.
(** Whatever rows an average uses, and however often: it is unbiased, and its mean square error is the variance of one path times the sum of the
    squares of the numbers of uses, over the square of the number of paths. *)
Theorem C93_error_any N n dim k ps f x v : normal_law N n -> ps <> [] -> List.Forall (fun j => (j < k)%nat) ps -> draws n dim f x -> draws n dim (fun zs => (f zs - x) * (f zs - x)) v ->
  let used := fun rows : list (list R) => map (fun j => nth j rows []) ps in
  let uses := fun j => INR (count_occ Nat.eq_dec ps j) in
  simulated n dim k (fun rows => average f (used rows)) x /\
  simulated n dim k (fun rows => (average f (used rows) - x) * (average f (used rows) - x)) (v * BsSpec.sum k (fun j => uses j * uses j) / (INR (List.length ps) * INR (List.length ps))).
Proof.
  intros HN Hne F Hf Hv used uses. destruct (rows_error _ (draws_expects N n HN dim) [] k ps f x v Hne F Hf Hv) as (A & C). split; [exact A|]. eapply ex_val; [|exact C]. cbv beta.
  assert (E : forall i, BsSpec.sum i (fun j => count ps j * count ps j) = BsSpec.sum i (fun j => uses j * uses j)) by (intros i; induction i as [|i IH]; [reflexivity|]; cbn [BsSpec.sum]; rewrite IH, count_occurs; reflexivity).
  now rewrite E.
Qed.
Print Assumptions C93_error_any.
(** So the error is that of as many independent paths exactly when no row is used twice. *)
Theorem C93_independent N n dim k ps f x v : normal_law N n -> ps <> [] -> List.Forall (fun j => (j < k)%nat) ps -> draws n dim f x -> draws n dim (fun zs => (f zs - x) * (f zs - x)) v -> 0 < v ->
  let used := fun rows : list (list R) => map (fun j => nth j rows []) ps in
  simulated n dim k (fun rows => (average f (used rows) - x) * (average f (used rows) - x)) (v / INR (List.length ps)) <-> NoDup ps.
Proof.
  intros HN Hne F Hf Hv Hp used. destruct (rows_error _ (draws_expects N n HN dim) [] k ps f x v Hne F Hf Hv) as (_ & C). rewrite <- (squares_count k ps F).
  assert (Hn : 0 < INR (List.length ps)) by (apply lt_0_INR; destruct ps; [contradiction|cbn; lia]). split.
  - intros H. pose proof (rep_unique _ (draws_expects N n HN dim) _ _ _ _ H C) as U. set (L := INR (List.length ps)) in *. set (q := BsSpec.sum k _) in *. clearbody L q.
    transitivity (v * q / (L * L) * (L * L / v)); [field; lra|]. rewrite <- U. field. lra.
  - intros H. rewrite H in C. eapply ex_val; [|exact C]. field. lra.
Qed.
Print Assumptions C93_independent.
(** Were the rows of the stream independent normal draws, the average over b batches of 2h paths would still be unbiased, but its mean square
    error is (2 - 1/b) times that of 2hb independent paths (C89_error): the same only for one batch. *)
Theorem C93_error_partial N n dim h b f x v : normal_law N n -> (0 < h)%nat -> (0 < b)%nat -> draws n dim f x -> draws n dim (fun zs => (f zs - x) * (f zs - x)) v ->
  let used := fun rows : list (list R) => map (fun j => nth j rows []) (rows_used (even_batches h b)) in
  simulated n dim (h * (b + 1)) (fun rows => average f (used rows)) x /\
  simulated n dim (h * (b + 1)) (fun rows => (average f (used rows) - x) * (average f (used rows) - x)) ((2 - / INR b) * (v / INR (2 * h * b))).
Proof.
  intros HN Hh Hb Hf Hv used. split; [apply (batches_mean _ (draws_expects N n HN dim)); assumption|]. exact (batches_error _ (draws_expects N n HN dim) [] h b f x v Hh Hb Hf Hv).
Qed.
Print Assumptions C93_error_partial.
(** So with two batches or more the error is not that of as many independent paths as asked for, unless every path pays the same. *)
Theorem C93_error_refuted N n dim h b f x v : normal_law N n -> (0 < h)%nat -> (1 < b)%nat -> draws n dim f x -> draws n dim (fun zs => (f zs - x) * (f zs - x)) v -> 0 < v ->
  let used := fun rows : list (list R) => map (fun j => nth j rows []) (rows_used (even_batches h b)) in
  ~ simulated n dim (h * (b + 1)) (fun rows => (average f (used rows) - x) * (average f (used rows) - x)) (v / INR (2 * h * b)).
Proof.
  intros HN Hh Hb Hf Hv Hp used H. destruct (C93_error_partial N n dim h b f x v HN Hh ltac:(lia) Hf Hv) as [_ E]. fold used in E.
  pose proof (rep_unique _ (draws_expects N n HN dim) _ _ _ _ H E) as U. assert (H0 : 0 < INR (2 * h * b)) by (apply lt_0_INR; nia). assert (H1 : 1 < INR b) by (change 1 with (INR 1); now apply lt_INR).
  assert (H2 : 0 < v / INR (2 * h * b)) by now apply Rdiv_lt_0_compat. assert (H3 : / INR b < 1) by (rewrite <- Rinv_1; apply Rinv_lt_contravar; lra). nra.
Qed.
Print Assumptions C93_error_refuted.

Section Value.
Variables (f_log f_sqrt f_exp : R -> R) (f_pow : R -> R -> R).
Local Notation RN := (RNum f_log f_sqrt f_exp f_pow).
#[local] Hint Extern 0 Num => exact (RNum f_log f_sqrt f_exp f_pow) : typeclass_instances.
Context {B : Type}.
Variable sobol_skip : Z -> B -> outcome B.
Variable sobol_fill : B -> outcome (list spec_float * B).
Variable sobol_new : nat -> B.
Variable inverse_ncdf : spec_float -> spec_float.
Variable bridged : list spec_float -> list spec_float.
Local Notation value := (@bs_value f_log f_sqrt f_exp f_pow B sobol_skip sobol_fill sobol_new inverse_ncdf bridged (exact_tests f_log f_sqrt f_exp f_pow)).
Local Notation bs_path := (bs_path f_log f_sqrt f_exp f_pow).
(** The value of a script over b batches of 2h paths is the average of what it pays over the rows used: only the first h (b + 1) rows of the
    stream, those from h to h b twice. *)
Theorem C93_value_partial years today m past dates future n method use_bb pool order h b :
  let times := map (fun t => years (t - today)%Z) dates in
  let dim := (List.length (from_today times) - 1)%nat in
  let n_paths := Z.of_nat (2 * h * b) in
  can_price f_log f_sqrt f_exp f_pow times m past dates future n ->
  (exists r, pre_process (D := exact_tests f_log f_sqrt f_exp f_pow) years today false false (new_product [] past dates future) = Ok r) ->
  same_up_to_case method (lit "mrg32") -> (0 < h)%nat -> (0 < b)%nat -> (n_paths < 2 ^ 31)%Z -> (n_paths * Z.of_nat dim < 2 ^ 64)%Z -> (forall v, List.length v = dim -> List.length (bridged v) = dim) ->
  batch_size n_paths (Z.of_nat (num_threads pool)) = Ok (Z.of_nat (2 * h)) -> some_schedule pool b order ->
  let paid := fun zs => final past future n (bs_path m times (map real_of (dressed bridged use_bb zs))) in
  value years today m past dates future method use_bb n_paths pool order = Ok (average paid (map (row inverse_ncdf dim) (rows_used (even_batches h b)))) /\
  List.length (rows_used (even_batches h b)) = (2 * h * b)%nat /\
  (forall j, In j (rows_used (even_batches h b)) <-> (j < h * (b + 1))%nat) /\
  (forall j, (h <= j < h * b)%nat -> count_occ Nat.eq_dec (rows_used (even_batches h b)) j = 2%nat).
Proof.
  intros times dim n_paths Hc Hp Em Hh Hb Hn Hd Hbr Hs Ho paid. split; [|split; [apply rows_length|split; [intros j; now apply rows_all|intros j Hj; now apply rows_twice]]].
  pose proof (C93_batches h b _ Hh Hn Hs) as Et.
  assert (Hlen : List.length (even_batches h b) = b) by (unfold even_batches; now rewrite map_length, seq_length).
  rewrite (C87_bs_mrg32 f_log f_sqrt f_exp f_pow sobol_skip sobol_fill sobol_new inverse_ncdf bridged years today m past dates future n method use_bb n_paths pool (even_batches h b) order); try assumption; [|unfold n_paths; lia|now rewrite Hlen].
  apply f_equal. unfold average. rewrite map_length, rows_length. rewrite INR_IZR_INZ. fold n_paths. apply (f_equal (fun x : R => x / IZR n_paths)).
  transitivity (total (fun zs => final past future n (bs_path m times zs)) (flat_map (fun t => map (fun i => map real_of (dressed bridged use_bb (mrg_vector inverse_ncdf dim (fst t) i))) (seq 0 (Z.to_nat (snd t)))) (even_batches h b))).
  { apply (batches_total f_log f_sqrt f_exp f_pow (even_batches h b) (fun zs => final past future n (bs_path m times zs)) (fun first i => map real_of (dressed bridged use_bb (mrg_vector inverse_ncdf dim first i)))). }
  rewrite <- C93_rows.
  - unfold total. f_equal. clear. induction (even_batches h b) as [|t l IH]; [reflexivity|]. cbn [flat_map]. rewrite !map_app, IH. f_equal. rewrite !map_map. reflexivity.
  - apply List.Forall_forall. intros t Ht. unfold even_batches in Ht. apply in_map_iff in Ht. destruct Ht as (i & <- & _). cbn [fst]. split; [lia|]. apply Z.even_spec. exists (Z.of_nat (h * i)). lia.
Qed.
End Value.
Print Assumptions C93_value_partial.
(** 2048 paths on four threads are two batches of 1024, with three quarters of the rows asked for and 3/2 of the mean square error *)
Example C93_case : batch_size (Z.of_nat (2 * 512 * 2)) (Z.of_nat (num_threads 4)) = Ok (Z.of_nat (2 * 512)) /\ tasks 2048 4 = Ok (even_batches 512 2) /\
  some_schedule 4 2 [(1, 3); (0, 1)]%nat /\ (512 * (2 + 1) = 1536)%nat /\ rows_used (even_batches 2 3) = [0; 1; 2; 3; 2; 3; 4; 5; 4; 5; 6; 7]%nat /\
  (exists N n, normal_law N n /\ draws n 1 (fun zs => exp (nth 0 zs 0 - / 2)) 1 /\ draws n 1 (fun zs => (exp (nth 0 zs 0 - / 2) - 1) * (exp (nth 0 zs 0 - / 2) - 1)) (exp 1 - 1)) /\ 2 - / INR 2 = 3 / 2.
Proof.
  split; [reflexivity|]. split; [vm_compute; reflexivity|]. split; [split; [apply perm_swap|repeat (apply List.Forall_cons; [cbn; auto|]); apply List.Forall_nil]|].
  split; [reflexivity|]. split; [reflexivity|]. split; [|cbn; lra]. destruct normal_law_exists as (N & n & H). exists N, n. split; [exact H|].
  pose proof (product_mean N n H 1 (fun _ => 1)) as A. pose proof (product_mean N n H 1 (fun _ => 2)) as C. pose proof (draws_expects N n H 1) as HE.
  assert (D : draws n 1 (fun zs => exp (nth 0 zs 0 - / 2)) 1) by (eapply (ex_ext _ HE); [|exact A]; intros zs; cbn [BsSpec.sum]; f_equal; lra). split; [exact D|].
  apply (ex_val _ _ (1 * (exp 1 * 1 + -2 * 1) + 1 * 1)); [ring|]. eapply (ex_ext _ HE); [|apply (ex_lin _ HE _ (fun _ => 1) _ _ 1 1 (ex_lin _ HE _ _ _ _ (exp 1) (-2) C D) (ex_const _ HE 1))].
  intros zs. cbn [BsSpec.sum]. replace (0 + (2 * nth 0 zs 0 - 2 * 2 / 2)) with (2 * nth 0 zs 0 - 2) by lra.
  replace ((exp (nth 0 zs 0 - / 2) - 1) * (exp (nth 0 zs 0 - / 2) - 1)) with (exp (nth 0 zs 0 - / 2) * exp (nth 0 zs 0 - / 2) - 2 * exp (nth 0 zs 0 - / 2) + 1) by ring.
  assert (Ee : exp (nth 0 zs 0 - / 2) * exp (nth 0 zs 0 - / 2) = exp 1 * exp (2 * nth 0 zs 0 - 2)) by (rewrite <- !exp_plus; f_equal; lra). rewrite Ee. ring.
Qed.
(** three batches of four paths: eight rows, some of them twice *)
Example C93_any_case : let ps := rows_used (even_batches 2 3) in ps <> [] /\ List.Forall (fun j => (j < 8)%nat) ps /\ ~ NoDup ps /\ NoDup (rows_used (even_batches 2 1)) /\
  BsSpec.sum 8 (fun j => INR (count_occ Nat.eq_dec ps j) * INR (count_occ Nat.eq_dec ps j)) = 20.
Proof.
  cbn zeta. split; [discriminate|]. split; [repeat constructor|]. split.
  - intros H. pose proof (proj1 (NoDup_count_occ Nat.eq_dec _) H 2%nat) as C. vm_compute in C. lia.
  - split; [repeat constructor; cbn; lia|]. cbn [BsSpec.sum]. repeat match goal with |- context [count_occ Nat.eq_dec ?l ?j] => let c := eval vm_compute in (count_occ Nat.eq_dec l j) in change (count_occ Nat.eq_dec l j) with c end. cbn [INR]. lra.
Qed.
