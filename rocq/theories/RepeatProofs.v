(** Proofs about C93. *)
From Coq Require Import Reals List ZArith Lra Lia.
From Coq Require Import Floats.SpecFloat.
From Verif Require Import Base RandomModel RandomSpec DrawSpec MomentSpec MomentProofs BsSpec RepeatSpec.
Import ListNotations.
Local Open Scope R_scope.

(** rows *)
Lemma vector_row inverse dim first i : (0 <= first)%Z -> Z.even first = true -> mrg_vector inverse dim first i = row inverse dim (Z.to_nat first / 2 + i).
Proof.
  intros H0 He. apply Z.even_spec in He. destruct He as (a & ->). assert (Ha : (0 <= a)%Z) by lia. unfold mrg_vector, row. do 3 f_equal.
  replace (2 * a * Z.of_nat dim)%Z with (a * Z.of_nat dim * 2)%Z by ring. rewrite Z.div_mul by lia. rewrite Z2Nat.inj_mul, Nat2Z.id by lia.
  replace (Z.to_nat (2 * a)) with (Z.to_nat a * 2)%nat by lia. rewrite Nat.div_mul by lia. ring.
Qed.
Lemma rows_batches h b : rows_used (even_batches h b) = flat_map (fun i => seq (h * i) (2 * h)) (seq 0 b).
Proof.
  unfold rows_used, even_batches. induction (seq 0 b) as [|i l IH]; [reflexivity|]. cbn [map flat_map fst snd]. rewrite IH, !Nat2Z.id. replace (2 * h * i)%nat with (h * i * 2)%nat by ring. now rewrite Nat.div_mul by lia.
Qed.
Lemma rows_last h b : rows_used (even_batches h (S b)) = rows_used (even_batches h b) ++ seq (h * b) (2 * h).
Proof. rewrite !rows_batches, seq_S, flat_map_app. cbn [flat_map Nat.add]. now rewrite app_nil_r. Qed.
Lemma rows_length h b : length (rows_used (even_batches h b)) = (2 * h * b)%nat.
Proof. induction b as [|b IH]; [cbn; lia|]. rewrite rows_last, app_length, seq_length, IH. ring. Qed.
Lemma rows_within h b : Forall (fun j => (j < h * (b + 1))%nat) (rows_used (even_batches h b)).
Proof.
  induction b as [|b IH]; [constructor|]. rewrite rows_last. apply Forall_app. split; [eapply Forall_impl; [|exact IH]; cbn; intros j Hj; nia|].
  apply Forall_forall. intros j Hj. apply in_seq in Hj. nia.
Qed.
(** how often a row is used *)
Fixpoint count (ps : list nat) (j : nat) : R := match ps with [] => 0 | p :: ps => (if Nat.eqb p j then 1 else 0) + count ps j end.
Lemma count_app ps qs j : count (ps ++ qs) j = count ps j + count qs j.
Proof. induction ps as [|p ps IH]; cbn [app count]; [lra|]. rewrite IH. lra. Qed.
Lemma count_seq m : forall a j, count (seq a m) j = if andb (a <=? j)%nat (j <? a + m)%nat then 1 else 0.
Proof.
  induction m as [|m IH]; intros a j; cbn [seq count].
  - destruct (andb _ _) eqn:E; [|reflexivity]. apply andb_prop in E. destruct E as [E1 E2]. apply Nat.leb_le in E1. apply Nat.ltb_lt in E2. lia.
  - rewrite IH. destruct (Nat.eqb_spec a j); destruct (Nat.leb_spec (S a) j); destruct (Nat.leb_spec a j); destruct (Nat.ltb_spec j (S a + m)); destruct (Nat.ltb_spec j (a + S m)); cbn [andb]; try lia; lra.
Qed.
Definition share (h q j : nat) : R := if (j <? h)%nat then 1 else if (j <? q)%nat then 2 else if (j <? q + h)%nat then 1 else 0.
Lemma count_rows h b j : (0 < h)%nat -> count (rows_used (even_batches h (S b))) j = share h (h * S b) j.
Proof.
  intros Hh. induction b as [|b IH].
  - rewrite rows_last, count_app. cbn [rows_used even_batches seq map flat_map count]. rewrite count_seq. unfold share. rewrite Nat.mul_0_r, Nat.mul_1_r. cbn [Nat.add].
    destruct (Nat.leb_spec 0 j); destruct (Nat.ltb_spec j (2 * h)); destruct (Nat.ltb_spec j h); destruct (Nat.ltb_spec j (h + h)); cbn [andb]; try lia; lra.
  - rewrite rows_last, count_app, IH, count_seq. unfold share. replace (h * S (S b))%nat with (h * S b + h)%nat by ring. assert (Hq : (h <= h * S b)%nat) by nia. set (q := (h * S b)%nat) in *. clearbody q.
    destruct (Nat.leb_spec q j); destruct (Nat.ltb_spec j (q + 2 * h)); destruct (Nat.ltb_spec j h); destruct (Nat.ltb_spec j q); destruct (Nat.ltb_spec j (q + h)); destruct (Nat.ltb_spec j (q + h + h)); cbn [andb]; try lia; lra.
Qed.
Lemma sum_split a b f : BsSpec.sum (a + b) f = BsSpec.sum a f + BsSpec.sum b (fun j => f (a + j)%nat).
Proof. induction b as [|b IH]; [rewrite Nat.add_0_r; cbn; lra|]. rewrite Nat.add_succ_r. cbn [BsSpec.sum]. rewrite IH. lra. Qed.
Lemma sum_same k f c : (forall j, (j < k)%nat -> f j = c) -> BsSpec.sum k f = INR k * c.
Proof. induction k as [|k IH]; intros H; [cbn; lra|]. cbn [BsSpec.sum]. rewrite IH by (intros; apply H; lia). rewrite (H k) by lia. rewrite S_INR. lra. Qed.
Lemma share_squares h q : (h <= q)%nat -> BsSpec.sum (q + h) (fun j => share h q j * share h q j) = 4 * INR q - 2 * INR h.
Proof.
  intros Hq. replace (q + h)%nat with (h + (q - h) + h)%nat by lia. rewrite !sum_split, (sum_same h _ 1), (sum_same (q - h) _ 4), (sum_same h _ 1).
  - rewrite minus_INR by exact Hq. lra.
  - intros j Hj. unfold share. destruct (Nat.ltb_spec (h + (q - h) + j) h); [lia|]. destruct (Nat.ltb_spec (h + (q - h) + j) q); [lia|]. destruct (Nat.ltb_spec (h + (q - h) + j) (q + h)); [lra|lia].
  - intros j Hj. unfold share. destruct (Nat.ltb_spec (h + j) h); [lia|]. destruct (Nat.ltb_spec (h + j) q); [lra|lia].
  - intros j Hj. unfold share. destruct (Nat.ltb_spec j h); [lra|lia].
Qed.
Lemma sum_share h q : (h <= q)%nat -> BsSpec.sum (q + h) (share h q) = 2 * INR q.
Proof.
  intros Hq. replace (q + h)%nat with (h + (q - h) + h)%nat by lia. rewrite !sum_split, (sum_same h _ 1), (sum_same (q - h) _ 2), (sum_same h _ 1).
  - rewrite minus_INR by exact Hq. lra.
  - intros j Hj. unfold share. destruct (Nat.ltb_spec (h + (q - h) + j) h); [lia|]. destruct (Nat.ltb_spec (h + (q - h) + j) q); [lia|]. destruct (Nat.ltb_spec (h + (q - h) + j) (q + h)); [lra|lia].
  - intros j Hj. unfold share. destruct (Nat.ltb_spec (h + j) h); [lia|]. destruct (Nat.ltb_spec (h + j) q); [lra|lia].
  - intros j Hj. unfold share. destruct (Nat.ltb_spec j h); [lra|lia].
Qed.
Lemma count_occurs ps j : count ps j = INR (count_occ Nat.eq_dec ps j).
Proof. induction ps as [|p ps IH]; [reflexivity|]. cbn [count count_occ]. destruct (Nat.eq_dec p j); destruct (Nat.eqb_spec p j); try lia; rewrite IH; [rewrite S_INR; lra|lra]. Qed.
Lemma rows_twice h b j : (h <= j < h * b)%nat -> count_occ Nat.eq_dec (rows_used (even_batches h b)) j = 2%nat.
Proof.
  intros Hj. destruct b as [|b]; [lia|]. apply INR_eq. rewrite <- count_occurs, count_rows by (destruct h; lia). unfold share. destruct (Nat.ltb_spec j h); [lia|]. destruct (Nat.ltb_spec j (h * S b)); [cbn; lra|lia].
Qed.
Lemma rows_all h b j : (0 < h)%nat -> (0 < b)%nat -> In j (rows_used (even_batches h b)) <-> (j < h * (b + 1))%nat.
Proof.
  intros Hh Hb. split; [intros Hj; pose proof (rows_within h b) as F; rewrite Forall_forall in F; now apply F|]. intros Hj. destruct b as [|b]; [lia|].
  apply (count_occ_In Nat.eq_dec). apply INR_lt. rewrite <- count_occurs, count_rows by exact Hh. unfold share. replace (h * (S b + 1))%nat with (h * S b + h)%nat in Hj by ring.
  destruct (Nat.ltb_spec j h); [cbn; lra|]. destruct (Nat.ltb_spec j (h * S b)); [cbn; lra|]. destruct (Nat.ltb_spec j (h * S b + h)); [cbn; lra|lia].
Qed.
(** any choice of rows *)
Lemma sum_plus_fun k f g : BsSpec.sum k (fun j => f j + g j) = BsSpec.sum k f + BsSpec.sum k g.
Proof. induction k as [|k IH]; [cbn; lra|]. cbn [BsSpec.sum]. rewrite IH. lra. Qed.
Lemma sum_indicator k p : (p < k)%nat -> BsSpec.sum k (fun j => if Nat.eqb p j then 1 else 0) = 1.
Proof.
  induction k as [|k IH]; [lia|]. intros Hp. cbn [BsSpec.sum]. destruct (Nat.eqb_spec p k) as [->|Hn]; [|rewrite IH by lia; lra].
  rewrite (sum_same k _ 0); [lra|]. intros j Hj. destruct (Nat.eqb_spec k j); [lia|reflexivity].
Qed.
Lemma sum_count k ps : Forall (fun j => (j < k)%nat) ps -> BsSpec.sum k (count ps) = INR (length ps).
Proof.
  induction 1 as [|p ps Hp _ IH]; [cbn [count length INR]; rewrite (sum_same k _ 0) by reflexivity; lra|]. change (length (p :: ps)) with (S (length ps)). rewrite S_INR, <- IH.
  rewrite <- (sum_indicator k p Hp). cbn [count]. rewrite sum_plus_fun. lra.
Qed.
Lemma sum_zero k f : (forall j, (j < k)%nat -> 0 <= f j) -> BsSpec.sum k f = 0 -> forall j, (j < k)%nat -> f j = 0.
Proof.
  induction k as [|k IH]; intros Hf Hs j Hj; [lia|]. cbn [BsSpec.sum] in Hs.
  assert (P : 0 <= BsSpec.sum k f). { clear - Hf. induction k as [|k IHk]; [cbn; lra|]. cbn [BsSpec.sum]. pose proof (Hf k ltac:(lia)). assert (0 <= BsSpec.sum k f) by (apply IHk; intros; apply Hf; lia). lra. }
  pose proof (Hf k ltac:(lia)). destruct (Nat.eq_dec j k) as [->|Hn]; [lra|]. apply IH; [intros; apply Hf; lia|lra|lia].
Qed.
Lemma squares_count k ps : Forall (fun j => (j < k)%nat) ps -> BsSpec.sum k (fun j => count ps j * count ps j) = INR (length ps) <-> NoDup ps.
Proof.
  intros F. rewrite <- (sum_count k ps F). split.
  - intros H. apply (NoDup_count_occ Nat.eq_dec). intros j. destruct (Nat.lt_ge_cases j k) as [Hj|Hj].
    + assert (Z : count ps j * count ps j + -1 * count ps j = 0).
      { apply (sum_zero k (fun j => count ps j * count ps j + -1 * count ps j)); [|rewrite sum_plus_fun, H|exact Hj].
        - intros i _. rewrite count_occurs. set (c := count_occ Nat.eq_dec ps i). destruct c as [|c]; [cbn; lra|]. rewrite S_INR. pose proof (pos_INR c). nra.
        - clear. induction k as [|k IH]; [cbn; lra|]. cbn [BsSpec.sum]. lra. }
      rewrite count_occurs in Z. destruct (count_occ Nat.eq_dec ps j) as [|[|c]]; [lia|lia|]. rewrite !S_INR in Z. pose proof (pos_INR c). nra.
    + rewrite (proj1 (count_occ_not_In Nat.eq_dec ps j)); [lia|]. intros Hin. rewrite Forall_forall in F. specialize (F j Hin). lia.
  - intros H. assert (E : forall j, count ps j * count ps j = count ps j).
    { intros j. rewrite count_occurs. pose proof (proj1 (NoDup_count_occ Nat.eq_dec ps) H j). destruct (count_occ Nat.eq_dec ps j) as [|[|c]]; [cbn; lra|cbn; lra|lia]. }
    clear - E. induction k as [|k IH]; [reflexivity|]. cbn [BsSpec.sum]. now rewrite IH, E.
Qed.
Section Weighted.
Context {A : Type}.
(** a sum over draws with weights *)
Fixpoint weighted (w : nat -> R) (g : A -> R) (l : list A) : R := match l with [] => 0 | a :: l => w O * g a + weighted (fun j => w (S j)) g l end.
Lemma weighted_ext w w' g l : (forall j, (j < length l)%nat -> w j = w' j) -> weighted w g l = weighted w' g l.
Proof. revert w w'. induction l as [|a l IH]; intros w w' H; [reflexivity|]. cbn [weighted]. rewrite (H O) by (cbn; lia). rewrite (IH _ (fun j => w' (S j))); [reflexivity|]. intros j Hj. apply H. cbn. lia. Qed.
Lemma weighted_plus w w' g l : weighted (fun j => w j + w' j) g l = weighted w g l + weighted w' g l.
Proof. revert w w'. induction l as [|a l IH]; intros w w'; cbn [weighted]; [lra|]. rewrite (IH (fun j => w (S j)) (fun j => w' (S j))). lra. Qed.
Lemma weighted_zero g l : weighted (fun _ => 0) g l = 0.
Proof. induction l as [|a l IH]; cbn [weighted]; [reflexivity|]. rewrite IH. lra. Qed.
Lemma weighted_one g d l : forall p, (p < length l)%nat -> weighted (fun j => if Nat.eqb p j then 1 else 0) g l = g (nth p l d).
Proof.
  induction l as [|a l IH]; intros p Hp; [cbn in Hp; lia|]. destruct p as [|p]; cbn [weighted nth Nat.eqb].
  - rewrite weighted_zero. lra.
  - rewrite (IH p) by (cbn in Hp; lia). lra.
Qed.
Lemma total_weighted g d l ps : Forall (fun p => (p < length l)%nat) ps -> total g (map (fun j => nth j l d) ps) = weighted (count ps) g l.
Proof.
  induction 1 as [|p ps Hp _ IH]; [cbn [map count]; rewrite weighted_zero; reflexivity|]. cbn [map]. rewrite total_cons, IH. cbn [count]. now rewrite weighted_plus, (weighted_one g d) by exact Hp.
Qed.
Lemma total_centred (f : A -> R) x L : total f L - INR (length L) * x = total (fun a => f a - x) L.
Proof. induction L as [|a L IH]; [unfold total; cbn; lra|]. rewrite !total_cons, <- IH. change (length (a :: L)) with (S (length L)). rewrite S_INR. lra. Qed.
Variable E : (A -> R) -> R -> Prop.
Hypothesis HE : expects E.
Lemma weighted_square k f x v : E f x -> E (fun a => (f a - x) * (f a - x)) v -> forall w c,
  repeated E k (fun l => (c + weighted w (fun a => f a - x) l) * (c + weighted w (fun a => f a - x) l)) (c * c + BsSpec.sum k (fun j => w j * w j) * v).
Proof.
  intros Hf Hv. induction k as [|k IH]; intros w c; [cbn; lra|]. cbn [repeated]. exists (fun a => (c + w O * (f a - x)) * (c + w O * (f a - x)) + BsSpec.sum k (fun j => w (S j) * w (S j)) * v). split.
  - intros a. eapply (rep_ext E); [|apply (IH (fun j => w (S j)) (c + w O * (f a - x)))]. intros l _. cbn beta. cbn [weighted]. ring.
  - rewrite sum_front. set (s := BsSpec.sum k _). apply (ex_val E _ (1 * (w O * w O * v + 2 * c * w O * x) + 1 * (c * c - 2 * c * w O * x + s * v))); [ring|].
    apply (ex_ext E HE (fun a => 1 * (w O * w O * ((f a - x) * (f a - x)) + 2 * c * w O * f a) + 1 * (c * c - 2 * c * w O * x + s * v))); [intros a; ring|].
    apply (ex_lin E HE (fun a => w O * w O * ((f a - x) * (f a - x)) + 2 * c * w O * f a) (fun _ => c * c - 2 * c * w O * x + s * v)); [|apply (ex_const E HE)].
    apply (ex_lin E HE (fun a => (f a - x) * (f a - x)) f); assumption.
Qed.
Lemma weighted_mean k f x : E f x -> forall w c, repeated E k (fun l => c + weighted w f l) (c + BsSpec.sum k w * x).
Proof.
  intros Hf. induction k as [|k IH]; intros w c; [cbn; lra|]. cbn [repeated]. exists (fun a => c + w O * f a + BsSpec.sum k (fun j => w (S j)) * x). split.
  - intros a. eapply (rep_ext E); [|apply (IH (fun j => w (S j)) (c + w O * f a))]. intros l _. cbn beta. cbn [weighted]. ring.
  - rewrite sum_front. set (s := BsSpec.sum k _). apply (ex_val E _ (w O * x + 1 * (c + s * x))); [ring|].
    apply (ex_ext E HE (fun a => w O * f a + 1 * (c + s * x))); [intros a; ring|]. apply (ex_lin E HE f (fun _ => c + s * x)); [exact Hf|apply (ex_const E HE)].
Qed.
Lemma batches_mean d h b f x : (0 < h)%nat -> (0 < b)%nat -> E f x -> repeated E (h * (b + 1)) (fun l => average f (map (fun j => nth j l d) (rows_used (even_batches h b)))) x.
Proof.
  intros Hh Hb Hf. destruct b as [|b]; [lia|]. assert (H1 : 0 < INR h) by now apply lt_0_INR. assert (H2 : 0 < INR (S b)) by (apply lt_0_INR; lia).
  pose proof (weighted_mean (h * (S b + 1)) f x Hf (share h (h * S b)) 0) as W.
  replace (h * (S b + 1))%nat with (h * S b + h)%nat in * by ring. rewrite (sum_share h (h * S b)) in W by nia.
  set (n2 := INR (2 * h * S b)). assert (En : n2 = 2 * INR h * INR (S b)) by (unfold n2; rewrite !mult_INR; cbn; ring). assert (Hn : 0 < n2) by (rewrite En; apply Rmult_lt_0_compat; lra).
  apply (ex_val _ _ (/ n2 * (0 + 2 * INR (h * S b) * x) + 0 * 0)); [rewrite En, mult_INR; field; lra|].
  eapply (rep_ext E); [|apply (rep_lin E HE _ _ (fun _ => 0) _ _ (/ n2) 0 W (rep_const E HE _ 0))].
  intros l Hl. cbv beta. unfold average. rewrite map_length, rows_length. fold n2. rewrite total_weighted.
  - rewrite (weighted_ext (count (rows_used (even_batches h (S b)))) (share h (h * S b))); [field; lra|]. intros j _. now apply count_rows.
  - eapply Forall_impl; [|apply rows_within]. cbv beta. intros j Hj. rewrite Hl. nia.
Qed.
Lemma batches_error d h b f x v : (0 < h)%nat -> (0 < b)%nat -> E f x -> E (fun a => (f a - x) * (f a - x)) v ->
  repeated E (h * (b + 1)) (fun l => let a := average f (map (fun j => nth j l d) (rows_used (even_batches h b))) in (a - x) * (a - x)) ((2 - / INR b) * (v / INR (2 * h * b))).
Proof.
  intros Hh Hb Hf Hv. destruct b as [|b]; [lia|]. assert (H1 : 0 < INR h) by now apply lt_0_INR. assert (H2 : 0 < INR (S b)) by (apply lt_0_INR; lia).
  pose proof (weighted_square (h * (S b + 1)) f x v Hf Hv (fun j => share h (h * S b) j) 0) as W.
  replace (h * (S b + 1))%nat with (h * S b + h)%nat in * by ring. rewrite (share_squares h (h * S b)) in W by nia.
  set (n2 := INR (2 * h * S b)). assert (En : n2 = 2 * INR h * INR (S b)) by (unfold n2; rewrite !mult_INR; cbn; ring). assert (Hn : 0 < n2) by (rewrite En; apply Rmult_lt_0_compat; lra).
  apply (ex_val _ _ (/ (n2 * n2) * (0 * 0 + (4 * INR (h * S b) - 2 * INR h) * v) + 0 * 0)); [rewrite En, mult_INR; field; lra|].
  eapply (rep_ext E); [|apply (rep_lin E HE _ _ (fun _ => 0) _ _ (/ (n2 * n2)) 0 W (rep_const E HE _ 0))].
  intros l Hl. cbv beta zeta. unfold average. rewrite map_length, rows_length. fold n2.
  assert (Ea : total f (map (fun j => nth j l d) (rows_used (even_batches h (S b)))) / n2 - x = weighted (fun j => share h (h * S b) j) (fun a => f a - x) l / n2).
  { replace (total f (map (fun j => nth j l d) (rows_used (even_batches h (S b)))) / n2 - x) with ((total f (map (fun j => nth j l d) (rows_used (even_batches h (S b)))) - n2 * x) / n2) by (field; lra). f_equal.
    pose proof (total_centred f x (map (fun j => nth j l d) (rows_used (even_batches h (S b))))) as C. rewrite map_length, rows_length in C. fold n2 in C. rewrite C.
    rewrite total_weighted; [apply weighted_ext; intros j _; now apply count_rows|]. eapply Forall_impl; [|apply rows_within]. cbv beta. intros j Hj. rewrite Hl. nia. }
  rewrite Ea. field. lra.
Qed.
Lemma rows_error d k ps f x v : ps <> [] -> Forall (fun j => (j < k)%nat) ps -> E f x -> E (fun a => (f a - x) * (f a - x)) v ->
  repeated E k (fun l => average f (map (fun j => nth j l d) ps)) x /\
  repeated E k (fun l => let a := average f (map (fun j => nth j l d) ps) in (a - x) * (a - x)) (v * BsSpec.sum k (fun j => count ps j * count ps j) / (INR (length ps) * INR (length ps))).
Proof.
  intros Hne F Hf Hv. set (n2 := INR (length ps)). assert (Hn : 0 < n2) by (unfold n2; apply lt_0_INR; destruct ps; [contradiction|cbn; lia]).
  assert (Ew : forall l : list A, length l = k -> Forall (fun p => (p < length l)%nat) ps) by (intros l ->; exact F). split.
  - apply (ex_val _ _ (/ n2 * (0 + n2 * x) + 0 * 0)); [field; lra|].
    pose proof (weighted_mean k f x Hf (count ps) 0) as W. rewrite (sum_count k ps F) in W. fold n2 in W.
    eapply (rep_ext E); [|apply (rep_lin E HE _ _ (fun _ => 0) _ _ (/ n2) 0 W (rep_const E HE _ 0))].
    intros l Hl. cbv beta. unfold average. rewrite map_length. fold n2. rewrite total_weighted by now apply Ew. field. lra.
  - pose proof (weighted_square k f x v Hf Hv (count ps) 0) as W. set (s := BsSpec.sum k _) in *.
    apply (ex_val _ _ (/ (n2 * n2) * (0 * 0 + s * v) + 0 * 0)); [field; lra|].
    eapply (rep_ext E); [|apply (rep_lin E HE _ _ (fun _ => 0) _ _ (/ (n2 * n2)) 0 W (rep_const E HE _ 0))].
    intros l Hl. cbv beta zeta. unfold average. rewrite map_length. fold n2.
    assert (Ea : total f (map (fun j => nth j l d) ps) / n2 - x = weighted (count ps) (fun a => f a - x) l / n2).
    { replace (total f (map (fun j => nth j l d) ps) / n2 - x) with ((total f (map (fun j => nth j l d) ps) - n2 * x) / n2) by (field; lra). f_equal.
      pose proof (total_centred f x (map (fun j => nth j l d) ps)) as C. rewrite map_length in C. fold n2 in C. rewrite C. now rewrite total_weighted by now apply Ew. }
    rewrite Ea. field. lra.
Qed.
End Weighted.
