From Coq Require Import ZArith List Bool Lia ZifyBool Permutation.
From Verif Require Import Base Vec SimModel.
Import ListNotations.
Open Scope Z_scope.
Ltac Zify.zify_post_hook ::= Z.div_mod_to_equations.

Lemma to_int_id z : 0 <= z < 2 ^ 31 -> to_int z = z.
Proof. intros H. unfold to_int. rewrite Z.mod_small by lia. destruct (Z.ltb_spec z (2 ^ 31)); lia. Qed.
Lemma zrange_app a n m : zrange a (n + m) = zrange a n ++ zrange (a + Z.of_nat n) m.
Proof. revert a; induction n as [|n IH]; intros a; cbn [Nat.add zrange app]; [f_equal; lia|]. rewrite IH. do 3 f_equal. lia. Qed.
Lemma spawn_ok bs : 0 < bs -> forall fuel first left, left <= Z.of_nat fuel -> exists l, spawn fuel bs first left = Ok l /\
  concat (map paths_of l) = zrange first (Z.to_nat left) /\ Forall (fun t => 0 < snd t <= bs) l /\ Z.of_nat (length l) <= Z.max 0 ((left + bs - 1) / bs).
Proof.
  intros Hb. induction fuel as [|f IH]; intros first left Hf; cbn [spawn].
  - destruct (Z.leb_spec left 0); [|lia]. exists []. replace (Z.to_nat left) with 0%nat by lia. cbn. split; [reflexivity|]. split; [reflexivity|]. split; [constructor|lia].
  - destruct (Z.leb_spec left 0) as [H|H].
    + exists []. replace (Z.to_nat left) with 0%nat by lia. cbn. split; [reflexivity|]. split; [reflexivity|]. split; [constructor|lia].
    + destruct (IH (first + Z.min left bs) (left - Z.min left bs)) as (l & E & C & F & L); [lia|]. rewrite E. cbn [obind]. eexists. split; [reflexivity|]. cbn [map concat]. unfold paths_of at 1. cbn [fst snd]. rewrite C.
      split; [|split; [constructor; [cbn; lia|exact F]|]].
      * rewrite <- (Z2Nat.id (Z.min left bs)) at 2 by lia. rewrite <- zrange_app. f_equal. lia.
      * cbn [length]. destruct (Z.le_gt_cases left bs) as [Hl|Hl].
        -- rewrite Z.min_l in L by lia. assert (1 <= (left + bs - 1) / bs) by (apply Z.div_le_lower_bound; lia). rewrite Z.sub_diag in L. assert ((0 + bs - 1) / bs = 0) by (apply Z.div_small; lia). lia.
        -- rewrite Z.min_r in L by lia. replace (left + bs - 1) with (left - bs + bs - 1 + 1 * bs) by lia. rewrite Z.div_add by lia. assert (0 <= (left - bs + bs - 1) / bs) by (apply Z.div_pos; lia). lia.
Qed.
Lemma batch_size_ok n t : 0 <= n < 2 ^ 31 -> 0 < t -> ~ (n = 2 ^ 31 - 1 /\ t = 1) -> exists bs, batch_size n t = Ok bs /\ 1024 <= bs.
Proof.
  intros Hn Ht H. unfold batch_size. destruct (Z.eqb_spec t 0); [lia|]. assert (Hq : 0 <= n / t <= n) by (split; [apply Z.div_pos; lia|apply Z.div_le_upper_bound; nia]). rewrite to_int_id by lia.
  destruct (Z.eqb_spec (n / t) (2 ^ 31 - 1)) as [E|E].
  - exfalso. apply H. split; [lia|]. destruct (Z.eq_dec t 1); [assumption|]. assert (n / t <= n / 2) by (apply Z.div_le_compat_l; lia). lia.
  - eexists. split; [reflexivity|]. unfold BATCH_SIZE. lia.
Qed.

(** running the tasks *)
Lemma nth_map_default {A B} (f : A -> B) l n d e : (n < length l)%nat -> nth n (map f l) d = f (nth n l e).
Proof. revert n; induction l as [|x l IH]; intros [|n] H; cbn in *; try lia; auto. apply IH. lia. Qed.
Lemma concat_set {A} (l : list (list A)) n x : (n < length l)%nat -> Permutation (concat (set_nth l n (nth n l [] ++ x))) (concat l ++ x).
Proof.
  revert n; induction l as [|y l IH]; intros [|n] H; cbn [set_nth nth concat length] in *; try lia.
  - rewrite <- !app_assoc. apply Permutation_app_head, Permutation_app_comm.
  - rewrite <- app_assoc. apply Permutation_app_head, IH. lia.
Qed.
Lemma run_aad_ok ts order : forall res, Forall (fun p => (fst p < length ts)%nat /\ (snd p < length res)%nat) order ->
  exists res', run_aad ts order res = Ok res' /\ length res' = length res /\ Permutation (concat res') (concat res ++ concat (map (fun p => paths_of (nth (fst p) ts (0, 0))) order)).
Proof.
  induction order as [|[k th] order IH]; intros res H; cbn [run_aad map concat]; [exists res; rewrite app_nil_r; auto|]. apply Forall_cons_iff in H as [[Hk Ht] H]. cbn [fst snd] in *.
  rewrite (get_ok ts k (0, 0)), (get_ok res th []) by assumption. cbn [obind]. rewrite put_ok by assumption. cbn [obind]. destruct (IH (set_nth res th (nth th res [] ++ paths_of (nth k ts (0, 0))))) as (res' & E & L & P).
  - rewrite set_nth_length. exact H.
  - exists res'. split; [exact E|]. split; [rewrite L; apply set_nth_length|]. rewrite P. rewrite app_assoc. apply Permutation_app_tail. now apply concat_set.
Qed.
Lemma run_double_ok ts areas order : forall res, length res = length ts -> Forall (fun p => (fst p < length ts)%nat /\ (snd p < areas)%nat) order ->
  exists res', run_double ts order areas res = Ok res' /\ length res' = length res /\ Permutation (concat res') (concat res ++ concat (map (fun p => paths_of (nth (fst p) ts (0, 0))) order)).
Proof.
  induction order as [|[k th] order IH]; intros res Hl H; cbn [run_double map concat]; [exists res; rewrite app_nil_r; auto|]. apply Forall_cons_iff in H as [[Hk Ht] H]. cbn [fst snd] in *.
  apply Nat.ltb_lt in Ht. rewrite Ht. rewrite (get_ok ts k (0, 0)), (get_ok res k []) by lia. cbn [obind]. rewrite put_ok by lia. cbn [obind]. destruct (IH (set_nth res k (nth k res [] ++ paths_of (nth k ts (0, 0))))) as (res' & E & L & P).
  - now rewrite set_nth_length.
  - exact H.
  - exists res'. split; [exact E|]. split; [rewrite L; apply set_nth_length|]. rewrite P. rewrite app_assoc. apply Permutation_app_tail. apply concat_set. lia.
Qed.
Lemma concat_order ts (order : list (nat * nat)) : Permutation (map fst order) (seq 0 (length ts)) ->
  Permutation (concat (map (fun p => paths_of (nth (fst p) ts (0, 0))) order)) (concat (map paths_of ts)).
Proof.
  intros H. rewrite <- (map_map fst (fun k => paths_of (nth k ts (0, 0)))). rewrite <- !flat_map_concat_map. rewrite (Permutation_flat_map _ H). rewrite !flat_map_concat_map.
  rewrite <- (map_map (fun k => nth k ts (0, 0)) paths_of). replace (map (fun k => nth k ts (0, 0)) (seq 0 (length ts))) with ts; [reflexivity|]. clear.
  apply nth_ext with (d := (0, 0)) (d' := (0, 0)); [now rewrite map_length, seq_length|]. intros n Hn. rewrite (nth_map_default _ _ _ _ 0%nat) by (rewrite seq_length; exact Hn). now rewrite seq_nth.
Qed.
Lemma concat_repeat_nil {A} n : concat (repeat (@nil A) n) = [].
Proof. induction n; cbn; auto. Qed.
