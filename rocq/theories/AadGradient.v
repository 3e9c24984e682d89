(** Propagation back gives the derivative. *)
From Coq Require Import Reals List Arith Bool Lia Lra.
From Verif Require Import Base Vec BlockModel BlockProofs AadModel AadSpec AadStore AadProofs AadExec AadRealSpec AadReal.
Import ListNotations.
Open Scope R_scope.

(** whichever adjoints count as too small to be worth passing on *)
Section Any.
Variable any_tiny : R -> bool.

Notation anode := (@anode R).
Notation radj := (adj 0).
Notation rdeps := (deps 0).
Notation rset := (a_set 0).
Notation rdown := (a_down 0 Rplus Rmult).
Notation rone := (a_one 0 Rplus Rmult any_tiny r_is_zero).
Notation rall := (a_all 0 Rplus Rmult any_tiny r_is_zero).

Fixpoint sumf (n : nat) (f : nat -> R) : R := match n with O => 0 | S k => sumf k f + f k end.
Lemma sumf_ext n f g : (forall k, (k < n)%nat -> f k = g k) -> sumf n f = sumf n g.
Proof. induction n as [|n IH]; intros H; cbn [sumf]; [reflexivity|]. rewrite IH by (intros; apply H; lia). now rewrite H by lia. Qed.
Lemma sumf_upd n f g j : (j < n)%nat -> (forall k, (k < n)%nat -> k <> j -> f k = g k) -> sumf n g = sumf n f + (g j - f j).
Proof.
  induction n as [|n IH]; intros Hj H; [lia|]. cbn [sumf]. destruct (Nat.eq_dec j n) as [->|Hn].
  - rewrite (sumf_ext n g f) by (intros; symmetry; apply H; lia). ring.
  - rewrite IH by (try lia; intros; apply H; lia). rewrite (H n) by lia. ring.
Qed.
Lemma sumf_zero n : sumf n (fun _ => 0) = 0.
Proof. induction n as [|n IH]; cbn [sumf]; [reflexivity|]. rewrite IH. ring. Qed.
Lemma sumf_split m n f : sumf (m + n) f = sumf m f + sumf n (fun k => f (m + k)%nat).
Proof. induction n as [|n IH]; cbn [sumf]; [rewrite Nat.add_0_r; ring|]. rewrite Nat.add_succ_r. cbn [sumf]. rewrite IH. ring. Qed.

Lemma rdown_deps x ws : forall A k, Forall (fun w => (snd w < length A)%nat) ws -> rdeps (rdown x ws A) k = rdeps A k.
Proof. induction ws as [|[w j] ws IH]; intros A k H; cbn [a_down]; [reflexivity|]. inversion H; subst. rewrite IH by (rewrite a_set_length; assumption). now apply a_set_deps. Qed.
Lemma rdown_length x ws : forall A, length (rdown x ws A) = length A.
Proof. induction ws as [|[w j] ws IH]; intros A; cbn [a_down]; [reflexivity|]. now rewrite IH, a_set_length. Qed.
Lemma rdown_sum g x n ws : forall A, Forall (fun w => (snd w < n)%nat) ws -> (n <= length A)%nat ->
  sumf n (fun k => radj (rdown x ws A) k * g k) = sumf n (fun k => radj A k * g k) + x * wsum g ws.
Proof.
  induction ws as [|[w j] ws IH]; intros A H Hn; cbn [a_down wsum]; [ring|]. inversion H as [|? ? Hj H']; subst. cbn [snd] in Hj.
  rewrite IH by (try assumption; rewrite a_set_length; exact Hn).
  rewrite (sumf_upd n (fun k => radj A k * g k) (fun k => radj (rset A j (radj A j + x * w)) k * g k) j Hj).
  - rewrite a_set_adj, Nat.eqb_refl by lia. ring.
  - intros k Hk Hne. rewrite a_set_adj by lia. apply Nat.eqb_neq in Hne. now rewrite Hne.
Qed.
Lemma rdown_high x ws : forall A k, Forall (fun w => (snd w < k)%nat) ws -> (k <= length A)%nat -> forall j, (k <= j)%nat -> radj (rdown x ws A) j = radj A j.
Proof.
  induction ws as [|[w p] ws IH]; intros A k H Hk j Hj; cbn [a_down]; [reflexivity|]. inversion H; subst. cbn [snd] in *. rewrite (IH _ k) by (try assumption; rewrite a_set_length; assumption).
  rewrite a_set_adj by lia. destruct (Nat.eqb_spec j p); [lia|reflexivity].
Qed.

Lemma one_drops k A d : snd (rone k (A, d)) = false -> d = false.
Proof. unfold a_one. destruct (length (rdeps A k) =? 0)%nat; [auto|]. destruct (any_tiny (radj A k)); cbn [snd]; [|auto]. intros H. apply orb_false_elim in H. tauto. Qed.
Lemma downto_S hi lo : (lo < hi)%nat -> downto hi lo = hi :: downto (hi - 1) lo.
Proof. intros H. unfold downto. replace (S (hi - lo)) with (S (S (hi - 1 - lo))) by lia. rewrite (seq_S (S (hi - 1 - lo)) lo), rev_app_distr. cbn [rev app]. f_equal. lia. Qed.
Lemma downto_0 k : downto k k = [k].
Proof. unfold downto. rewrite Nat.sub_diag. reflexivity. Qed.
Lemma all_drops l : forall s, snd (rall l s) = false -> snd s = false.
Proof. induction l as [|k l IH]; intros s H; [exact H|]. unfold a_all in *. cbn [fold_left] in H. apply IH in H. destruct s as [A d]. exact (one_drops k A d H). Qed.

Section Potential.
Variable dot : nat -> R.
(** dependencies go down, and the tangents agree with them *)
Definition graph (n : nat) (A : list anode) : Prop := (n <= length A)%nat /\
  forall k, (k < n)%nat -> rdeps A k <> [] -> Forall (fun w => (snd w < k)%nat) (rdeps A k) /\ dot k = wsum dot (rdeps A k).
Definition live (A : list anode) (hi k : nat) : R := if (k <? hi)%nat then dot k else match rdeps A k with [] => dot k | _ => 0 end.
Definition potential (n : nat) (A : list anode) (hi : nat) : R := sumf n (fun k => radj A k * live A hi k).

Lemma one_step n k A d : graph n A -> (k < n)%nat -> snd (rone k (A, d)) = false ->
  potential n (fst (rone k (A, d))) k = potential n A (S k) /\ graph n (fst (rone k (A, d))) /\ (forall j, rdeps (fst (rone k (A, d))) j = rdeps A j).
Proof.
  intros [Hl G] Hk Hd. unfold a_one in *. assert (forall j, j <> k -> live A k j = live A (S k) j) as Hlive.
  { intros j Hj. unfold live. destruct (Nat.ltb_spec j k), (Nat.ltb_spec j (S k)); auto; lia. }
  assert (live A (S k) k = dot k) as HlS by (unfold live; destruct (Nat.ltb_spec k (S k)); [reflexivity|lia]).
  destruct (Nat.eqb_spec (length (rdeps A k)) 0) as [E|E]; cbn [fst snd] in *.
  - split; [|split; [split; assumption|reflexivity]]. unfold potential. apply sumf_ext. intros j _. destruct (Nat.eq_dec j k) as [->|Hj]; [|now rewrite Hlive].
    f_equal. rewrite HlS. unfold live. destruct (Nat.ltb_spec k k); [lia|]. destruct (rdeps A k); [reflexivity|discriminate].
  - assert (rdeps A k <> []) as Hne by (intros N; rewrite N in E; now elim E). destruct (G k Hk Hne) as [Gd Gw].
    assert (live A k k = 0) as Hlk by (unfold live; destruct (Nat.ltb_spec k k); [lia|]; destruct (rdeps A k); [congruence|reflexivity]).
    assert (sumf n (fun j => radj A j * live A (S k) j) = sumf n (fun j => radj A j * live A k j) + radj A k * dot k) as Hsum.
    { rewrite (sumf_upd n (fun j => radj A j * live A k j) (fun j => radj A j * live A (S k) j) k Hk) by (intros j _ Hj; now rewrite Hlive). rewrite HlS, Hlk. ring. }
    destruct (any_tiny (radj A k)) eqn:Et; cbn [fst snd] in *.
    + split; [|split; [split; assumption|reflexivity]]. unfold potential. rewrite Hsum. apply orb_false_elim in Hd as [_ Hz]. unfold r_is_zero in Hz. destruct (Req_EM_T (radj A k) 0) as [->|]; [ring|discriminate].
    + assert (Forall (fun w => (snd w < length A)%nat) (rdeps A k)) as Hb by (eapply Forall_impl; [|exact Gd]; intros w Hw; cbv beta in *; lia).
      split; [|split].
      * unfold potential. rewrite (sumf_ext n (fun j => radj (rdown (radj A k) (rdeps A k) A) j * live (rdown (radj A k) (rdeps A k) A) k j)
                                   (fun j => radj (rdown (radj A k) (rdeps A k) A) j * live A k j)).
        -- rewrite rdown_sum; [|eapply Forall_impl; [|exact Gd]; intros w Hw; cbv beta in *; lia|exact Hl]. rewrite Hsum. f_equal. f_equal. rewrite Gw. apply wsum_ext.
           intros j Hj. apply in_map_iff in Hj as (w & <- & Hw). rewrite Forall_forall in Gd. specialize (Gd w Hw). unfold live. destruct (Nat.ltb_spec (snd w) k); [reflexivity|lia].
        -- intros j _. unfold live. now rewrite rdown_deps.
      * split; [now rewrite rdown_length|]. intros j Hj. rewrite rdown_deps by exact Hb. apply G. exact Hj.
      * intros j. now rewrite rdown_deps.
Qed.
Lemma all_steps n m : forall lo A d, graph n A -> (lo + m < n)%nat -> snd (rall (downto (lo + m) lo) (A, d)) = false ->
  potential n (fst (rall (downto (lo + m) lo) (A, d))) lo = potential n A (S (lo + m)) /\ graph n (fst (rall (downto (lo + m) lo) (A, d))) /\
  (forall j, rdeps (fst (rall (downto (lo + m) lo) (A, d))) j = rdeps A j).
Proof.
  induction m as [|m IH]; intros lo A d G Hn Hd.
  - rewrite Nat.add_0_r in *. rewrite downto_0 in *. unfold a_all in *. cbn [fold_left] in *. now apply one_step.
  - rewrite (downto_S (lo + S m) lo) in * by lia. replace (lo + S m - 1)%nat with (lo + m)%nat in * by lia. unfold a_all in *. cbn [fold_left] in *.
    pose proof (all_drops (downto (lo + m) lo) _ Hd) as H1. destruct (one_step n (lo + S m) A d G Hn H1) as (P1 & G1 & D1).
    destruct (rone (lo + S m) (A, d)) as [A1 d1] eqn:E1. cbn [fst snd] in *. destruct (IH lo A1 d1 G1 ltac:(lia) Hd) as (P2 & G2 & D2).
    split; [|split; [exact G2|intros j; now rewrite D2]]. rewrite P2. replace (S (lo + m)) with (lo + S m)%nat by lia. exact P1.
Qed.
(** adjoints above the starting node are not touched *)
Lemma one_high n k A d j : graph n A -> (k < n)%nat -> (k < j)%nat -> radj (fst (rone k (A, d))) j = radj A j.
Proof.
  intros [Hl G] Hk Hj. unfold a_one. destruct (Nat.eqb_spec (length (rdeps A k)) 0) as [E|E]; [reflexivity|]. destruct (any_tiny (radj A k)); [reflexivity|]. cbn [fst].
  assert (rdeps A k <> []) as Hne by (intros N; rewrite N in E; now elim E). destruct (G k Hk Hne) as [Gd _]. apply (rdown_high _ _ A k Gd); lia.
Qed.
End Potential.

Section Gradient.
Variables ncdf erfc : R -> R.
Notation u_eval := (r_ueval ncdf erfc).
Notation vals := (r_values ncdf erfc).
Notation rec := (recorded 0 1 Rmult r_beval r_bleft r_bright u_eval r_uder).
Notation tang := (tangents ncdf erfc).
Variables (x : nat -> R) (i : nat).

Lemma fresh_deps l k : rdeps (fresh 0 l) k = nth k l [].
Proof. unfold deps, fresh. change (blank_a 0) with ((fun ws : list (R * nat) => (ws, 0)) []). rewrite map_nth. reflexivity. Qed.
Lemma fresh_adj l k : radj (fresh 0 l) k = 0.
Proof. unfold adj, fresh. change (blank_a 0) with ((fun ws : list (R * nat) => (ws, 0)) []). rewrite map_nth. reflexivity. Qed.
Lemma deps_app (A : list anode) l k : rdeps (A ++ fresh 0 l) k = if (k <? length A)%nat then rdeps A k else nth (k - length A) l [].
Proof. unfold deps at 1. destruct (Nat.ltb_spec k (length A)); [now rewrite app_nth1|]. rewrite app_nth2 by lia. exact (fresh_deps l (k - length A)). Qed.
Lemma adj_app (A : list anode) l k : radj (A ++ fresh 0 l) k = if (k <? length A)%nat then radj A k else 0.
Proof. unfold adj at 1. destruct (Nat.ltb_spec k (length A)); [now rewrite app_nth1|]. rewrite app_nth2 by lia. exact (fresh_adj l (k - length A)). Qed.

(** the recorded program is a graph on which the tangents agree *)
Lemma program_graph p vs ds (A : list anode) : length ds = length vs -> length A = length vs -> scoped p (length vs) ->
  graph (fun k => nth k ds 0) (length vs) A ->
  graph (fun k => nth k (tang x i p vs ds) 0) (length vs + length p) (A ++ fresh 0 (rec x p vs)).
Proof.
  intros Hl HA Hs [_ G]. split; [rewrite app_length; unfold fresh; rewrite map_length, recorded_length; lia|].
  intros k Hk Hne. rewrite deps_app in *. rewrite HA in *. destruct (Nat.ltb_spec k (length vs)) as [Hlt|Hge].
  - destruct (G k Hlt Hne) as [G1 G2]. split; [exact G1|]. rewrite tangents_prefix by lia. rewrite G2. apply wsum_ext. intros j Hj. apply in_map_iff in Hj as (w & <- & Hw).
    rewrite Forall_forall in G1. specialize (G1 w Hw). cbn beta in G1. rewrite tangents_prefix by lia. reflexivity.
  - destruct (tangents_deps ncdf erfc x i p vs ds (k - length vs) Hl Hs ltac:(lia)) as (T1 & T2 & T3). replace (length vs + (k - length vs))%nat with k in * by lia.
    destruct (nth_error p (k - length vs)) as [[q|v|e]|] eqn:E; try (now elim Hne; apply T3; congruence).
    destruct (T2 e eq_refl) as [T4 _]. split; [exact T4|exact T1].
Qed.
Lemma graph_nil : graph (fun k => nth k [] 0) 0 [].
Proof. split; [apply Nat.le_refl|]. intros k Hk. lia. Qed.
Lemma tracks_nil : tracks x i (fun _ => []) [] [].
Proof. repeat split; auto. intros k Hk. cbn in Hk. lia. Qed.
Lemma set_deps A k v j : (k < length A)%nat -> rdeps (rset A k v) j = rdeps A j.
Proof. apply a_set_deps. Qed.
Lemma graph_set dot n A k v : (k < length A)%nat -> graph dot n A -> graph dot n (rset A k v).
Proof. intros Hk [Hl G]. split; [now rewrite a_set_length|]. intros j Hj. rewrite set_deps by exact Hk. now apply G. Qed.

(** * A single result *)
Lemma gradient_value p result q : scoped p 0 -> smooth_program ncdf erfc x p [] -> (result < length p)%nat -> only_input p i q ->
  snd (a_gradient 0 1 Rplus Rmult any_tiny r_is_zero r_beval r_bleft r_bright u_eval r_uder x p result) = false ->
  dlim (fun y => nth result (vals (with_input x i y) p []) 0) (x i)
       (radj (fst (a_gradient 0 1 Rplus Rmult any_tiny r_is_zero r_beval r_bleft r_bright u_eval r_uder x p result)) q).
Proof.
  intros Hs Hsm Hr Hq Hd. unfold a_gradient in *.
  set (A0 := fresh 0 (rec x p [])) in *. set (ds := tang x i p [] []). set (n := length p) in *.
  assert (length A0 = n) as HA0 by (unfold A0, fresh; now rewrite map_length, recorded_length).
  pose proof (program_graph p [] [] [] eq_refl eq_refl Hs graph_nil) as G. cbn [app length Nat.add] in G. fold A0 ds n in G.
  pose proof (tracks_program ncdf erfc x i p _ [] [] tracks_nil Hs Hsm) as (_ & _ & _ & T). unfold r_values in T. rewrite values_length in T. cbn [length Nat.add] in T.
  specialize (T result Hr). fold ds in T. eapply dlim_eq; [exact T| |reflexivity].
  pose proof (graph_set _ n A0 result 1 ltac:(lia) G) as G1.
  destruct (all_steps _ n result 0 (rset A0 result 1) false G1 ltac:(cbn [Nat.add]; lia) Hd) as (P & _ & Dp). cbn [Nat.add] in P, Dp. fold n in Hr.
  set (A' := fst (rall (downto result 0) (rset A0 result 1, false))) in *.
  (* at the start: one times the tangent of the result *)
  assert (potential (fun k => nth k ds 0) n (rset A0 result 1) (S result) = nth result ds 0) as P0.
  { unfold potential. rewrite (sumf_upd n (fun _ => 0) _ result Hr).
    - rewrite sumf_zero, a_set_adj, Nat.eqb_refl by lia. unfold live. destruct (Nat.ltb_spec result (S result)); [ring|lia].
    - intros k Hk Hne. rewrite a_set_adj by lia. apply Nat.eqb_neq in Hne. rewrite Hne. unfold A0. rewrite fresh_adj. ring. }
  rewrite P0 in P. rewrite <- P. unfold potential.
  assert (q < n)%nat as Hqn by (apply nth_error_Some; rewrite (proj2 (Hq q) eq_refl); discriminate).
  assert (forall k, (k < n)%nat -> live (fun k => nth k ds 0) A' 0 k = if Nat.eqb k q then 1 else 0) as Hlive.
  { intros k Hk. unfold live. destruct (Nat.ltb_spec k 0); [lia|]. rewrite Dp, set_deps by lia. unfold A0. rewrite fresh_deps.
    destruct (tangents_deps ncdf erfc x i p [] [] k eq_refl Hs Hk) as (T1 & T2 & T3). cbn [length Nat.add] in *. fold ds in T1.
    destruct (nth_error p k) as [[j|v|e]|] eqn:E.
    - rewrite T3 by (intros; discriminate). rewrite T1. destruct (Nat.eqb_spec j i) as [->|Hj].
      + rewrite (proj1 (Hq k) E), Nat.eqb_refl. reflexivity.
      + destruct (Nat.eqb_spec k q) as [->|]; [|reflexivity]. rewrite (proj2 (Hq q) eq_refl) in E. congruence.
    - rewrite T3 by (intros; discriminate). rewrite T1. destruct (Nat.eqb_spec k q) as [->|]; [|reflexivity]. rewrite (proj2 (Hq q) eq_refl) in E. congruence.
    - destruct (T2 e eq_refl) as [_ N]. destruct (nth k (rec x p []) []); [congruence|]. destruct (Nat.eqb_spec k q) as [->|]; [|reflexivity]. rewrite (proj2 (Hq q) eq_refl) in E. congruence.
    - apply nth_error_None in E. fold n in E. lia. }
  rewrite (sumf_upd n (fun _ => 0) _ q Hqn).
  - rewrite sumf_zero, Hlive, Nat.eqb_refl by exact Hqn. ring.
  - intros k Hk Hne. rewrite Hlive by exact Hk. apply Nat.eqb_neq in Hne. rewrite Hne. ring.
Qed.

(** * Paths *)
Notation apaths := (a_paths 0 1 Rplus Rmult any_tiny r_is_zero r_beval r_bleft r_bright u_eval r_uder).
Lemma paths_drop vs l : forall s, snd (apaths x vs l s) = false -> snd s = false.
Proof. induction l as [|[p r] l IH]; intros s H; [exact H|]. cbn [a_paths] in H. exact (all_drops _ _ (IH _ H)). Qed.
(** the tangent of the result of a path *)
Definition path_tangent (vs ds : list R) (c : list (stmt R) * nat) : R := nth (snd c) (tang x i (fst c) vs ds) 0.
Definition total (l : list R) : R := fold_right Rplus 0 l.
Lemma potential_low dot n A lo : (lo <= n)%nat -> (forall k, (lo <= k < n)%nat -> live dot A lo k = 0) -> potential dot n A lo = sumf lo (fun k => radj A k * dot k).
Proof.
  intros Hle H. unfold potential. replace n with (lo + (n - lo))%nat by lia. rewrite sumf_split. rewrite (sumf_ext (n - lo) _ (fun _ => 0)).
  - rewrite sumf_zero, Rplus_0_r. apply sumf_ext. intros k Hk. unfold live. destruct (Nat.ltb_spec k lo); [reflexivity|lia].
  - intros k Hk. rewrite H by lia. ring.
Qed.
Lemma paths_sum vs ds l : length ds = length vs -> Forall (fun c => scoped (fst c) (length vs) /\ no_input (fst c) i /\ (length vs <= snd c < length vs + length (fst c))%nat) l ->
  forall A d, (length vs <= length A)%nat -> graph (fun k => nth k ds 0) (length vs) (firstn (length vs) A) -> snd (apaths x vs l (A, d)) = false ->
  let A' := fst (apaths x vs l (A, d)) in
  sumf (length vs) (fun k => radj A' k * nth k ds 0) = sumf (length vs) (fun k => radj A k * nth k ds 0) + total (map (path_tangent vs ds) l) /\
  (forall k, (k < length vs)%nat -> rdeps A' k = rdeps A k) /\ (length vs <= length A')%nat.
Proof.
  intros Hl. set (m := length vs) in *. induction l as [|[p result] l IH]; intros HF A d HA G Hd; cbn [a_paths fst snd map] in *.
  - cbn. split; [ring|]. auto.
  - inversion HF as [|? ? (Hs & Hni & Hr) HF']; subst. cbn [fst snd] in *.
    set (A1 := firstn m A ++ fresh 0 (rec x p vs)) in *. set (ts := tang x i p vs ds). set (n := (m + length p)%nat).
    assert (length (firstn m A) = m) as Hfm by (rewrite firstn_length; lia).
    pose proof (program_graph p vs ds (firstn m A) Hl Hfm Hs G) as G1. fold A1 ts in G1. fold m in G1. fold n in G1.
    assert (length A1 = n) as HA1 by (unfold A1, fresh; rewrite app_length, Hfm, map_length, recorded_length; reflexivity).
    pose proof (graph_set _ n A1 result 1 ltac:(lia) G1) as G2.
    pose proof (paths_drop vs l _ Hd) as Hd1.
    replace result with (m + (result - m))%nat in Hd1 at 1 by lia.
    destruct (all_steps _ n (result - m) m (rset A1 result 1) d G2 ltac:(lia) Hd1) as (P & G3 & Dp).
    replace (m + (result - m))%nat with result in P, G3, Dp, Hd1 by lia.
    set (A2 := fst (rall (downto result m) (rset A1 result 1, d))) in *.
    assert (length A2 = n) as HA2 by (unfold A2; rewrite a_all_length; cbn [fst]; now rewrite a_set_length).
    assert (forall k, (m <= k < n)%nat -> live (fun k => nth k ts 0) A2 m k = 0) as Hlv.
    { intros k Hk. unfold live. destruct (Nat.ltb_spec k m); [lia|]. rewrite Dp, set_deps by lia. unfold A1. rewrite deps_app, Hfm. destruct (Nat.ltb_spec k m); [lia|].
      destruct (tangents_deps ncdf erfc x i p vs ds (k - m) Hl Hs ltac:(lia)) as (T1 & T2 & T3). fold m in T1. replace (m + (k - m))%nat with k in T1 by lia. fold ts in T1.
      destruct (nth_error p (k - m)) as [[j|v|e]|] eqn:E.
      - rewrite T3 by (intros; discriminate). rewrite T1. destruct (Nat.eqb_spec j i) as [->|]; [|reflexivity]. elim Hni. eapply nth_error_In; exact E.
      - rewrite T3 by (intros; discriminate). exact T1.
      - destruct (T2 e eq_refl) as [_ N]. destruct (nth (k - m) (rec x p vs) []); [congruence|reflexivity].
      - apply nth_error_None in E. lia. }
    rewrite (potential_low _ n A2 m ltac:(lia) Hlv) in P.
    assert (potential (fun k => nth k ts 0) n (rset A1 result 1) (S result) = sumf m (fun k => radj A k * nth k ds 0) + nth result ts 0) as P0.
    { unfold potential. rewrite (sumf_upd n (fun k => if (k <? m)%nat then radj A k * nth k ds 0 else 0) _ result ltac:(lia)).
      - rewrite a_set_adj, Nat.eqb_refl by lia. unfold live. destruct (Nat.ltb_spec result (S result)); [|lia]. destruct (Nat.ltb_spec result m); [lia|].
        unfold n. rewrite sumf_split. rewrite (sumf_ext m _ (fun k => radj A k * nth k ds 0)); [|intros k Hk; destruct (Nat.ltb_spec k m); [reflexivity|lia]].
        rewrite (sumf_ext (length p) _ (fun _ => 0)); [|intros k Hk; destruct (Nat.ltb_spec (m + k) m); [lia|reflexivity]]. rewrite sumf_zero. ring.
      - intros k Hk Hne. rewrite a_set_adj by lia. apply Nat.eqb_neq in Hne. rewrite Hne. unfold A1. rewrite adj_app, Hfm. destruct (Nat.ltb_spec k m) as [Hlt|Hge]; [|ring].
        unfold live. destruct (Nat.ltb_spec k (S result)); [|lia]. unfold ts. rewrite tangents_prefix by lia. f_equal. unfold adj. rewrite <- (firstn_skipn m A) at 1. now rewrite app_nth1 by lia. }
    rewrite P0 in P.
    assert (forall k, (k < m)%nat -> rdeps A2 k = rdeps A k) as HD2.
    { intros k Hk. rewrite Dp, set_deps by lia. unfold A1. rewrite deps_app, Hfm. destruct (Nat.ltb_spec k m); [|lia]. unfold deps. rewrite <- (firstn_skipn m A) at 2. now rewrite app_nth1 by lia. }
    assert (graph (fun k => nth k ds 0) m (firstn m A2)) as G4.
    { split; [rewrite firstn_length; lia|]. intros k Hk. assert (rdeps (firstn m A2) k = rdeps (firstn m A) k) as ->.
      { unfold deps. rewrite <- (firstn_skipn m A2), <- (firstn_skipn m A) in HD2. specialize (HD2 k Hk). unfold deps in HD2. rewrite !app_nth1 in HD2 by (rewrite firstn_length; lia). exact HD2. }
      apply G. exact Hk. }
    assert (rall (downto result m) (rset A1 result 1, d) = (A2, snd (rall (downto result m) (rset A1 result 1, d)))) as ES by apply surjective_pairing.
    fold m in Hd |- *. fold A1 in Hd |- *. rewrite ES in Hd |- *. specialize (IH HF' A2 _ ltac:(lia) G4 Hd). cbv zeta in IH. destruct IH as (I1 & I2 & I3). split; [|split; [|exact I3]].
    + rewrite I1. cbn [total fold_right]. unfold path_tangent at 2. cbn [fst snd]. fold ts. unfold total.
      rewrite (sumf_ext m (fun k => radj A2 k * nth k ds 0) (fun k => radj A2 k * nth k ts 0)) by (intros k Hk; unfold ts; now rewrite tangents_prefix by lia).
      rewrite P. ring.
    + intros k Hk. rewrite I2 by exact Hk. now apply HD2.
Qed.
Lemma total_dlim (F : list (R -> R)) : forall l t, length l = length F -> (forall k, (k < length F)%nat -> dlim (nth k F (fun _ => 0)) t (nth k l 0)) ->
  dlim (fun y => total (map (fun f => f y) F)) t (total l).
Proof.
  induction F as [|f F IH]; intros [|d l] t Hl H; try discriminate; cbn [map total fold_right].
  - apply derivable_pt_lim_const.
  - apply (derivable_pt_lim_plus f (fun y => fold_right Rplus 0 (map (fun f0 => f0 y) F))); [apply (H 0%nat); cbn; lia|]. apply IH; [cbn in Hl; lia|]. intros k Hk. apply (H (S k)). cbn. lia.
Qed.
Lemma path_gradient_value pre l q : scoped pre 0 -> smooth_program ncdf erfc x pre [] -> only_input pre i q ->
  Forall (fun c => scoped (fst c) (length pre) /\ no_input (fst c) i /\ (length pre <= snd c < length pre + length (fst c))%nat /\ smooth_program ncdf erfc x (fst c) (vals x pre [])) l ->
  snd (a_path_gradient 0 1 Rplus Rmult any_tiny r_is_zero r_beval r_bleft r_bright u_eval r_uder x pre l) = false ->
  dlim (fun y => total (map (fun c => nth (snd c) (vals (with_input x i y) (fst c) (vals (with_input x i y) pre [])) 0) l)) (x i)
       (radj (fst (a_path_gradient 0 1 Rplus Rmult any_tiny r_is_zero r_beval r_bleft r_bright u_eval r_uder x pre l)) q).
Proof.
  intros Hs Hsm Hq HF Hd. unfold a_path_gradient in *. fold (vals x pre []) in *.
  set (vs := vals x pre []) in *. set (ds := tang x i pre [] []). set (m := length pre) in *.
  assert (length vs = m) as Hvs by (unfold vs, r_values; rewrite values_length; reflexivity).
  assert (length ds = m) as Hds by (unfold ds; rewrite tangents_length; reflexivity).
  assert (q < m)%nat as Hqn by (apply nth_error_Some; rewrite (proj2 (Hq q) eq_refl); discriminate).
  pose proof (tracks_program ncdf erfc x i pre _ [] [] tracks_nil Hs Hsm) as T. fold vs ds in T.
  set (A0 := fresh 0 (rec x pre [])) in *. assert (length A0 = m) as HA0 by (unfold A0, fresh; now rewrite map_length, recorded_length).
  pose proof (program_graph pre [] [] [] eq_refl eq_refl Hs graph_nil) as G. cbn [app length Nat.add] in G. fold A0 ds m in G.
  pose proof (all_drops _ _ Hd) as Hd0.
  destruct (paths_sum vs ds l ltac:(lia)) with (A := A0) (d := false) as (S1 & S2 & S3); try (rewrite ?Hvs; lia).
  { rewrite Hvs. eapply Forall_impl; [|exact HF]. intros c Hc. cbn beta in *. tauto. }
  { rewrite Hvs, firstn_all2 by lia. exact G. }
  { exact Hd0. }
  rewrite Hvs in *. set (A1 := fst (apaths x vs l (A0, false))) in *.
  assert (graph (fun k => nth k ds 0) m A1) as G1.
  { split; [exact S3|]. intros k Hk. rewrite S2 by exact Hk. now apply G. }
  assert (apaths x vs l (A0, false) = (A1, false)) as EA by (rewrite (surjective_pairing (apaths x vs l (A0, false))), Hd0; reflexivity).
  rewrite EA in Hd |- *.
  replace (m - 1)%nat with (0 + (m - 1))%nat in Hd by lia.
  destruct (all_steps _ m (m - 1) 0 A1 false G1 ltac:(lia) Hd) as (P & _ & Dp). replace (0 + (m - 1))%nat with (m - 1)%nat in * by lia. replace (S (m - 1)) with m in P by lia.
  set (A2 := fst (rall (downto (m - 1) 0) (A1, false))) in *.
  assert (potential (fun k => nth k ds 0) m A1 m = sumf m (fun k => radj A1 k * nth k ds 0)) as P1 by (apply potential_low; [lia|intros; lia]).
  assert (sumf m (fun k => radj A0 k * nth k ds 0) = 0) as P2.
  { rewrite (sumf_ext m _ (fun _ => 0)); [apply sumf_zero|]. intros k _. unfold A0. rewrite fresh_adj. ring. }
  assert (forall k, (k < m)%nat -> live (fun k => nth k ds 0) A2 0 k = if Nat.eqb k q then 1 else 0) as Hlive.
  { intros k Hk. unfold live. destruct (Nat.ltb_spec k 0); [lia|]. rewrite Dp, S2 by exact Hk. unfold A0. rewrite fresh_deps.
    destruct (tangents_deps ncdf erfc x i pre [] [] k eq_refl Hs Hk) as (T1 & T2 & T3). cbn [length Nat.add] in *. fold ds in T1.
    destruct (nth_error pre k) as [[j|v|e]|] eqn:E.
    - rewrite T3 by (intros; discriminate). rewrite T1. destruct (Nat.eqb_spec j i) as [->|Hj].
      + rewrite (proj1 (Hq k) E), Nat.eqb_refl. reflexivity.
      + destruct (Nat.eqb_spec k q) as [->|]; [|reflexivity]. rewrite (proj2 (Hq q) eq_refl) in E. congruence.
    - rewrite T3 by (intros; discriminate). rewrite T1. destruct (Nat.eqb_spec k q) as [->|]; [|reflexivity]. rewrite (proj2 (Hq q) eq_refl) in E. congruence.
    - destruct (T2 e eq_refl) as [_ N]. destruct (nth k (rec x pre []) []); [congruence|]. destruct (Nat.eqb_spec k q) as [->|]; [|reflexivity]. rewrite (proj2 (Hq q) eq_refl) in E. congruence.
    - apply nth_error_None in E. fold m in E. lia. }
  assert (radj A2 q = total (map (path_tangent vs ds) l)) as Heq.
  { rewrite P1, S1, P2, Rplus_0_l in P. rewrite <- P. unfold potential. symmetry. rewrite (sumf_upd m (fun _ => 0) _ q Hqn).
    - rewrite sumf_zero, Hlive, Nat.eqb_refl by exact Hqn. ring.
    - intros k Hk Hne. rewrite Hlive by exact Hk. apply Nat.eqb_neq in Hne. rewrite Hne. ring. }
  rewrite Heq. eapply dlim_eq; [apply (total_dlim (map (fun c y => nth (snd c) (vals (with_input x i y) (fst c) (vals (with_input x i y) pre [])) 0) l) (map (path_tangent vs ds) l) (x i))|reflexivity|].
  - now rewrite !map_length.
  - intros k Hk. rewrite map_length in Hk. destruct (nth_error l k) as [c|] eqn:Ec; [|apply nth_error_None in Ec; lia].
    rewrite Forall_forall in HF. destruct (HF c (nth_error_In _ _ Ec)) as (C1 & C2 & C3 & C4).
    rewrite (nth_indep _ 0 (path_tangent vs ds c)) by (rewrite map_length; lia). rewrite map_nth.
    assert (nth k l c = c) as El by (apply nth_error_nth; exact Ec). rewrite El.
    rewrite (nth_indep _ (fun _ => 0) ((fun c y => nth (snd c) (vals (with_input x i y) (fst c) (vals (with_input x i y) pre [])) 0) c)) by (rewrite map_length; lia).
    rewrite (map_nth (fun c y => nth (snd c) (vals (with_input x i y) (fst c) (vals (with_input x i y) pre [])) 0)). rewrite El.
    pose proof (tracks_program ncdf erfc x i (fst c) _ vs ds T) as (_ & _ & _ & T'); [rewrite Hvs; exact C1|exact C4|].
    unfold path_tangent. apply T'. unfold r_values. rewrite values_length, Hvs. lia.
  - intros y. cbv beta. now rewrite map_map.
Qed.
End Gradient.
End Any.
