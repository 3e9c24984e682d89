(** Adjoints are derivatives. *)
From Coq Require Import Reals List Arith Bool Lia Lra.
From Verif Require Import Base Vec AadModel AadSpec AadProofs AadExec AadRealSpec.
Import ListNotations.
Open Scope R_scope.

Notation dlim := derivable_pt_lim.
Lemma dlim_eq f g x l l' : dlim f x l -> l = l' -> (forall z, f z = g z) -> dlim g x l'.
Proof. intros H -> E. exact (derivable_pt_lim_ext f g x l' E H). Qed.
Lemma dlim_comp f g x l m : dlim f x l -> dlim g (f x) m -> dlim (fun z => g (f z)) x (m * l).
Proof. intros H G. exact (derivable_pt_lim_comp f g x l m H G). Qed.

Section Local.
Variables ncdf erfc : R -> R.
Notation u_eval := (r_ueval ncdf erfc).

Lemma d_exp2 x : dlim (fun z => exp (- (1 / 2) * z * z)) x (- x * exp (- (1 / 2) * x * x)).
Proof.
  eapply dlim_eq; [apply (dlim_comp (fun z => - (1 / 2) * z * z) exp x)| |].
  - apply (derivable_pt_lim_mult (fun z => - (1 / 2) * z) (fun z => z)); [apply (derivable_pt_lim_scal (fun z => z)); apply derivable_pt_lim_id|apply derivable_pt_lim_id].
  - apply derivable_pt_lim_exp.
  - cbv beta. field.
  - reflexivity.
Qed.
Lemma d_npdf x : Rabs x <> 10 -> dlim npdf x (- x * npdf x).
Proof.
  intros Hx. assert (x < -10 \/ -10 < x < 10 \/ 10 < x) as [H|[H|H]].
  { destruct (Rle_dec 0 x) as [P|P].
    - rewrite Rabs_pos_eq in Hx by exact P. lra.
    - rewrite Rabs_left in Hx by lra. lra. }
  - apply (derivable_pt_lim_locally_ext (fun _ => 0) npdf x (x - 1) (-10)); [lra| |].
    + intros z Hz. unfold npdf. destruct (Rlt_dec z (-10)); lra.
    + unfold npdf. destruct (Rlt_dec x (-10)); [|lra]. rewrite Rmult_0_r. apply derivable_pt_lim_const.
  - apply (derivable_pt_lim_locally_ext (fun z => exp (- (1 / 2) * z * z) / (2506628274631 / 1000000000000)) npdf x (-10) 10); [lra| |].
    + intros z Hz. unfold npdf. destruct (Rlt_dec z (-10)); [lra|]. destruct (Rlt_dec 10 z); [lra|reflexivity].
    + eapply dlim_eq; [apply (derivable_pt_lim_scal _ (/ (2506628274631 / 1000000000000)) x _ (d_exp2 x))| |].
      * unfold npdf. destruct (Rlt_dec x (-10)); [lra|]. destruct (Rlt_dec 10 x); [lra|]. field.
      * intros z. unfold mult_real_fct. unfold Rdiv at 3. ring.
  - apply (derivable_pt_lim_locally_ext (fun _ => 0) npdf x 10 (x + 1)); [lra| |].
    + intros z Hz. unfold npdf. destruct (Rlt_dec z (-10)); [lra|]. destruct (Rlt_dec 10 z); lra.
    + unfold npdf. destruct (Rlt_dec x (-10)); [lra|]. destruct (Rlt_dec 10 x); [|lra]. rewrite Rmult_0_r. apply derivable_pt_lim_const.
Qed.
Lemma d_abs x : x <> 0 -> dlim Rabs x (if Rlt_dec 0 x then 1 else -1).
Proof. intros H. destruct (Rlt_dec 0 x) as [P|P]; [now apply Rabs_derive_1|apply Rabs_derive_2; lra]. Qed.
Lemma rmax_abs a b : Rmax a b = (a + b + Rabs (a - b)) * / 2.
Proof. unfold Rmax. destruct (Rle_dec a b); [rewrite Rabs_left1 by lra|rewrite Rabs_pos_eq by lra]; lra. Qed.
Lemma rmin_abs a b : Rmin a b = (a + b - Rabs (a - b)) * / 2.
Proof. unfold Rmin. destruct (Rle_dec a b); [rewrite Rabs_left1 by lra|rewrite Rabs_pos_eq by lra]; lra. Qed.

(** a two-argument operation of two functions *)
Lemma b_derive o (f g : R -> R) t l r : dlim f t l -> dlim g t r -> b_smooth o (f t) (g t) ->
  dlim (fun z => r_beval o (f z) (g z)) t
       (r_bleft o (f t) (g t) (r_beval o (f t) (g t)) * l + r_bright o (f t) (g t) (r_beval o (f t) (g t)) * r).
Proof.
  intros F G H. destruct o; cbn [r_beval r_bleft r_bright b_smooth] in *.
  - eapply dlim_eq; [apply (derivable_pt_lim_mult f g t l r F G)|ring|reflexivity].
  - eapply dlim_eq; [apply (derivable_pt_lim_plus f g t l r F G)|ring|reflexivity].
  - eapply dlim_eq; [apply (derivable_pt_lim_minus f g t l r F G)|ring|reflexivity].
  - eapply dlim_eq; [apply (derivable_pt_lim_div f g t l r F G H)|unfold Rsqr; field; exact H|reflexivity].
  - unfold Rpower. eapply dlim_eq; [apply (dlim_comp (fun z => g z * ln (f z)) exp t)| |].
    + apply (derivable_pt_lim_mult g (fun z => ln (f z)) t r); [exact G|]. apply (dlim_comp f ln t l); [exact F|]. now apply derivable_pt_lim_ln.
    + apply derivable_pt_lim_exp.
    + cbv beta. field. lra.
    + reflexivity.
  - eapply dlim_eq.
    + apply (derivable_pt_lim_scal (fun z => f z + g z + Rabs (f z - g z)) (/ 2) t).
      apply (derivable_pt_lim_plus (fun z => f z + g z) (fun z => Rabs (f z - g z)) t); [apply (derivable_pt_lim_plus f g t l r F G)|].
      apply (dlim_comp (fun z => f z - g z) Rabs t); [apply (derivable_pt_lim_minus f g t l r F G)|]. apply d_abs. lra.
    + cbv beta. destruct (Rlt_dec 0 (f t - g t)), (Rlt_dec (g t) (f t)), (Rlt_dec (f t) (g t)); lra.
    + intros z. unfold mult_real_fct. rewrite rmax_abs. ring.
  - eapply dlim_eq.
    + apply (derivable_pt_lim_scal (fun z => f z + g z - Rabs (f z - g z)) (/ 2) t).
      apply (derivable_pt_lim_minus (fun z => f z + g z) (fun z => Rabs (f z - g z)) t); [apply (derivable_pt_lim_plus f g t l r F G)|].
      apply (dlim_comp (fun z => f z - g z) Rabs t); [apply (derivable_pt_lim_minus f g t l r F G)|]. apply d_abs. lra.
    + cbv beta. destruct (Rlt_dec 0 (f t - g t)), (Rlt_dec (g t) (f t)), (Rlt_dec (f t) (g t)); lra.
    + intros z. unfold mult_real_fct. rewrite rmin_abs. ring.
Qed.
Lemma d_const c t : dlim (fun _ => c) t 0.
Proof. apply derivable_pt_lim_const. Qed.
(** a one-argument operation of a function *)
Lemma u_derive o (f : R -> R) d t l : dlim f t l -> u_smooth ncdf erfc o (f t) d ->
  dlim (fun z => u_eval o (f z) d) t (r_uder o (f t) (u_eval o (f t) d) d * l).
Proof.
  intros F H. destruct o; cbn [r_ueval r_uder u_smooth] in *.
  - apply (dlim_comp f exp t l); [exact F|apply derivable_pt_lim_exp].
  - eapply dlim_eq; [apply (dlim_comp f ln t l); [exact F|now apply derivable_pt_lim_ln]|field; lra|reflexivity].
  - eapply dlim_eq; [apply (dlim_comp f sqrt t l); [exact F|now apply derivable_pt_lim_sqrt]| |reflexivity].
    field. intros E. apply sqrt_eq_0 in E; lra.
  - apply (dlim_comp f Rabs t l); [exact F|now apply d_abs].
  - apply (dlim_comp f npdf t l); [exact F|now apply d_npdf].
  - apply (dlim_comp f ncdf t l); [exact F|exact H].
  - apply (dlim_comp f erfc t l); [exact F|exact H].
  - eapply dlim_eq; [apply (derivable_pt_lim_scal f d t l F)|reflexivity|intros z; unfold mult_real_fct; ring].
  - eapply dlim_eq; [apply (derivable_pt_lim_plus f (fun _ => d) t l 0 F (d_const d t))|ring|reflexivity].
  - eapply dlim_eq; [apply (derivable_pt_lim_minus (fun _ => d) f t 0 l (d_const d t) F)|ring|reflexivity].
  - eapply dlim_eq; [apply (derivable_pt_lim_minus f (fun _ => d) t l 0 F (d_const d t))|ring|reflexivity].
  - eapply dlim_eq; [apply (derivable_pt_lim_div (fun _ => d) f t 0 l (d_const d t) F H)|unfold Rsqr; field; exact H|reflexivity].
  - eapply dlim_eq; [apply (derivable_pt_lim_div f (fun _ => d) t l 0 F (d_const d t) H)|unfold Rsqr; field; exact H|reflexivity].
  - unfold Rpower. eapply dlim_eq; [apply (dlim_comp (fun z => f z * ln d) exp t); [|apply derivable_pt_lim_exp]| |reflexivity].
    + apply (derivable_pt_lim_mult f (fun _ => ln d) t l 0 F (d_const (ln d) t)).
    + cbv beta. ring.
  - unfold Rpower. eapply dlim_eq; [apply (dlim_comp (fun z => d * ln (f z)) exp t); [|apply derivable_pt_lim_exp]| |reflexivity].
    + apply (derivable_pt_lim_scal (fun z => ln (f z)) d t). apply (dlim_comp f ln t l); [exact F|now apply derivable_pt_lim_ln].
    + cbv beta. field. lra.
  - eapply dlim_eq; [apply (b_derive OPMax f (fun _ => d) t l 0 F (d_const d t) H)| |reflexivity]. cbn [r_bleft r_bright]. ring.
  - eapply dlim_eq; [apply (b_derive OPMin f (fun _ => d) t l 0 F (d_const d t) H)| |reflexivity]. cbn [r_bleft r_bright]. ring.
Qed.

(** * Expressions *)
Notation r_eval := (eval r_beval u_eval).
Notation r_weights := (weights Rmult r_beval r_bleft r_bright u_eval r_uder).
Fixpoint wsum (dot : nat -> R) (ws : list (R * nat)) : R := match ws with [] => 0 | (w, k) :: r => w * dot k + wsum dot r end.
Lemma wsum_app dot a b : wsum dot (a ++ b) = wsum dot a + wsum dot b.
Proof. induction a as [|[w k] a IH]; cbn [app wsum]; [ring|]. rewrite IH. ring. Qed.
Lemma wsum_ext dot dot' ws : (forall k, In k (map snd ws) -> dot k = dot' k) -> wsum dot ws = wsum dot' ws.
Proof. induction ws as [|[w k] ws IH]; intros H; cbn [wsum map] in *; [reflexivity|]. rewrite IH by (intros j Hj; apply H; now right). rewrite (H k (or_introl eq_refl)). reflexivity. Qed.
Lemma expr_derive (V : R -> nat -> R) t dot e : (forall k, In k (leaves e) -> dlim (fun z => V z k) t (dot k)) -> smooth ncdf erfc (V t) e ->
  exists d, dlim (fun z => r_eval (V z) e) t d /\ forall x, wsum dot (r_weights (V t) e x) = x * d.
Proof.
  induction e as [k|o l IHl r IHr|o a IHa c]; intros H S; cbn [leaves smooth] in *.
  - exists (dot k). split; [apply H; now left|]. intros x. cbn. ring.
  - destruct S as (Sl & Sr & So). destruct IHl as (dl & Dl & El); [intros k Hk; apply H, in_or_app; now left|exact Sl|].
    destruct IHr as (dr & Dr & Er); [intros k Hk; apply H, in_or_app; now right|exact Sr|].
    eexists. split; [apply (b_derive o _ _ t _ _ Dl Dr So)|]. intros x. cbn [weights eval]. rewrite wsum_app, El, Er. ring.
  - destruct S as (Sa & So). destruct IHa as (da & Da & Ea); [exact H|exact Sa|].
    eexists. split; [apply (u_derive o _ c t _ Da So)|]. intros x. cbn [weights eval]. rewrite Ea. ring.
Qed.

(** * Programs: the tangents of the numbers *)
Section Tangent.
Variables (x : nat -> R) (i : nat).
Notation vals := (r_values ncdf erfc).
Notation val1 := (value_of 0 r_beval u_eval).
Definition tangent1 (s : stmt R) (vs ds : list R) : R :=
  match s with
  | Input j => if Nat.eqb j i then 1 else 0
  | Const _ => 0
  | Expr e => wsum (fun k => nth k ds 0) (r_weights (fun k => nth k vs 0) e 1)
  end.
Fixpoint tangents (p : list (stmt R)) (vs ds : list R) : list R :=
  match p with [] => ds | s :: r => tangents r (vs ++ [val1 x s vs]) (ds ++ [tangent1 s vs ds]) end.
(** the functions in [W] have the values [vs] and the derivatives [ds] at [x i] *)
Definition tracks (W : R -> list R) (vs ds : list R) : Prop :=
  W (x i) = vs /\ length ds = length vs /\ (forall z, length (W z) = length vs) /\ forall k, (k < length vs)%nat -> dlim (fun z => nth k (W z) 0) (x i) (nth k ds 0).
Lemma with_same : forall j, with_input x i (x i) j = x j.
Proof. intros j. unfold with_input. destruct (Nat.eqb_spec j i); congruence. Qed.
Lemma val1_same s vs : val1 (with_input x i (x i)) s vs = val1 x s vs.
Proof. destruct s; cbn; auto. apply with_same. Qed.
Lemma tracks_step W vs ds s : tracks W vs ds -> scoped1 s (length vs) -> match s with Expr e => smooth ncdf erfc (fun k => nth k vs 0) e | _ => True end ->
  tracks (fun z => W z ++ [val1 (with_input x i z) s (W z)]) (vs ++ [val1 x s vs]) (ds ++ [tangent1 s vs ds]).
Proof.
  intros (H1 & H2 & H3 & H4) Hs Hsm. split; [|split; [|split]].
  - rewrite H1, val1_same. reflexivity.
  - rewrite !app_length, H2. reflexivity.
  - intros z. rewrite !app_length, H3. reflexivity.
  - intros k Hk. rewrite app_length in Hk. cbn [length] in Hk. destruct (Nat.lt_ge_cases k (length vs)) as [Hlt|Hge].
    + rewrite app_nth1 by lia. eapply dlim_eq; [apply (H4 k Hlt)|reflexivity|]. intros z. cbv beta. rewrite app_nth1 by (rewrite H3; lia). reflexivity.
    + assert (k = length vs) as -> by lia. replace (nth (length vs) (ds ++ [tangent1 s vs ds]) 0) with (tangent1 s vs ds) by (rewrite <- H2, app_nth2, Nat.sub_diag by lia; reflexivity).
      assert (dlim (fun z => val1 (with_input x i z) s (W z)) (x i) (tangent1 s vs ds)) as G.
      { destruct s as [j|v|e]; cbn [value_of tangent1].
        - unfold with_input. destruct (Nat.eqb j i); [apply derivable_pt_lim_id|apply d_const].
        - apply d_const.
        - destruct (expr_derive (fun z k => nth k (W z) 0) (x i) (fun k => nth k ds 0) e) as (d & Hd & Hw).
          + intros k Hk'. apply H4. cbn [scoped1] in Hs. rewrite Forall_forall in Hs. now apply Hs.
          + rewrite H1. exact Hsm.
          + cbv beta in Hw. rewrite H1 in Hw. rewrite Hw, Rmult_1_l. exact Hd. }
      eapply dlim_eq; [exact G|reflexivity|]. intros z. cbv beta. rewrite <- (H3 z), app_nth2, Nat.sub_diag by lia. reflexivity.
Qed.
Lemma tracks_program p : forall W vs ds, tracks W vs ds -> scoped p (length vs) -> smooth_program ncdf erfc x p vs ->
  tracks (fun z => vals (with_input x i z) p (W z)) (vals x p vs) (tangents p vs ds).
Proof.
  induction p as [|s p IH]; intros W vs ds H Hs Hsm; [exact H|]. destruct Hs as [Hs1 Hs2]. destruct Hsm as [Hm1 Hm2].
  cbn [tangents]. unfold r_values in *. cbn [values].
  apply (IH (fun z => W z ++ [val1 (with_input x i z) s (W z)])); [now apply tracks_step| |exact Hm2].
  rewrite app_length, Nat.add_1_r. exact Hs2.
Qed.
Lemma tangents_length p : forall vs ds, length (tangents p vs ds) = (length ds + length p)%nat.
Proof. induction p as [|s p IH]; intros vs ds; cbn [tangents length]; [lia|]. rewrite IH, app_length. cbn. lia. Qed.
Lemma tangents_prefix p : forall vs ds k, (k < length ds)%nat -> nth k (tangents p vs ds) 0 = nth k ds 0.
Proof. induction p as [|s p IH]; intros vs ds k Hk; cbn [tangents]; [reflexivity|]. rewrite IH by (rewrite app_length; lia). now rewrite app_nth1 by lia. Qed.
(** tangents of recorded nodes follow from those they depend on *)
Notation rec := (recorded 0 1 Rmult r_beval r_bleft r_bright u_eval r_uder).
Lemma tangents_deps p : forall vs ds j, length ds = length vs -> scoped p (length vs) -> (j < length p)%nat ->
  nth (length vs + j) (tangents p vs ds) 0 =
    match nth_error p j with
    | Some (Expr _) => wsum (fun k => nth k (tangents p vs ds) 0) (nth j (rec x p vs) [])
    | Some (Input q) => if Nat.eqb q i then 1 else 0
    | _ => 0 end /\
  (forall e, nth_error p j = Some (Expr e) -> Forall (fun w => (snd w < length vs + j)%nat) (nth j (rec x p vs) []) /\ nth j (rec x p vs) [] <> []) /\
  ((forall e, nth_error p j <> Some (Expr e)) -> nth j (rec x p vs) [] = []).
Proof.
  induction p as [|s p IH]; intros vs ds j Hl Hs Hj; [cbn in Hj; lia|]. destruct Hs as [Hs1 Hs2]. cbn [tangents recorded]. destruct j as [|j]; cbn [nth nth_error].
  - rewrite Nat.add_0_r. split; [|split].
    + rewrite tangents_prefix by (rewrite app_length; cbn; lia). rewrite <- Hl, app_nth2, Nat.sub_diag by lia. cbn [nth].
      destruct s as [q|v|e]; cbn [tangent1 new_deps]; auto. apply wsum_ext. intros k Hk. rewrite weights_leaves in Hk. cbn [scoped1] in Hs1. rewrite Forall_forall in Hs1. pose proof (Hs1 k Hk).
      rewrite tangents_prefix by (rewrite app_length; lia). rewrite app_nth1 by lia. reflexivity.
    + intros e [= ->]. cbn [new_deps]. split.
      * cbn [scoped1] in Hs1. rewrite <- (weights_leaves Rmult r_beval r_bleft r_bright u_eval r_uder (fun k => nth k vs 0) e 1) in Hs1. rewrite Forall_forall in *. intros w Hw. apply Hs1. now apply in_map.
      * intros E. pose proof (weights_leaves Rmult r_beval r_bleft r_bright u_eval r_uder (fun k => nth k vs 0) e 1) as Q. rewrite E in Q. cbn in Q. clear - Q. assert (leaves e <> []) as N.
        { clear Q. induction e; cbn [leaves]; auto; [discriminate|]. intros E. apply app_eq_nil in E as [E _]. auto. }
        congruence.
    + destruct s as [q|v|e]; intros N; cbn [new_deps]; auto. now elim (N e).
  - specialize (IH (vs ++ [val1 x s vs]) (ds ++ [tangent1 s vs ds]) j). rewrite !app_length in IH. cbn [length] in IH. replace (length vs + 1 + j)%nat with (length vs + S j)%nat in IH by lia. cbn [length] in Hj.
    apply IH; [lia| |lia]. rewrite Nat.add_1_r. exact Hs2.
Qed.
End Tangent.
End Local.
