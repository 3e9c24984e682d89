(** Proofs for C85. *)
From Coq Require Import List ZArith Bool Permutation Lia.
From Coq Require Import Floats.SpecFloat.
From Verif Require Import Base Vec StringModel StringProofs SimModel SimProofs RandomModel RandomSpec RandomProofs DrawModel DrawSpec.
Import ListNotations.
Open Scope Z_scope.

Section Generic.
Context {G P : Type}.
Variable skip : Z -> G -> outcome G.
Variable fill : G -> outcome (list spec_float * G).
Variable dress : list spec_float -> list spec_float.
Variable stands : G -> P -> Prop.
Variable place : Z -> P.
Variable next : P -> P.
Variable value : P -> list spec_float.
Variable good : Z -> Prop.
Hypothesis skip_ok : forall g p n, stands g p -> good n -> exists g', skip n g = Ok g' /\ stands g' (place n).
Hypothesis fill_ok : forall g p, stands g p -> exists g', fill g = Ok (value p, g') /\ stands g' (next p).
Definition path_of (first : Z) (i : nat) : list spec_float := dress (value (Nat.iter i next (place first))).
Definition task_draws (t : Z * Z) : list (list spec_float) := map (path_of (fst t)) (seq 0 (Z.to_nat (snd t))).
Lemma iter_in {A} (f : A -> A) n x : Nat.iter n f (f x) = f (Nat.iter n f x).
Proof. induction n as [|n IH]; [reflexivity|]. change (f (Nat.iter n f (f x)) = f (f (Nat.iter n f x))). now rewrite IH. Qed.
Lemma fills_ok k : forall g p, stands g p -> exists g', fills fill dress k g = Ok (map (fun i => dress (value (Nat.iter i next p))) (seq 0 k), g') /\ stands g' (Nat.iter k next p).
Proof.
  induction k as [|k IH]; intros g p H; cbn [fills]; [exists g; split; [reflexivity|exact H]|]. destruct (fill_ok g p H) as (g1 & -> & H1). cbn [obind fst snd].
  destruct (IH g1 (next p) H1) as (g2 & -> & H2). cbn [obind fst snd]. exists g2. rewrite iter_in in H2. split; [|exact H2].
  cbn [seq map]. rewrite <- seq_shift, map_map. do 3 f_equal. apply map_ext. intros i. now rewrite iter_in.
Qed.
Definition standing (g : G) : Prop := exists p, stands g p.
Lemma forall_set {A} (Q : A -> Prop) l k v : Forall Q l -> Q v -> Forall Q (set_nth l k v).
Proof.
  intros F Hv. revert k. induction F as [|x l Hx F IH]; intros k; [destruct k; constructor|]. destruct k; cbn; constructor; auto.
Qed.
Lemma run_draws_ok ts : Forall (fun t => good (fst t)) ts -> forall order gens res, Datatypes.length res = Datatypes.length ts -> NoDup (map fst order) -> Forall standing gens ->
  Forall (fun p => (fst p < Datatypes.length ts)%nat /\ (snd p < Datatypes.length gens)%nat) order ->
  exists res', run_draws skip fill dress ts order gens res = Ok res' /\ Datatypes.length res' = Datatypes.length ts /\
    forall k, (k < Datatypes.length ts)%nat -> nth k res' [] = if existsb (Nat.eqb k) (map fst order) then task_draws (nth k ts (0, 0)) else nth k res [].
Proof.
  intros Good. induction order as [|[k th] r IH]; intros gens res L Nd Hg F; cbn [run_draws]; [exists res; split; [reflexivity|]; split; [exact L|]; intros; reflexivity|].
  inversion F as [|? ? [F1 F2] F3]; subst. cbn [fst snd map] in *. inversion Nd as [|? ? Nk Nr]; subst.
  destruct gens as [|g0 gens0]; [cbn in F2; lia|]. set (gens := g0 :: gens0) in *.
  rewrite (get_ok ts k (0, 0) F1), (get_ok gens th g0 F2). cbn [obind].
  assert (Hs : standing (nth th gens g0)) by (rewrite Forall_forall in Hg; apply Hg; apply nth_In; exact F2). destruct Hs as (p & Hp).
  assert (Gk : good (fst (nth k ts (0, 0)))) by (rewrite Forall_forall in Good; apply (Good (nth k ts (0, 0))); apply nth_In; exact F1).
  destruct (skip_ok _ p _ Hp Gk) as (g1 & -> & H1). cbn [obind].
  destruct (fills_ok (Z.to_nat (snd (nth k ts (0, 0)))) g1 _ H1) as (g2 & -> & H2). cbn [obind fst snd].
  rewrite put_ok by assumption. cbn [obind]. rewrite put_ok by lia. cbn [obind].
  destruct (IH (set_nth gens th g2) (set_nth res k (task_draws (nth k ts (0, 0))))) as (res' & E & L' & V).
  - now rewrite set_nth_length.
  - exact Nr.
  - apply forall_set; [exact Hg|]. eexists. exact H2.
  - rewrite set_nth_length. exact F3.
  - exists res'. split; [exact E|]. split; [exact L'|]. intros j Hj. rewrite (V j Hj). cbn [existsb map fst]. destruct (existsb (Nat.eqb j) (map fst r)) eqn:Ex; [now rewrite orb_true_r|]. rewrite orb_false_r.
    rewrite nth_set_nth by lia. destruct (Nat.eqb_spec j k) as [->|]; reflexivity.
Qed.
Lemma run_all_draws ts order gens : Forall (fun t => good (fst t)) ts -> Forall standing gens -> Permutation (map fst order) (seq 0 (Datatypes.length ts)) -> Forall (fun p => (snd p < Datatypes.length gens)%nat) order ->
  run_draws skip fill dress ts order gens (repeat [] (Datatypes.length ts)) = Ok (map task_draws ts).
Proof.
  intros Good Hg Pm F. assert (Nd : NoDup (map fst order)) by (apply (Permutation_NoDup (Permutation_sym Pm)); apply seq_NoDup).
  destruct (run_draws_ok ts Good order gens (repeat [] (Datatypes.length ts))) as (res & -> & L & V); [apply repeat_length|exact Nd|exact Hg| |].
  - rewrite Forall_forall in *. intros p Hp. split; [|auto]. assert (In (fst p) (seq 0 (Datatypes.length ts))) as Hi by (rewrite <- Pm; now apply in_map). apply in_seq in Hi. lia.
  - f_equal. apply (nth_ext _ _ [] (task_draws (0, 0))); [now rewrite map_length|]. intros k Hk. rewrite L in Hk. rewrite (V k Hk), map_nth.
    replace (existsb (Nat.eqb k) (map fst order)) with true; [reflexivity|]. symmetry. apply existsb_exists. exists k. split; [|apply Nat.eqb_refl]. rewrite Pm. apply in_seq. lia.
Qed.
Lemma simulate_ok g n pool order ts : standing g -> tasks n (Z.of_nat (num_threads pool)) = Ok ts -> Forall (fun t => good (fst t)) ts -> some_schedule pool (Datatypes.length ts) order ->
  simulate skip fill dress g n pool order = Ok (map task_draws ts).
Proof.
  intros Hg Et Good [Pm F]. unfold simulate. rewrite Et. cbn [obind]. apply run_all_draws; [exact Good| |exact Pm|].
  - apply Forall_forall. intros x Hx. apply repeat_spec in Hx as ->. exact Hg.
  - rewrite repeat_length. eapply Forall_impl; [|exact F]. cbn beta. intros p Hp. unfold thread_numbers, num_threads in *. destruct Hp as [<-|Hp]; [lia|].
    apply in_map_iff in Hp as (i & <- & Hi). apply in_seq in Hi. lia.
Qed.
End Generic.

(** the first paths of tasks are within the number of paths *)
Lemma spawn_firsts fuel : forall bs first left l, 0 < bs -> spawn fuel bs first left = Ok l -> 0 <= first -> Forall (fun t => 0 <= fst t <= first + Z.max left 0) l.
Proof.
  induction fuel as [|f IH]; intros bs first left l Hb; cbn [spawn]; destruct (Z.leb_spec left 0) as [H|H]; intros E H0; try (injection E as <-; constructor); try discriminate.
  destruct (spawn f bs (first + Z.min left bs) (left - Z.min left bs)) as [r| | |] eqn:Er; try discriminate. cbn [obind] in E. injection E as <-. constructor; [cbn; lia|].
  specialize (IH _ _ _ _ Hb Er ltac:(lia)). eapply Forall_impl; [|exact IH]. cbn beta. intros t Ht. lia.
Qed.
Lemma task_firsts n t l : 0 <= n < 2 ^ 31 -> tasks n t = Ok l -> Forall (fun x => 0 <= fst x <= n) l.
Proof.
  intros Hn E. unfold tasks in E. destruct (batch_size n t) as [bs| | |] eqn:Eb; try discriminate. cbn [obind] in E. rewrite to_int_id in E by lia.
  assert (0 < bs). { unfold batch_size in Eb. destruct (t =? 0); [discriminate|]. cbn zeta in Eb. destruct (_ =? _); [discriminate|]. injection Eb as <-. unfold BATCH_SIZE. lia. }
  pose proof (spawn_firsts _ _ _ _ _ H E ltac:(lia)) as F. eapply Forall_impl; [|exact F]. cbn beta. intros x Hx. lia.
Qed.

(** mrg32 *)
Definition mrg_stands (d : nat) (g : rng mrg) (k : nat) : Prop := Datatypes.length (cache g) = d /\ at_point 1024 1025 (gen g) k.
Lemma word_1024 : word 1024. Proof. unfold word. lia. Qed.
Lemma word_1025 : word 1025. Proof. unfold word. lia. Qed.
Lemma point_seeds s k : at_point 1024 1025 s k -> seed_a s = 1024 /\ seed_b s = 1025.
Proof.
  intros (a & b & [[vx0 vx1] vx2] & [[vy0 vy1] vy2] & [[wx0 wx1] wx2] & [[wy0 wy1] wy2] & -> & E & _). unfold after, mrg_at in *.
  destruct (iterate xstep k (1024, 1024, 1024)) as [[x0 x1] x2], (iterate ystep k (1025, 1025, 1025)) as [[y0 y1] y2]. cbn [seed_a seed_b] in *. split; congruence.
Qed.
Lemma mrg_stands_new d : mrg_stands d (rng_new (mrg_of_seed 1024) d) 0.
Proof.
  split; [cbn [rng_new cache]; apply repeat_length|]. cbn [rng_new gen]. unfold mrg_of_seed. change (w32 1024) with 1024. change (w32 (1024 + 1)) with 1025. change (mrg_new 1024 1025) with (after 1024 1025 0).
  apply after_same; [apply word_1024|apply word_1025].
Qed.
Lemma mrg_skip_stands d g k n : mrg_stands d g k -> 0 <= n * Z.of_nat d < 2 ^ 64 -> exists g', skip_to mrg_skip n g = Ok g' /\ mrg_stands d g' (Z.to_nat (n * Z.of_nat d / 2)).
Proof.
  intros [L H] Hn. destruct (point_seeds _ _ H) as [Sa Sb]. unfold skip_to. rewrite L.
  destruct (mrg_skip_ok n (Z.of_nat d) (gen g)) as (g' & -> & Hs); [rewrite Sa; apply word_1024|rewrite Sb; apply word_1025|exact Hn|]. cbn [obind]. rewrite Sa, Sb in Hs.
  eexists. split; [reflexivity|]. split; [exact L|exact Hs].
Qed.
Lemma mrg_fill_stands icdf d g k : mrg_stands d g k -> exists g', fill_normal mrg_next icdf d g = Ok (map icdf (map (deviate 1024 1025) (seq k d)), g') /\ mrg_stands d g' (k + d).
Proof.
  intros [L H]. unfold fill_normal. destruct (draws_point _ _ word_1024 word_1025 _ _ d H) as (g' & -> & Hs). cbn [obind fst snd]. eexists. split; [reflexivity|]. split; [exact L|exact Hs].
Qed.
Lemma iter_add d k i : Nat.iter i (fun p => p + d)%nat k = (k + i * d)%nat.
Proof. induction i as [|i IH]; [cbn; lia|]. change (Nat.iter i (fun p => p + d)%nat k + d = k + Datatypes.S i * d)%nat. rewrite IH. lia. Qed.

Lemma iter_succ z i : Nat.iter i (fun n => n + 1) z = z + Z.of_nat i.
Proof. induction i as [|i IH]; [cbn; lia|]. change (Nat.iter i (fun n => n + 1) z + 1 = z + Z.of_nat (Datatypes.S i)). rewrite IH. lia. Qed.
Lemma zrange_map first k : zrange first k = map (fun i => first + Z.of_nat i) (seq 0 k).
Proof.
  revert first. induction k as [|k IH]; intros first; [reflexivity|]. cbn [zrange seq map]. f_equal; [lia|]. rewrite IH, <- seq_shift, map_map. apply map_ext. intros i. lia.
Qed.

(** irn *)
Lemma irn_draws_ok n : forall s, irn_inv 128 s -> exists l s', draws irn_next n s = Ok (l, s') /\ irn_inv 128 s'.
Proof.
  induction n as [|n IH]; intros s H; cbn [draws]; [eauto|]. destruct (irn_next_ok s H) as (u & s1 & -> & H1 & _). cbn [obind fst snd]. destruct (IH s1 H1) as (l & s2 & -> & H2). cbn [obind fst snd]. eauto.
Qed.
Lemma irn_fills_ok icdf dress d k : forall g, Datatypes.length (cache g) = d -> irn_inv 128 (gen g) ->
  exists vs g', fills (fill_normal irn_next icdf d) dress k g = Ok (map dress vs, g') /\ normals irn_next icdf k g = Ok vs /\ Datatypes.length vs = k /\ Datatypes.length (cache g') = d /\ irn_inv 128 (gen g') /\
    forall b, normals irn_next icdf (k + b) g = (do r <- normals irn_next icdf b g'; Ok (vs ++ r)).
Proof.
  induction k as [|k IH]; intros g L H; cbn [fills normals Nat.add].
  { exists [], g. do 5 (split; [auto; fail|]). intros b. destruct (normals irn_next icdf b g); reflexivity. }
  rewrite L. destruct (irn_draws_ok d (gen g) H) as (l & s & Ed & H1). assert (Ef : fill_normal irn_next icdf d g = Ok (map icdf l, Rng (anti g) (cache g) s)) by (unfold fill_normal; rewrite Ed; reflexivity). rewrite Ef. cbn [obind fst snd].
  destruct (IH (Rng (anti g) (cache g) s) L H1) as (vs & g2 & -> & -> & Lv & L2 & H2 & N). cbn [obind fst snd]. exists (map icdf l :: vs), g2. cbn [map Datatypes.length].
  do 5 (split; [auto; fail|]). intros b. rewrite N. destruct (normals irn_next icdf b g2); reflexivity.
Qed.
Lemma irn_skip_id n (g : rng irn) : skip_to irn_skip n g = Ok g.
Proof. destruct g. reflexivity. Qed.

Lemma set_head {A} (x v : A) l : set_nth (x :: l) 0 v = v :: l. Proof. reflexivity. Qed.
Lemma repeat_succ {A} (x : A) n : repeat x (n + 1) = x :: repeat x n. Proof. rewrite Nat.add_1_r. reflexivity. Qed.
Lemma other m a b : ci_eqb m a = true -> ci_eqb a b = false -> ci_eqb m b = false.
Proof. intros H K. destruct (ci_eqb m b) eqn:E; [|reflexivity]. rewrite ci_eq_sym in H. rewrite (ci_eqb_trans _ _ _ H E) in K. discriminate. Qed.
Lemma front {A} (a b : list A) : firstn (Datatypes.length a) (a ++ b) = a.
Proof. rewrite firstn_app, Nat.sub_diag, firstn_all, firstn_O. apply app_nil_r. Qed.
Lemma rest_of {A} (a b : list A) : skipn (Datatypes.length a) (a ++ b) = b.
Proof. rewrite skipn_app, Nat.sub_diag, skipn_all. reflexivity. Qed.
(** the first two numbers of irn with seed 1024 *)
Definition two_numbers : outcome (spec_float * spec_float) := do g <- irn_of_seed 1024; do p <- irn_next g; do q <- irn_next (snd p); Ok (fst p, fst q).
Lemma two_differ : match two_numbers with Ok (u, v) => u <> v | _ => False end.
Proof. vm_compute. discriminate. Qed.
Lemma two_ok g vs x y : irn_of_seed 1024 = Ok g -> normals irn_next (fun u => u) 1025 (rng_new g 1) = Ok (x :: y :: vs) -> exists u v, two_numbers = Ok (u, v) /\ x = [u] /\ y = [v].
Proof.
  intros Eg En. destruct (irn_new_ok 1024) as (g0 & E0 & H0). assert (g0 = g) by congruence. subst g0. unfold two_numbers. rewrite Eg. cbn [obind].
  destruct (irn_next_ok g H0) as (u & s1 & E1 & H1 & _). destruct (irn_next_ok s1 H1) as (v & s2 & E2 & _). rewrite E1. cbn [obind fst snd]. rewrite E2. cbn [obind fst snd]. exists u, v. split; [reflexivity|].
  change 1025%nat with (Datatypes.S (Datatypes.S 1023)) in En. set (k := 1023%nat) in En. clearbody k. unfold rng_new in En. cbn [normals cache repeat Datatypes.length] in En. unfold fill_normal in En. cbn [draws gen] in En. rewrite E1 in En. cbn [obind fst snd map cache Datatypes.length anti gen draws] in En.
  rewrite E2 in En. cbn [obind fst snd map cache Datatypes.length anti gen] in En. destruct (normals irn_next (fun u0 => u0) k _) as [l| | |]; cbn [obind] in En; try discriminate En. split; congruence.
Qed.
