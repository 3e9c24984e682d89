(** Facts about meshes. *)
From Coq Require Import Reals List Arith ZArith Bool Lia Lra Psatz.
From Verif Require Import Base Vec InterpModel InterpSpec InterpProofs MesherModel MesherSpec.
Import ListNotations.
Local Open Scope R_scope.

Lemma nth_map_seq {A} (f : nat -> A) n i d : (i < n)%nat -> nth i (map f (seq 0 n)) d = f i.
Proof. intros H. rewrite (nth_indep _ d (f O)) by (rewrite map_length, seq_length; exact H). rewrite map_nth, seq_nth by exact H. reflexivity. Qed.
Lemma rgt_true x y : y < x -> rgt x y = true.
Proof. intros H. unfold rgt. destruct (Rlt_dec y x); [reflexivity|lra]. Qed.
Lemma rge_true x y : y <= x -> rge x y = true.
Proof. intros H. unfold rge. destruct (Rle_dec y x); [reflexivity|lra]. Qed.
Lemma rgt_false x y : x <= y -> rgt x y = false.
Proof. intros H. unfold rgt. destruct (Rlt_dec y x); [lra|reflexivity]. Qed.
Lemma rge_false x y : x < y -> rge x y = false.
Proof. intros H. unfold rge. destruct (Rle_dec y x); [lra|reflexivity]. Qed.
Lemma mapm_ok {A B} (f : A -> outcome B) g l : (forall x, In x l -> f x = Ok (g x)) -> mapm f l = Ok (map g l).
Proof.
  induction l as [|a l IH]; intros H; [reflexivity|]. cbn [mapm map]. rewrite (H a) by (left; reflexivity). cbn [obind].
  rewrite IH by (intros x Hx; apply H; right; exact Hx). reflexivity.
Qed.
Lemma tol_pos : 0 < tolerance. Proof. unfold tolerance, epsilon. lra. Qed.
Lemma is_close_refl x : is_close x x = true.
Proof.
  unfold is_close. rewrite Rminus_diag_eq, Rabs_R0 by reflexivity. pose proof tol_pos as T. pose proof (Rabs_pos x).
  destruct (Req_EM_T x 0); [apply rgt_true; nra|]. rewrite rge_true by nra. reflexivity.
Qed.

(** a mesh given by its points *)
Lemma good_of start stop n (g : nat -> R) : (2 <= n)%nat -> g O = start -> g (n - 1)%nat = stop ->
  (forall i, (S i < n)%nat -> g i < g (S i)) ->
  let loc := map g (seq 0 n) in let dist i := nth (S i) loc 0 - nth i loc 0 in
  good_mesh start stop n {| locations := loc; dplus := map (up n dist) (seq 0 n); dminus := map (down dist) (seq 0 n) |}.
Proof.
  intros Hn H0 H1 Ho. cbn zeta. constructor; cbn [locations dplus dminus]; unfold place; cbn [locations].
  - rewrite !map_length, seq_length. auto.
  - rewrite nth_map_seq by lia. exact H0.
  - rewrite nth_map_seq by lia. exact H1.
  - intros i Hi. rewrite !nth_map_seq by lia. apply Ho, Hi.
  - intros i Hi. rewrite !(nth_map_seq (up _ _)), !(nth_map_seq (down _)) by lia. unfold up, down.
    destruct (Nat.eqb_spec i (n - 1)); [lia|]. auto.
  - rewrite (nth_map_seq (up _ _)), (nth_map_seq (down _)) by lia. unfold up, down. rewrite Nat.eqb_refl. auto.
Qed.
Lemma good_ext start stop n m m' : locations m = locations m' -> dplus m = dplus m' -> dminus m = dminus m' ->
  good_mesh start stop n m -> good_mesh start stop n m'.
Proof. destruct m, m'. cbn. intros -> -> ->. exact (fun H => H). Qed.

(** where the points come from: strictly increasing positions from 0 to 1 under a strictly increasing map *)
Section Concentrating.
Variables (start stop c d : R).
Hypothesis (Hc : start <= c <= stop) (Hs : start < stop) (Hd : 0 < d).
Let density := d * (stop - start).
Let c1 := arcsinh ((start - c) / density).
Let c2 := arcsinh ((stop - c) / density).
Lemma density_pos : 0 < density. Proof. unfold density. nra. Qed.
Definition spot (l : R) : R := c + density * sinh (c1 * (1 - l) + c2 * l).
Lemma spot_0 : spot 0 = start.
Proof. pose proof density_pos. unfold spot. replace (c1 * (1 - 0) + c2 * 0) with c1 by ring. unfold c1. rewrite sinh_arcsinh. field. lra. Qed.
Lemma spot_1 : spot 1 = stop.
Proof. pose proof density_pos. unfold spot. replace (c1 * (1 - 1) + c2 * 1) with c2 by ring. unfold c2. rewrite sinh_arcsinh. field. lra. Qed.
Lemma c12 : c1 < c2.
Proof. pose proof density_pos. apply arcsinh_lt. apply Rmult_lt_compat_r; [apply Rinv_0_lt_compat; lra|lra]. Qed.
Lemma spot_lt a b : a < b -> spot a < spot b.
Proof.
  intros H. pose proof density_pos. pose proof c12. unfold spot.
  assert (sinh (c1 * (1 - a) + c2 * a) < sinh (c1 * (1 - b) + c2 * b)) by (apply sinh_lt; nra). nra.
Qed.
Lemma c1_neg : start < c -> c1 < 0.
Proof. intros H. pose proof density_pos. rewrite <- arcsinh_0. apply arcsinh_lt. unfold Rdiv. rewrite <- (Rmult_0_l (/ density)). apply Rmult_lt_compat_r; [apply Rinv_0_lt_compat; lra|lra]. Qed.
Lemma c2_pos : c < stop -> 0 < c2.
Proof. intros H. pose proof density_pos. rewrite <- arcsinh_0. apply arcsinh_lt. unfold Rdiv. rewrite <- (Rmult_0_l (/ density)). apply Rmult_lt_compat_r; [apply Rinv_0_lt_compat; lra|lra]. Qed.
Lemma spot_c : spot (- c1 / (c2 - c1)) = c.
Proof.
  pose proof c12. unfold spot. replace (c1 * (1 - - c1 / (c2 - c1)) + c2 * (- c1 / (c2 - c1))) with 0 by (field; lra).
  rewrite sinh_0. ring.
Qed.

(** the mesh from a transform that keeps the positions in order *)
Lemma mesh_of n transform (p : nat -> R) : (2 <= n)%nat -> p O = 0 -> p (n - 1)%nat = 1 ->
  (forall i, (S i < n)%nat -> p i < p (S i)) ->
  (forall i, (0 < i < n - 1)%nat -> transform (INR i * (1 / (INR n - 1))) = Ok (p i)) ->
  mapm (point start stop c density c1 c2 transform n) (seq 0 n) = Ok (map (fun i => spot (p i)) (seq 0 n)).
Proof.
  intros Hn P0 P1 Po Ht. apply mapm_ok. intros i Hi. apply in_seq in Hi. unfold point.
  destruct (Nat.eqb_spec i (n - 1)) as [->|N1]; [rewrite P1, spot_1; reflexivity|].
  destruct (Nat.eqb_spec i 0) as [->|N0]; [rewrite P0, spot_0; reflexivity|].
  rewrite Ht by lia. reflexivity.
Qed.
End Concentrating.

(** * the transform *)
Definition bent (u z t : R) : R := if Rle_dec t u then z / u * t else z + (1 - z) / (1 - u) * (t - u).
Lemma bent_lt u z a b : 0 < u < 1 -> 0 < z < 1 -> a < b -> bent u z a < bent u z b.
Proof.
  intros Hu Hz H. unfold bent. assert (S1 : 0 < z / u) by (apply Rdiv_lt_0_compat; lra).
  assert (S2 : 0 < (1 - z) / (1 - u)) by (apply Rdiv_lt_0_compat; lra). assert (E : z / u * u = z) by (field; lra).
  set (p := z / u) in *. set (q := (1 - z) / (1 - u)) in *. clearbody p q.
  destruct (Rle_dec a u), (Rle_dec b u); nra.
Qed.
Lemma bent_0 u z : 0 < u < 1 -> bent u z 0 = 0. Proof. intros. unfold bent. destruct (Rle_dec 0 u); lra. Qed.
Lemma bent_1 u z : 0 < u < 1 -> bent u z 1 = 1. Proof. intros. unfold bent. destruct (Rle_dec 1 u); [lra|]. field. lra. Qed.
Lemma bent_u u z : 0 < u < 1 -> bent u z u = z. Proof. intros. unfold bent. destruct (Rle_dec u u); [|lra]. field. lra. Qed.
Lemma not_zero x : epsilon <= - x -> is_zero x = false.
Proof. intros H. unfold is_zero. destruct (Rlt_dec x epsilon); [|reflexivity]. destruct (Rlt_dec (- x) epsilon); [lra|reflexivity]. Qed.
Lemma interp_two t : 0 < t -> epsilon <= 1 - t -> interp_linear [0; 1] [0; 1] t = Ok t.
Proof.
  intros H0 H1. assert (0 < epsilon) by (unfold epsilon; lra). unfold interp_linear. cbn [lower_bound].
  destruct (Rlt_dec 0 t); [|lra]. destruct (Rlt_dec 1 t); [lra|]. cbn [get nth_error length Nat.eqb orb obind Nat.sub].
  change (get [0; 1] 1) with (Ok 1). cbn [obind]. rewrite not_zero by lra. change (get [0; 1] 0) with (Ok 0). cbn [obind].
  f_equal. field.
Qed.
Lemma interp_three u z t : 0 < u < 1 -> 0 < t < 1 -> (t = u \/ epsilon <= Rabs (u - t)) -> epsilon <= 1 - t ->
  interp_linear [0; u; 1] [0; z; 1] t = Ok (bent u z t).
Proof.
  intros Hu H0 Hn H1. assert (0 < epsilon) by (unfold epsilon; lra). unfold interp_linear, bent. cbn [lower_bound].
  destruct (Rlt_dec 0 t); [|lra]. destruct (Rlt_dec u t).
  - destruct (Rlt_dec 1 t); [lra|]. cbn [length Nat.eqb orb obind Nat.sub].
    change (get [0; u; 1] 2) with (Ok 1). cbn [obind]. rewrite not_zero by lra.
    change (get [0; u; 1] 1) with (Ok u). change (get [0; z; 1] 1) with (Ok z). change (get [0; z; 1] 2) with (Ok 1). cbn [obind].
    destruct (Rle_dec t u); [lra|]. f_equal. field. lra.
  - cbn [length Nat.eqb orb obind Nat.sub]. change (get [0; u; 1] 1) with (Ok u). cbn [obind]. destruct (Rle_dec t u); [|lra].
    destruct Hn as [->|Hn].
    + replace (u - u) with 0 by ring. rewrite is_zero_0. change (get [0; z; 1] 1) with (Ok z). f_equal. field. lra.
    + rewrite Rabs_right in Hn by lra. rewrite not_zero by lra.
      change (get [0; u; 1] 0) with (Ok 0). change (get [0; z; 1] 0) with (Ok 0). change (get [0; z; 1] 1) with (Ok z). cbn [obind].
      f_equal. field. lra.
Qed.
Section Grid.
Variable n : nat.
Hypothesis (Hn : (2 <= n)%nat) (Hmax : (Z.of_nat n <= 2147483647)%Z).
Lemma INR_n : 1 <= INR n - 1 <= 2147483646.
Proof. rewrite INR_IZR_INZ. split; [assert (2 <= IZR (Z.of_nat n)) by (apply IZR_le; lia); lra|]. assert (IZR (Z.of_nat n) <= 2147483647) by (apply IZR_le; lia). lra. Qed.
Definition tick (i : nat) : R := INR i * (1 / (INR n - 1)).
Lemma tick_lt i j : (i < j)%nat -> tick i + epsilon <= tick j.
Proof.
  intros H. pose proof INR_n as B. apply lt_INR in H as H'. assert (INR i + 1 <= INR j) by (rewrite <- S_INR; apply le_INR; lia).
  unfold tick. set (w := 1 / (INR n - 1)). assert (E : w * (INR n - 1) = 1) by (unfold w; field; lra). clearbody w.
  assert (epsilon <= w).
  { destruct (Rle_dec epsilon w); [assumption|exfalso]. assert (w < epsilon) by lra. unfold epsilon in *. nra. }
  assert (0 < epsilon) by (unfold epsilon; lra). nra.
Qed.
Lemma tick_0 : tick 0 = 0. Proof. unfold tick. cbn. lra. Qed.
Lemma tick_1 : tick (n - 1) = 1.
Proof. pose proof INR_n. unfold tick. rewrite minus_INR by lia. change (INR 1) with 1. field. lra. Qed.
Lemma tick_in i : (0 < i < n - 1)%nat -> 0 < tick i < 1 /\ epsilon <= 1 - tick i.
Proof. intros H. assert (0 < epsilon) by (unfold epsilon; lra). pose proof (tick_lt 0 i ltac:(lia)). pose proof (tick_lt i (n - 1) ltac:(lia)). rewrite tick_0, tick_1 in *. lra. Qed.
End Grid.
