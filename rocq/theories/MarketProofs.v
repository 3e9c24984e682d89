From Coq Require Import String List Arith Lia ZArith.
From Verif Require Import Base Vec StringModel StringProofs JsonModel DealModel DealProofs MarketModel MarketSpec.
Import ListNotations.
Open Scope list_scope.
Open Scope nat_scope.

Section Proofs.
Context {N : Type}.
Variable fixed : N -> str.
Definition shaped (m : market N) : Prop := match m with Dupire _ _ _ _ _ cols vols => Forall (fun row => length row = cols) vols | _ => True end.
Definition fields_of (m : market N) : list field :=
  match m with BlackScholes _ _ _ _ => [FSpot; FVol; FRate; FDiv]
  | Dupire _ _ _ _ _ cols vols => FSpot :: FRate :: FRepo :: flat_map (fun i => map (FLocal i) (seq 0 cols)) (seq 0 (length vols)) end.
Lemma own_fields id m : own_pointers id m = map (pair id) (fields_of m).
Proof. destruct m; reflexivity. Qed.
Lemma get_concat cols : forall (vols : list (list N)) i j row, Forall (fun row => length row = cols) vols -> nth_error vols i = Some row -> j < cols -> nth_error (concat vols) (i * cols + j) = nth_error row j.
Proof.
  induction vols as [|r vols IH]; intros i j row F Hi Hj; [destruct i; discriminate|]. inversion F as [|? ? Lr F']; subst. cbn [concat]. destruct i as [|i]; cbn [nth_error] in Hi.
  - assert (r = row) by congruence. subst. cbn [Nat.mul Nat.add]. now rewrite nth_error_app1.
  - rewrite nth_error_app2 by (cbn [Nat.mul]; lia). replace (S i * length r + j - length r) with (i * length r + j) by (cbn [Nat.mul]; lia). now apply IH.
Qed.
Lemma set_nth_app1 {A} (a b : list A) n v : n < length a -> set_nth (a ++ b) n v = set_nth a n v ++ b.
Proof. revert n. induction a as [|x a IH]; intros [|n] H; cbn [length app set_nth] in *; try lia; [reflexivity|]. f_equal. apply IH. lia. Qed.
Lemma set_nth_app2 {A} (a b : list A) n v : length a <= n -> set_nth (a ++ b) n v = a ++ set_nth b (n - length a) v.
Proof. revert n. induction a as [|x a IH]; intros n H; cbn [length app] in *; [now rewrite Nat.sub_0_r|]. destruct n; [lia|]. cbn [set_nth Nat.sub]. f_equal. apply IH. lia. Qed.
Lemma set_concat cols v : forall (vols : list (list N)) i j row, Forall (fun row => length row = cols) vols -> nth_error vols i = Some row -> j < cols -> concat (set_nth vols i (set_nth row j v)) = set_nth (concat vols) (i * cols + j) v.
Proof.
  induction vols as [|r vols IH]; intros i j row F Hi Hj; [destruct i; discriminate|]. inversion F as [|? ? Lr F']; subst. destruct i as [|i]; cbn [nth_error] in Hi; cbn [set_nth concat].
  - assert (r = row) by congruence. subst. cbn [Nat.mul Nat.add]. now rewrite set_nth_app1.
  - rewrite set_nth_app2 by (cbn [Nat.mul]; lia). f_equal. replace (S i * length r + j - length r) with (i * length r + j) by (cbn [Nat.mul]; lia). now apply IH.
Qed.
Lemma concat_length cols : forall (vols : list (list N)), Forall (fun row => length row = cols) vols -> length (concat vols) = length vols * cols.
Proof. induction vols as [|r vols IH]; intros F; [reflexivity|]. inversion F; subst. cbn [concat length Nat.mul]. rewrite app_length, IH by assumption. reflexivity. Qed.
Lemma fields_length m : shaped m -> length (fields_of m) = length (params_of m).
Proof.
  destruct m as [s v r d|s r q sp ti c vols]; intros H; [reflexivity|]. cbn [fields_of params_of length]. do 3 f_equal. rewrite (concat_length c vols H).
  assert (G : forall l, length (flat_map (fun i => map (FLocal i) (seq 0 c)) l) = length l * c) by (induction l as [|x l IH]; [reflexivity|]; cbn [flat_map length Nat.mul]; rewrite app_length, map_length, seq_length, IH; reflexivity).
  now rewrite G, seq_length.
Qed.
Lemma grid_field c n k f : nth_error (flat_map (fun i => map (FLocal i) (seq 0 c)) (seq 0 n)) k = Some f -> exists i j, i < n /\ j < c /\ k = i * c + j /\ f = FLocal i j.
Proof.
  intros H. apply grid_inv in H as (i & j & x & y & Hx & Hy & E & ->). rewrite seq_length in E.
  assert (i < n) by (rewrite <- (seq_length n 0); apply nth_error_Some; congruence). assert (j < c) by (rewrite <- (seq_length c 0); apply nth_error_Some; congruence).
  assert (Q : forall a m, a < m -> nth_error (seq 0 m) a = Some a). { intros a m L. rewrite (nth_error_nth' _ 0) by (rewrite seq_length; exact L). now rewrite seq_nth. }
  rewrite Q in Hx, Hy by assumption. assert (x = i) by congruence. assert (y = j) by congruence. subst. eauto 10.
Qed.
Lemma read_ok m k f : shaped m -> nth_error (fields_of m) k = Some f -> exists v, read_field m f = Ok v /\ nth_error (params_of m) k = Some v.
Proof.
  destruct m as [s v r d|s r q sp ti c vols]; intros H E; cbn [fields_of params_of] in *.
  - destruct k as [|[|[|[|k]]]]; cbn [nth_error] in *; try (assert (f = _) by (symmetry; injection E as Q; exact Q)); try (injection E as <-; cbn; eauto). destruct k; discriminate.
  - destruct k as [|[|[|k]]]; cbn [nth_error] in *; try (injection E as <-; cbn; eauto; fail). apply grid_field in E as (i & j & Hi & Hj & -> & ->). cbn [read_field]. destruct (nth_error vols i) as [row|] eqn:Er; [|apply nth_error_None in Er; lia].
    assert (Lr : length row = c) by (cbn [shaped] in H; rewrite Forall_forall in H; apply H; eapply nth_error_In; eauto). unfold get at 1. rewrite Er. cbn [obind]. rewrite (get_concat c vols i j row H Er Hj). unfold get. destruct (nth_error row j) as [x|] eqn:Ex; [|apply nth_error_None in Ex; lia]. eauto.
Qed.
Lemma write_ok m k f v : shaped m -> nth_error (fields_of m) k = Some f ->
  exists m', write_field m f v = Ok m' /\ shaped m' /\ fields_of m' = fields_of m /\ params_of m' = set_nth (params_of m) k v /\ k < length (params_of m).
Proof.
  destruct m as [s x r d|s r q sp ti c vols]; intros H E; cbn [fields_of params_of] in *.
  - destruct k as [|[|[|[|k]]]]; cbn [nth_error] in *; try (injection E as <-; cbn [write_field]; eexists; split; [reflexivity|]; cbn; repeat split; lia). destruct k; discriminate.
  - destruct k as [|[|[|k]]]; cbn [nth_error] in *; try (injection E as <-; cbn [write_field]; eexists; split; [reflexivity|]; cbn [shaped fields_of params_of set_nth length]; repeat split; auto; lia).
    apply grid_field in E as (i & j & Hi & Hj & -> & ->). cbn [write_field shaped] in *. destruct (nth_error vols i) as [row|] eqn:Er; [|apply nth_error_None in Er; lia].
    assert (Lr : length row = c) by (rewrite Forall_forall in H; apply H; eapply nth_error_In; eauto). unfold get. rewrite Er. cbn [obind]. rewrite put_ok by lia. cbn [obind]. rewrite put_ok by exact Hi. cbn [obind].
    eexists. split; [reflexivity|]. cbn [shaped fields_of params_of set_nth length]. rewrite set_nth_length. split; [|split; [reflexivity|split; [now rewrite (set_concat c v vols i j row H Er Hj)|]]].
    + apply Forall_forall. intros r0 I0. apply In_nth_error in I0 as [n Hn]. assert (n < length vols) by (rewrite <- (set_nth_length vols i (set_nth row j v)); apply nth_error_Some; congruence).
      assert (r0 = nth n (set_nth vols i (set_nth row j v)) []) as -> by (symmetry; now apply nth_error_nth). rewrite nth_set_nth by exact Hi. destruct (n =? i); [now rewrite set_nth_length|]. rewrite Forall_forall in H. apply H. now apply nth_In.
    + rewrite (concat_length c vols H). nia.
Qed.
(** * The heap *)
Definition own (id : nat) (x : instance N) : Prop := shaped (fields x) /\ pointers x = own_pointers id (fields x).
Definition inv (h : heap N) : Prop := forall i x, nth_error h i = Some (Some x) -> own i x.
Definition abs (h : heap N) : state := map (option_map (fun x => (labels x, params_of (fields x)))) h.
Lemma live_some h i x : nth_error h i = Some (Some x) -> live (N:=N) h i = Ok x.
Proof. intros H. unfold live, get. now rewrite H. Qed.
Lemma live_cases (h : heap N) i : (exists x, nth_error h i = Some (Some x) /\ live h i = Ok x /\ there (abs h) i = Ok (labels x, params_of (fields x))) \/ (live h i = UB /\ there (abs h) i = UB).
Proof.
  unfold live, get, there, abs. rewrite nth_error_map. destruct (nth_error h i) as [[x|]|]; cbn [option_map obind]; [left; exists x; auto|right; auto|right; auto].
Qed.
Lemma inv_app h x : inv h -> own (length h) x -> inv (h ++ [Some x]).
Proof.
  intros I O i y H. destruct (Nat.lt_ge_cases i (length h)) as [L|L]; [rewrite nth_error_app1 in H by exact L; now apply I|]. rewrite nth_error_app2 in H by exact L.
  destruct (i - length h) as [|k] eqn:E; cbn [nth_error] in H; [|destruct k; discriminate]. assert (y = x) by congruence. subst. now replace i with (length h) by lia.
Qed.
Lemma nth_error_set {A} (l : list A) n v j : n < length l -> nth_error (set_nth l n v) j = if j =? n then Some v else nth_error l j.
Proof. revert n j. induction l as [|x l IH]; intros n j H; cbn [length] in H; [lia|]. destruct n, j; cbn [set_nth nth_error Nat.eqb]; try reflexivity. apply IH. lia. Qed.
Lemma map_set {A B} (f : A -> B) (l : list A) n v : map f (set_nth l n v) = set_nth (map f l) n (f v).
Proof. revert n. induction l as [|x l IH]; intros [|n]; cbn [set_nth map]; try reflexivity. now rewrite IH. Qed.
Lemma inv_set h i o : inv h -> i < length h -> (forall x, o = Some x -> own i x) -> inv (set_nth h i o).
Proof. intros I L O j x H. rewrite nth_error_set in H by exact L. destruct (Nat.eqb_spec j i) as [->|Hn]; [apply O; congruence|now apply I]. Qed.
Lemma step_ok h o : inv h -> sound_op o -> match step fixed h o with Ok h' => inv h' /\ next fixed (abs h) o = Ok (abs h') | Throw => next fixed (abs h) o = Throw | UB => next fixed (abs h) o = UB | OutOfFuel => False end.
Proof.
  intros I Q. destruct o as [d|i|i|i k v]; cbn [step next].
  - destruct d as [[n s v r d|n s r q sp ti c vols|n]|]; cbn [create described obind]; try reflexivity.
    + split; [apply inv_app; [exact I|]; split; [exact Logic.I|reflexivity]|]. unfold abs. rewrite map_app. reflexivity.
    + destruct (dupire_labels fixed sp ti (length vols) c) as [l| | |] eqn:E; cbn [obind]; try reflexivity.
      * split; [apply inv_app; [exact I|]; split; [exact Q|reflexivity]|]. unfold abs. rewrite map_app. reflexivity.
      * exfalso. unfold dupire_labels in E. assert (G : forall nc times s0, lvol_row fixed s0 times nc <> OutOfFuel) by (induction nc as [|nc IH]; intros [|t ts] s0; cbn [lvol_row]; try discriminate; specialize (IH ts s0); destruct (lvol_row fixed s0 ts nc); cbn [obind]; congruence).
        assert (G2 : forall nr spots, lvol_rows fixed spots ti nr c <> OutOfFuel). { induction nr as [|nr IH]; intros [|s0 ss]; cbn [lvol_rows]; try discriminate; [destruct c; discriminate|]. specialize (IH ss). pose proof (G c ti s0). destruct (lvol_row fixed s0 ti c); cbn [obind]; try congruence. destruct (lvol_rows fixed ss ti nr c); cbn [obind]; congruence. }
        specialize (G2 (length vols) sp). destruct (lvol_rows fixed sp ti (length vols) c); cbn [obind] in E; congruence.
  - unfold clone. destruct (live_cases h i) as [(x & Hx & -> & ->)|[-> ->]]; cbn [obind]; [|reflexivity]. split.
    + apply inv_app; [exact I|]. destruct (I i x Hx) as [Sx _]. split; [exact Sx|reflexivity].
    + unfold abs. rewrite map_app. reflexivity.
  - unfold destroy. destruct (live_cases h i) as [(x & Hx & -> & ->)|[-> ->]]; cbn [obind]; [|reflexivity]. assert (L : i < length h) by (apply nth_error_Some; congruence).
    rewrite put_ok by exact L. unfold abs. rewrite put_ok by (rewrite map_length; exact L). split; [apply inv_set; [exact I|exact L|discriminate]|]. now rewrite map_set.
  - unfold assign. destruct (live_cases h i) as [(x & Hx & El & ->)|[-> ->]]; cbn [obind]; [|reflexivity]. rewrite El. cbn [obind fst snd]. assert (L : i < length h) by (apply nth_error_Some; congruence). destruct (I i x Hx) as [Sx Px]. rewrite Px, own_fields.
    unfold get at 1. rewrite nth_error_map. destruct (nth_error (fields_of (fields x)) k) as [f|] eqn:Ef; cbn [option_map obind].
    + destruct (write_ok (fields x) k f v Sx Ef) as (m' & Ew & Sm & Fm & Pm & Lk). cbn [fst snd]. rewrite El. cbn [obind]. rewrite Ew. cbn [obind]. rewrite !put_ok; [|exact Lk|exact L]. cbn [obind]. unfold abs. rewrite put_ok by (rewrite map_length; exact L). split.
      * apply inv_set; [exact I|exact L|]. intros y Hy. assert (y = Instance m' (pointers x) (labels x)) by congruence. subst y. split; [exact Sm|]. cbn [pointers fields]. rewrite Px, !own_fields. now rewrite Fm.
      * rewrite map_set. cbn [option_map labels fields]. now rewrite Pm.
    + rewrite put_ub; [reflexivity|]. apply nth_error_None in Ef. rewrite <- fields_length by exact Sx. exact Ef.
Qed.
Lemma run_ok l : forall h, inv h -> Forall sound_op l -> match run fixed h l with Ok h' => inv h' /\ history fixed (abs h) l = Ok (abs h') | Throw => False | UB => history fixed (abs h) l = UB | OutOfFuel => False end.
Proof.
  induction l as [|o l IH]; intros h I F; cbn [run history]; [auto|]. inversion F as [|? ? Q F']; subst. pose proof (step_ok h o I Q) as P. destruct (step fixed h o) as [h'| | |].
  - destruct P as [I' ->]. now apply IH.
  - rewrite P. now apply IH.
  - now rewrite P.
  - destruct P.
Qed.
Lemma deref_own h id m fs x : nth_error h id = Some (Some x) -> fields x = m -> shaped m -> forall k, skipn k (fields_of m) = fs -> deref_all h (map (pair id) fs) = Ok (skipn k (params_of m)).
Proof.
  intros Hx Em Sm. induction fs as [|f fs IH]; intros k E; cbn [map deref_all].
  - rewrite skipn_all2; [reflexivity|]. rewrite <- fields_length by exact Sm. pose proof (skipn_length k (fields_of m)) as Q. rewrite E in Q. cbn [length] in Q. lia.
  - assert (Ef : nth_error (fields_of m) k = Some f). { rewrite <- (firstn_skipn k (fields_of m)), E. assert (length (firstn k (fields_of m)) = k). { rewrite firstn_length. pose proof (skipn_length k (fields_of m)) as Q. rewrite E in Q. cbn [length] in Q. lia. } rewrite nth_error_app2 by lia. now replace (k - length (firstn k (fields_of m))) with 0 by lia. }
    destruct (read_ok m k f Sm Ef) as (v & Ev & Hv). unfold deref. cbn [fst snd]. rewrite (live_some h id x Hx). cbn [obind]. rewrite Em, Ev. cbn [obind]. rewrite (IH (S k)).
    + cbn [obind]. f_equal. clear - Hv. revert k Hv. induction (params_of m) as [|y l IH]; intros [|k] H; cbn [nth_error] in H; try discriminate; [cbn; congruence|]. cbn [skipn]. now apply IH.
    + clear - E. revert k E. induction (fields_of m) as [|y l IH]; intros [|k] E; cbn [skipn] in *; try discriminate; [congruence|]. now apply IH.
Qed.
Lemma look_ok h i : inv h -> look h i = there (abs h) i.
Proof.
  intros I. unfold look. destruct (live_cases h i) as [(x & Hx & -> & ->)|[-> ->]]; cbn [obind]; [|reflexivity]. destruct (I i x Hx) as [Sx Px]. rewrite Px, own_fields. now rewrite (deref_own h i (fields x) (fields_of (fields x)) x Hx eq_refl Sx 0 eq_refl).
Qed.
Lemma spared l i p : forall s s', there s i = Ok p -> Forall (spares i) l -> history fixed s l = Ok s' -> there s' i = Ok p.
Proof.
  induction l as [|o l IH]; intros s s' H F E; cbn [history] in E; [congruence|]. inversion F as [|? ? Q F']; subst.
  assert (L : i < length s) by (unfold there in H; destruct (nth_error s i) eqn:E1; [apply nth_error_Some; congruence|discriminate]).
  destruct (next fixed s o) as [s1| | |] eqn:En; try discriminate; [|now apply (IH s)]. apply (IH s1); auto. clear IH E F F'.
  assert (Ap : forall q, there (s ++ [q]) i = Ok p) by (intros q; unfold there; now rewrite nth_error_app1).
  destruct o as [d|j|j|j k v]; cbn [next spares] in *.
  - destruct (described fixed d); cbn [obind] in En; try discriminate. injection En as <-. apply Ap.
  - destruct (there s j); cbn [obind] in En; try discriminate. injection En as <-. apply Ap.
  - destruct (there s j) eqn:Ej; cbn [obind] in En; try discriminate. assert (j < length s) by (unfold there in Ej; destruct (nth_error s j) eqn:E1; [apply nth_error_Some; congruence|discriminate]). rewrite put_ok in En by assumption. injection En as <-. unfold there. rewrite nth_error_set by assumption. destruct (Nat.eqb_spec i j); [congruence|exact H].
  - destruct (there s j) eqn:Ej; cbn [obind] in En; try discriminate. assert (j < length s) by (unfold there in Ej; destruct (nth_error s j) eqn:E1; [apply nth_error_Some; congruence|discriminate]). destruct (put _ k v); cbn [obind] in En; try discriminate. rewrite put_ok in En by assumption. injection En as <-. unfold there. rewrite nth_error_set by assumption. destruct (Nat.eqb_spec i j); [congruence|exact H].
Qed.
(** * Storing *)
Lemma numbers_map {T} xs : numbers (T:=T) (map ANum xs) = Ok (xs : list N).
Proof. induction xs as [|x xs IH]; [reflexivity|]. cbn [map numbers]. now rewrite IH. Qed.
Lemma all_numbers_map {T} xs : all_numbers (T:=T) (map (map ANum) xs) = Ok (xs : list (list N)).
Proof. induction xs as [|x xs IH]; [reflexivity|]. cbn [map all_numbers]. rewrite numbers_map. cbn [obind]. now rewrite IH. Qed.
End Proofs.
