(** std::map<K, V>: the entries in increasing order of the keys.  [cmp] is the three-way comparison of the keys; keys that
    compare equal are the same key, whether or not they are identical. *)
From Coq Require Import List Bool Sorted.
Import ListNotations.

Section Map.
Context {K V : Type}.
Variable cmp : K -> K -> comparison.
Definition omap := list (K * V).
(** find, as the value found *)
Fixpoint mfind (m : omap) (k : K) : option V :=
  match m with [] => None | (x, v) :: r => match cmp x k with Eq => Some v | _ => mfind r k end end.
(** insert: an existing entry is kept *)
Fixpoint minsert (m : omap) (k : K) (v : V) : omap :=
  match m with
  | [] => [(k, v)]
  | (x, w) :: r => match cmp k x with Lt => (k, v) :: m | Eq => m | Gt => (x, w) :: minsert r k v end
  end.
(** m[k] = v: the value of an existing entry is replaced, its key kept *)
Fixpoint massign (m : omap) (k : K) (v : V) : omap :=
  match m with
  | [] => [(k, v)]
  | (x, w) :: r => match cmp k x with Lt => (k, v) :: m | Eq => (x, v) :: r | Gt => (x, w) :: massign r k v end
  end.
(** erase of a key *)
Fixpoint merase (m : omap) (k : K) : omap :=
  match m with [] => [] | (x, w) :: r => match cmp x k with Eq => r | _ => (x, w) :: merase r k end end.
(** lower_bound: the part of the map from the first key not below [k] *)
Fixpoint mlower (m : omap) (k : K) : omap :=
  match m with [] => [] | (x, w) :: r => match cmp x k with Lt => mlower r k | _ => m end end.
(** upper_bound: the part of the map from the first key above [k] *)
Fixpoint mupper (m : omap) (k : K) : omap :=
  match m with [] => [] | (x, w) :: r => match cmp k x with Lt => m | _ => mupper r k end end.

Definition below (p q : K * V) : Prop := cmp (fst p) (fst q) = Lt.
Definition msorted (m : omap) : Prop := StronglySorted below m.

Hypothesis cmp_anti : forall a b, cmp b a = CompOpp (cmp a b).
Hypothesis cmp_trans : forall a b c, cmp a b = Lt -> cmp b c = Lt -> cmp a c = Lt.
Hypothesis cmp_eq_l : forall a b c, cmp a b = Eq -> cmp a c = cmp b c.

Lemma cmp_sym_eq a b : cmp a b = Eq -> cmp b a = Eq.
Proof. intros H. rewrite cmp_anti, H. reflexivity. Qed.
Lemma cmp_eq_r a b c : cmp a b = Eq -> cmp c a = cmp c b.
Proof. intros H. rewrite (cmp_anti a c), (cmp_anti b c). now rewrite (cmp_eq_l a b c H). Qed.
Lemma cmp_refl a : cmp a a = Eq.
Proof. generalize (cmp_anti a a). destruct (cmp a a); cbn; congruence. Qed.
Lemma cmp_gt_lt a b : cmp a b = Gt <-> cmp b a = Lt.
Proof. rewrite (cmp_anti a b). destruct (cmp a b); cbn; split; congruence. Qed.

Lemma sorted_inv p m : msorted (p :: m) -> msorted m /\ Forall (below p) m.
Proof. intros H. split; [exact (proj1 (StronglySorted_inv H)) | exact (proj2 (StronglySorted_inv H))]. Qed.

Lemma mfind_in m k v : mfind m k = Some v -> exists x, In (x, v) m /\ cmp x k = Eq.
Proof.
  induction m as [|[x w] r IH]; cbn; [discriminate|].
  destruct (cmp x k) eqn:E; intros H.
  - injection H as ->. exists x. auto.
  - destruct (IH H) as [y [? ?]]. exists y. auto.
  - destruct (IH H) as [y [? ?]]. exists y. auto.
Qed.
Lemma in_mfind m x v k : msorted m -> In (x, v) m -> cmp x k = Eq -> mfind m k = Some v.
Proof.
  induction m as [|[y w] r IH]; cbn; [tauto|]. intros Hs Hin He.
  apply sorted_inv in Hs as [Hs Hf].
  destruct Hin as [Hin|Hin].
  - injection Hin as -> ->. now rewrite He.
  - assert (L : cmp y k = Lt).
    { rewrite <- (cmp_eq_r x k y He). rewrite Forall_forall in Hf. exact (Hf _ Hin). }
    rewrite L. auto.
Qed.
Lemma mfind_eq m k k' : cmp k k' = Eq -> mfind m k = mfind m k'.
Proof.
  intros H. induction m as [|[x v] r IH]; cbn; [reflexivity|].
  rewrite (cmp_eq_r k k' x H), IH. reflexivity.
Qed.
Lemma mfind_above m k : Forall (fun p => cmp k (fst p) = Lt) m -> mfind m k = None.
Proof.
  induction m as [|[x v] r IH]; cbn; intros H; [reflexivity|]. inversion H; subst. cbn in *.
  rewrite (cmp_anti k x), H2. cbn. auto.
Qed.

Lemma massign_forall (P : K -> Prop) m k v : P k -> Forall (fun p => P (fst p)) m -> Forall (fun p => P (fst p)) (massign m k v).
Proof.
  intros Hk. induction m as [|[x w] r IH]; cbn; intros H; [constructor; auto|].
  inversion H; subst. destruct (cmp k x); constructor; auto.
Qed.
Lemma minsert_forall (P : K -> Prop) m k v : P k -> Forall (fun p => P (fst p)) m -> Forall (fun p => P (fst p)) (minsert m k v).
Proof.
  intros Hk. induction m as [|[x w] r IH]; cbn; intros H; [constructor; auto|].
  inversion H; subst. destruct (cmp k x); try constructor; auto.
Qed.
Lemma below_forall k v m : Forall (below (k, v)) m <-> Forall (fun p => cmp k (fst p) = Lt) m.
Proof. unfold below. cbn. tauto. Qed.
Lemma massign_sorted m k v : msorted m -> msorted (massign m k v).
Proof.
  induction m as [|[x w] r IH]; cbn; intros H; [repeat constructor|].
  apply sorted_inv in H as [Hs Hf].
  destruct (cmp k x) eqn:E.
  - constructor; auto.
  - constructor; [constructor; auto|]. constructor; [exact E|].
    rewrite Forall_forall in *. intros q Hq. unfold below. cbn. eapply cmp_trans; [exact E|]. exact (Hf q Hq).
  - constructor; [apply IH; exact Hs|]. apply cmp_gt_lt in E. apply (massign_forall (fun y => cmp x y = Lt)); [exact E|exact Hf].
Qed.
Lemma minsert_sorted m k v : msorted m -> msorted (minsert m k v).
Proof.
  induction m as [|[x w] r IH]; cbn; intros H; [repeat constructor|].
  pose proof H as H0. apply sorted_inv in H as [Hs Hf].
  destruct (cmp k x) eqn:E.
  - exact H0.
  - constructor; [constructor; auto|]. constructor; [exact E|].
    rewrite Forall_forall in *. intros q Hq. unfold below. cbn. eapply cmp_trans; [exact E|]. exact (Hf q Hq).
  - constructor; [apply IH; exact Hs|]. apply cmp_gt_lt in E. apply (minsert_forall (fun y => cmp x y = Lt)); [exact E|exact Hf].
Qed.
Lemma filter_sorted f m : msorted m -> msorted (filter f m).
Proof.
  induction m as [|p r IH]; cbn; intros H; [constructor|]. apply sorted_inv in H as [Hs Hf].
  destruct (f p); [|exact (IH Hs)]. constructor; [exact (IH Hs)|]. rewrite Forall_forall in *. intros q Hq. apply filter_In in Hq. apply Hf. tauto.
Qed.
Lemma merase_filter m k : msorted m -> merase m k = filter (fun p => match cmp (fst p) k with Eq => false | _ => true end) m.
Proof.
  induction m as [|[x w] r IH]; cbn; intros H; [reflexivity|]. apply sorted_inv in H as [Hs Hf].
  destruct (cmp x k) eqn:E; cbn; [|f_equal; auto|f_equal; auto].
  symmetry. clear IH. induction r as [|[y u] r IH]; cbn; [reflexivity|]. inversion Hf; subst.
  apply sorted_inv in Hs as [Hs _]. unfold below in H1. cbn in H1. rewrite (cmp_eq_l x k y E) in H1. apply cmp_gt_lt in H1.
  rewrite H1. f_equal. apply IH; auto.
Qed.
Lemma mfind_massign m k v k' : msorted m -> mfind (massign m k v) k' = match cmp k k' with Eq => Some v | _ => mfind m k' end.
Proof.
  induction m as [|[x w] r IH]; cbn; intros H; [reflexivity|]. apply sorted_inv in H as [Hs Hf].
  destruct (cmp k x) eqn:E; cbn.
  - rewrite (cmp_eq_l k x k' E). destruct (cmp x k'); reflexivity.
  - reflexivity.
  - rewrite IH by exact Hs. destruct (cmp k k') eqn:E2; [|reflexivity|reflexivity].
    apply cmp_gt_lt in E. rewrite (cmp_eq_r k k' x E2) in E. rewrite E. reflexivity.
Qed.
Lemma mfind_minsert m k v k' : msorted m ->
  mfind (minsert m k v) k' = match cmp k k' with Eq => match mfind m k with Some w => Some w | None => Some v end | _ => mfind m k' end.
Proof.
  induction m as [|[x w] r IH]; cbn; intros H; [reflexivity|]. apply sorted_inv in H as [Hs Hf].
  destruct (cmp k x) eqn:E; cbn.
  - rewrite (cmp_sym_eq _ _ E). rewrite (cmp_eq_l k x k' E). destruct (cmp x k'); reflexivity.
  - assert (E' : cmp x k = Gt) by (apply cmp_gt_lt; exact E). rewrite E'.
    assert (N : mfind r k = None).
    { apply mfind_above. rewrite Forall_forall in *. intros q Hq. eapply cmp_trans; [exact E|]. exact (Hf q Hq). }
    rewrite N. reflexivity.
  - assert (E' : cmp x k = Lt) by (apply cmp_gt_lt; exact E). rewrite E', IH by exact Hs.
    destruct (cmp k k') eqn:E2; [|reflexivity|reflexivity].
    rewrite (cmp_eq_r k k' x E2) in E'. rewrite E'. reflexivity.
Qed.
Lemma mfind_merase m k k' : msorted m -> mfind (merase m k) k' = match cmp k k' with Eq => None | _ => mfind m k' end.
Proof.
  induction m as [|[x w] r IH]; cbn; intros H; [destruct (cmp k k'); reflexivity|]. apply sorted_inv in H as [Hs Hf].
  destruct (cmp x k) eqn:E; cbn.
  - rewrite <- (cmp_eq_l x k k' E). destruct (cmp x k') eqn:E2; auto.
    apply mfind_above. unfold below in Hf. cbn in Hf. rewrite Forall_forall in *. intros q Hq. rewrite <- (cmp_eq_l x k' (fst q) E2). auto.
  - rewrite IH by exact Hs. destruct (cmp k k') eqn:E2; auto. rewrite <- (cmp_eq_r k k' x E2), E. reflexivity.
  - rewrite IH by exact Hs. destruct (cmp k k') eqn:E2; auto. rewrite <- (cmp_eq_r k k' x E2), E. reflexivity.
Qed.
Lemma merase_sorted m k : msorted m -> msorted (merase m k).
Proof. intros H. rewrite merase_filter by exact H. apply filter_sorted, H. Qed.
Lemma mlower_filter m k : msorted m -> mlower m k = filter (fun p => match cmp (fst p) k with Lt => false | _ => true end) m.
Proof.
  induction m as [|[x w] r IH]; cbn; intros H; [reflexivity|]. apply sorted_inv in H as [Hs Hf].
  assert (G : cmp x k <> Lt -> r = filter (fun p => match cmp (fst p) k with Lt => false | _ => true end) r).
  { intros N. clear IH. induction r as [|[y u] r IH]; cbn; [reflexivity|]. inversion Hf; subst. apply sorted_inv in Hs as [Hs _].
    unfold below in H1. cbn in H1. destruct (cmp y k) eqn:E2.
    - f_equal. apply IH; auto.
    - exfalso. apply N. eapply cmp_trans; eauto.
    - f_equal. apply IH; auto. }
  destruct (cmp x k) eqn:E; cbn; auto; f_equal; apply G; congruence.
Qed.
(** a new entry, at its place among the others *)
Lemma minsert_new m k v : mfind m k = None -> msorted m -> exists a b, m = a ++ b /\ minsert m k v = a ++ (k, v) :: b /\ massign m k v = a ++ (k, v) :: b.
Proof.
  induction m as [|[x w] r IH]; cbn; intros Hn Hs; [exists [], []; auto|].
  apply sorted_inv in Hs as [Hs Hf]. destruct (cmp k x) eqn:E.
  - rewrite (cmp_sym_eq _ _ E) in Hn. discriminate.
  - exists [], ((x, w) :: r). auto.
  - apply cmp_gt_lt in E. rewrite E in Hn. destruct (IH Hn Hs) as (a & b & -> & -> & ->). exists ((x, w) :: a), b. auto.
Qed.
End Map.
Arguments omap : clear implicits.
