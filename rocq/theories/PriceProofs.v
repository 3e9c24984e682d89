(** Proofs for C87. *)
From Coq Require Import String List ZArith Bool Permutation Lia Reals.
From Coq Require Import Floats.SpecFloat.
From Verif Require Import Base Vec StringModel StringProofs ScriptModel ScriptSpec SimModel SimProofs RandomModel RandomSpec RandomProofs ValueModel ValueSpec ValueProofs DrawModel DrawSpec DrawProofs DrawProps PriceModel PriceSpec.
Import ListNotations.
Open Scope Z_scope.

Section Generic.
Context {N : Num} {G P : Type}.
Variable skip : Z -> G -> outcome G.
Variable fill : G -> outcome (list spec_float * G).
Variable dress : list spec_float -> list spec_float.
Variable generate : list spec_float -> list sample -> outcome (list sample).
Variable eval : list sample -> estate -> outcome estate.
Variable at_ : Z.
Variable stands : G -> P -> Prop.
Variable place : Z -> P.
Variable next : P -> P.
Variable value : P -> list spec_float.
Variable good : Z -> Prop.
Hypothesis skip_ok : forall g p n, stands g p -> good n -> exists g', skip n g = Ok g' /\ stands g' (place n).
Hypothesis fill_ok : forall g p, stands g p -> exists g', fill g = Ok (value p, g') /\ stands g' (next p).
Variable writable : list sample -> Prop.
Variable path : list spec_float -> list sample.
Hypothesis gen_ok : forall p old, writable old -> generate (dress (value p)) old = Ok (path (dress (value p))) /\ writable (path (dress (value p))).
Definition drawn (first : Z) (i : nat) : list sample := path (dress (value (Nat.iter i next (place first)))).
Lemma price_paths_ok first k : forall i g old st sum, stands g (Nat.iter i next (place first)) -> writable old ->
  exists g' old', stands g' (Nat.iter (k + i) next (place first)) /\ writable old' /\
    price_paths fill dress generate eval at_ k g old st sum = (do r <- run_paths eval at_ (drawn first) i k st sum; Ok (g', old', r)).
Proof.
  induction k as [|k IH]; intros i g old st sum Hg Ho; cbn [price_paths run_paths].
  - exists g, old. split; [exact Hg|]. split; [exact Ho|]. reflexivity.
  - destruct (fill_ok _ _ Hg) as (g1 & -> & H1). cbn [obind fst snd]. destruct (gen_ok (Nat.iter i next (place first)) old Ho) as [-> H2]. cbn [obind].
    change (path (dress (value (Nat.iter i next (place first))))) with (drawn first i) in *.
    change (next (Nat.iter i next (place first))) with (Nat.iter (S i) next (place first)) in H1.
    destruct (eval (drawn first i) st) as [s| | |] eqn:Ee; cbn [obind].
    2-4: destruct (IH (S i) g1 (drawn first i) st sum H1 H2) as (g' & o' & A & B & _); exists g', o'; replace (S k + i)%nat with (k + S i)%nat by lia; auto.
    destruct (vget (vars s) at_) as [v| | |] eqn:Ev; cbn [obind].
    2-4: destruct (IH (S i) g1 (drawn first i) st sum H1 H2) as (g' & o' & A & B & _); exists g', o'; replace (S k + i)%nat with (k + S i)%nat by lia; auto.
    destruct (IH (S i) g1 (drawn first i) s (n_add sum v) H1 H2) as (g' & o' & A & B & ->). exists g', o'. replace (S k + i)%nat with (k + S i)%nat by lia. auto.
Qed.
Definition stand (g : G) : Prop := exists p, stands g p.
Lemma price_tasks_ok ts : Forall (fun t => good (fst t)) ts -> forall order gens paths states res,
  Forall stand gens -> Forall writable paths -> List.length gens = List.length states -> List.length paths = List.length states -> List.length res = List.length ts ->
  Forall (fun p => (fst p < List.length ts)%nat /\ (snd p < List.length states)%nat) order ->
  price_tasks skip fill dress generate eval at_ ts order gens paths states res = run_tasks eval at_ drawn ts order states res.
Proof.
  intros Good. induction order as [|[k th] r IH]; intros gens paths states res Hg Hp L1 L2 L3 F; cbn [price_tasks run_tasks]; [reflexivity|].
  inversion F as [|? ? [F1 F2] F3]; subst. cbn [fst snd] in *.
  destruct gens as [|g0 gens0]; [cbn in L1; lia|]. set (gens := g0 :: gens0) in *.
  rewrite (get_ok ts k (0, 0) F1), (get_ok paths th [] ltac:(lia)), (get_ok gens th g0 ltac:(lia)). cbn [obind].
  assert (Hs : stand (nth th gens g0)) by (rewrite Forall_forall in Hg; apply Hg; apply nth_In; lia). destruct Hs as (p & Hs).
  assert (Hw : writable (nth th paths [])) by (rewrite Forall_forall in Hp; apply Hp; apply nth_In; lia).
  assert (Gk : good (fst (nth k ts (0, 0)))) by (rewrite Forall_forall in Good; apply (Good (nth k ts (0, 0))); apply nth_In; exact F1).
  destruct (skip_ok _ p _ Hs Gk) as (g1 & -> & H1). cbn [obind].
  rewrite (get_ok states th (EState [] empty_stack empty_stack) F2), (get_ok res k n_zero ltac:(lia)). cbn [obind].
  destruct (price_paths_ok (fst (nth k ts (0, 0))) (Z.to_nat (snd (nth k ts (0, 0)))) 0 g1 (nth th paths []) (nth th states (EState [] empty_stack empty_stack)) (nth k res n_zero) H1 Hw) as (g2 & o2 & A & B & ->).
  destruct (run_paths eval at_ (drawn (fst (nth k ts (0, 0)))) 0 (Z.to_nat (snd (nth k ts (0, 0)))) (nth th states (EState [] empty_stack empty_stack)) (nth k res n_zero)) as [[st' sum']| | |]; cbn [obind fst snd]; try reflexivity.
  rewrite !put_ok by lia. cbn [obind]. apply IH; rewrite ?set_nth_length; auto.
  - apply forall_set; [exact Hg|]. eexists. exact A.
  - apply forall_set; [exact Hp|exact B].
Qed.
Lemma price_with_ok g blank (p : product) n pool order ts : stand g -> writable blank -> payoff_at p = at_ ->
  tasks n (Z.of_nat (num_threads pool)) = Ok ts -> Forall (fun t => good (fst t)) ts -> some_schedule pool (List.length ts) order ->
  price_with skip fill dress generate eval at_ g blank p n pool order = mc_simulation eval p (fun _ => drawn) n pool order.
Proof.
  intros Hg Hb Ha Et Good [Pm F]. unfold price_with, mc_simulation. rewrite Ha, Et. cbn [obind]. rewrite price_tasks_ok; try reflexivity; rewrite ?repeat_length; try reflexivity; try exact Good.
  - apply Forall_forall. intros x Hx. apply repeat_spec in Hx as ->. exact Hg.
  - apply Forall_forall. intros x Hx. apply repeat_spec in Hx as ->. exact Hb.
  - rewrite Forall_forall in *. intros x Hx. split.
    + assert (In (fst x) (seq 0 (List.length ts))) as Hi by (rewrite <- Pm; now apply in_map). apply in_seq in Hi. lia.
    + specialize (F x Hx). unfold thread_numbers, num_threads in *. destruct F as [<-|F]; [lia|]. apply in_map_iff in F as (i & <- & Hi). apply in_seq in Hi. lia.
Qed.
End Generic.

Section Ext.
Context {N : Num}.
Lemma run_paths_ext eval at_ d1 d2 : (forall i, d1 i = d2 i) -> forall k i st sum, run_paths eval at_ d1 i k st sum = run_paths eval at_ d2 i k st sum.
Proof.
  intros E. induction k as [|k IH]; intros i st sum; cbn [run_paths]; [reflexivity|]. rewrite E. destruct (eval (d2 i) st) as [s| | |]; cbn [obind]; auto.
  destruct (vget (vars s) at_); cbn [obind]; auto.
Qed.
Lemma run_tasks_ext eval at_ d1 d2 ts : (forall f i, d1 f i = d2 f i) -> forall order states res, run_tasks eval at_ d1 ts order states res = run_tasks eval at_ d2 ts order states res.
Proof.
  intros E. induction order as [|[k th] r IH]; intros states res; cbn [run_tasks]; [reflexivity|].
  destruct (get ts k) as [t| | |]; cbn [obind]; auto. destruct (get states th) as [st| | |]; cbn [obind]; auto. destruct (get res k) as [old| | |]; cbn [obind]; auto.
  rewrite (run_paths_ext eval at_ (d1 (fst t)) (d2 (fst t)) (E (fst t))). destruct (run_paths _ _ _ _ _ _ _) as [p| | |]; cbn [obind]; auto.
  destruct (put states th (fst p)); cbn [obind]; auto. destruct (put res k (snd p)); cbn [obind]; auto.
Qed.
End Ext.

Section Created.
Context {N : Num} {B : Type}.
Variable sobol_skip : Z -> B -> outcome B.
Variable sobol_fill : B -> outcome (list spec_float * B).
Variable sobol_new : nat -> B.
Variable inverse_ncdf : spec_float -> spec_float.
Variable bridged : list spec_float -> list spec_float.
Definition dress_of (use_bb : bool) : list spec_float -> list spec_float := if use_bb then bridged else fun v => v.
Lemma dress_same use_bb v : dress_of use_bb v = dressed bridged use_bb v.
Proof. unfold dress_of, dressed. destruct use_bb; reflexivity. Qed.
Lemma dressed_length dim use_bb v : (forall v, List.length v = dim -> List.length (bridged v) = dim) -> List.length v = dim -> List.length (dressed bridged use_bb v) = dim.
Proof. intros Hb Hv. unfold dressed. destruct use_bb; auto. Qed.
Lemma dress_length dim use_bb v : (forall v, List.length v = dim -> List.length (bridged v) = dim) -> List.length v = dim -> List.length (dress_of use_bb v) = dim.
Proof. intros Hb Hv. unfold dress_of. destruct use_bb; auto. Qed.
Lemma mrg_length dim k : List.length (map inverse_ncdf (map (deviate 1024 1025) (seq k dim))) = dim.
Proof. now rewrite !map_length, seq_length. Qed.
Lemma mrg_priced generate blank path eval p method dim use_bb n pool ts order : ci_eqb method (lit "mrg32") = true -> 0 <= n < 2 ^ 31 -> n * Z.of_nat dim < 2 ^ 64 ->
  (forall v, List.length v = dim -> List.length (bridged v) = dim) -> path_maker dim generate blank path ->
  tasks n (Z.of_nat (num_threads pool)) = Ok ts -> some_schedule pool (List.length ts) order ->
  priced sobol_skip sobol_fill sobol_new inverse_ncdf bridged generate blank eval p method dim use_bb n pool order =
    mc_simulation eval p (fun _ first i => path (dressed bridged use_bb (mrg_vector inverse_ncdf dim first i))) n pool order.
Proof.
  intros Em Hn Hd Hb (writable & Hw & Hgen) Et Hs. unfold priced, kind_of. rewrite (other _ _ (lit "sobol") Em eq_refl), Em. cbn [obind]. fold (dress_of use_bb).
  rewrite (price_with_ok (skip_to mrg_skip) (fill_normal mrg_next inverse_ncdf dim) (dress_of use_bb) generate eval (payoff_at p) (mrg_stands dim) (fun z => Z.to_nat (z * Z.of_nat dim / 2)) (fun k => k + dim)%nat
    (fun k => map inverse_ncdf (map (deviate 1024 1025) (seq k dim))) (fun z => 0 <= z <= n)) with (ts := ts) (writable := writable) (path := path); auto.
  - unfold mc_simulation. rewrite Et. cbn [obind]. unfold drawn.
    assert (E : forall first i, path (dress_of use_bb (map inverse_ncdf (map (deviate 1024 1025) (seq (Nat.iter i (fun k => k + dim)%nat (Z.to_nat (first * Z.of_nat dim / 2))) dim)))) = path (dressed bridged use_bb (mrg_vector inverse_ncdf dim first i))).
    { intros first i. rewrite iter_add, dress_same. reflexivity. }
    erewrite run_tasks_ext by exact E. reflexivity.
  - intros g q m Hg Hm. apply (mrg_skip_stands _ _ q); [exact Hg|nia].
  - intros g q. apply mrg_fill_stands.
  - intros q old Ho. apply Hgen; [|exact Ho]. apply dress_length; [exact Hb|apply mrg_length].
  - exists 0%nat. apply mrg_stands_new.
  - exact (task_firsts _ _ _ Hn Et).
Qed.
Lemma sobol_priced generate blank path eval p method dim use_bb n pool ts order vector : ci_eqb method (lit "sobol") = true -> 0 <= n < 2 ^ 31 ->
  sequence sobol_skip sobol_fill vector (sobol_new dim) -> (forall k, List.length (vector k) = dim) ->
  (forall v, List.length v = dim -> List.length (bridged v) = dim) -> path_maker dim generate blank path ->
  tasks n (Z.of_nat (num_threads pool)) = Ok ts -> some_schedule pool (List.length ts) order ->
  priced sobol_skip sobol_fill sobol_new inverse_ncdf bridged generate blank eval p method dim use_bb n pool order =
    mc_simulation eval p (fun _ first i => path (dressed bridged use_bb (vector (first + Z.of_nat i)))) n pool order.
Proof.
  intros Em Hn (stands & (n0 & H0) & Hskip & Hfill) Hl Hb (writable & Hw & Hgen) Et Hs. unfold priced, kind_of. rewrite Em. cbn [obind]. fold (dress_of use_bb).
  rewrite (price_with_ok sobol_skip sobol_fill (dress_of use_bb) generate eval (payoff_at p) stands (fun z => z) (fun z => z + 1) vector (fun z => 0 <= z)) with (ts := ts) (writable := writable) (path := path); auto.
  - unfold mc_simulation. rewrite Et. cbn [obind]. unfold drawn. erewrite run_tasks_ext; [reflexivity|]. intros first i. rewrite iter_succ, dress_same. reflexivity.
  - intros q old Ho. apply Hgen; [|exact Ho]. apply dress_length; [exact Hb|apply Hl].
  - exists n0. exact H0.
  - eapply Forall_impl; [|exact (task_firsts _ _ _ Hn Et)]. cbn beta. lia.
Qed.
End Created.
