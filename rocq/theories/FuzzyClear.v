(** Fuzzy evaluation away from the switching points, and degrees of truth over the rationals. *)
From Coq Require Import ZArith List Bool Lia ZifyBool QArith Qcanon Qround Lqa.
From Verif Require Import Base StringModel ScriptModel ScriptSpec ScriptEval FuzzyModel FuzzySpec FuzzyProofs.
Import ListNotations.
Open Scope Z_scope.

Section Clear.
Context {N : Num} {F : FuzzyNum N}.
Hypothesis L : clear_laws.
Variable defEps : num.
Variable smp : sample.
Definition as_num (b : bool) : num := if b then n_one else n_zero.
Lemma lt_asym x y : n_ltb x y = true -> n_ltb y x = false.
Proof. intros H. destruct (n_ltb y x) eqn:E; [|reflexivity]. pose proof (lt_trans L _ _ _ H E) as C. now rewrite (lt_irrefl L) in C. Qed.
Lemma le_lt_trans x y z : n_ltb y x = false -> n_ltb y z = true -> n_ltb x z = true.
Proof.
  intros H1 H2. destruct (n_ltb x y) eqn:E; [now apply (lt_trans L _ y)|]. rewrite (lt_total L x y); auto.
Qed.
Lemma lt_le_trans x y z : n_ltb x y = true -> n_ltb z y = false -> n_ltb x z = true.
Proof.
  intros H1 H2. destruct (n_ltb y z) eqn:E; [now apply (lt_trans L _ y)|]. rewrite <- (lt_total L y z); auto.
Qed.
Lemma degree_cmp_clear op z x : zone defEps op z -> clear_cmp defEps op z x -> degree_cmp defEps op z x = as_num (test op x).
Proof.
  unfold zone, clear_cmp, degree_cmp. set (e := if n_ltb (eps z) n_zero then defEps else eps z). clearbody e.
  assert (Eq0 : forall y, n_ltb y n_zero = true \/ n_ltb n_zero y = true -> eq0 y = false).
  { intros y Hy. destruct (eq0 y) eqn:E; [|reflexivity]. apply (eq0_is L) in E. subst y. rewrite (lt_irrefl L) in Hy. destruct Hy; discriminate. }
  destruct (isDiscrete z); intros Hz Hc.
  - set (l := lb z) in *. set (r := rb z) in *. clearbody l r. destruct op; cbn [test]; rewrite ?(gt0_is L), ?(ge0_is L).
    + destruct Hz as [Hl Hr]. unfold bfly2. destruct Hc as [H|[H|H]].
      * rewrite H. cbn [orb]. rewrite Eq0 by (left; now apply (lt_trans L _ l)). reflexivity.
      * rewrite H, orb_true_r. rewrite Eq0 by (right; now apply (lt_trans L _ r)). reflexivity.
      * subst x. rewrite (lt_asym _ _ Hl), (lt_asym _ _ Hr). cbn [orb]. rewrite (lt_irrefl L), (edge2_mid L _ Hr). now rewrite (proj2 (eq0_is L n_zero) eq_refl).
    + destruct Hz as [Hl Hr]. unfold cspr2. destruct Hc as [H|[H|[H|H]]].
      * rewrite H. rewrite (lt_asym x n_zero); [reflexivity|]. eapply lt_le_trans; eassumption.
      * rewrite (lt_asym l x) by (apply (le_lt_trans _ n_zero); [exact Hl|now apply (lt_trans L _ r)]).
        rewrite H. now rewrite (lt_trans L n_zero r x).
      * subst x. rewrite (lt_irrefl L). assert (Hlr : n_ltb l r = true) by (eapply le_lt_trans; eassumption). rewrite (lt_asym _ _ Hlr), (edge2_low L _ _ Hlr), Hl. reflexivity.
      * subst x. assert (Hlr : n_ltb l r = true) by (eapply le_lt_trans; eassumption). rewrite (lt_asym _ _ Hlr), (lt_irrefl L), (edge2_high L _ _ Hlr), Hr. reflexivity.
    + destruct Hz as [Hl Hr]. unfold cspr2. assert (Hlr : n_ltb l r = true) by (eapply lt_le_trans; eassumption). destruct Hc as [H|[H|[H|H]]].
      * rewrite H, (lt_trans L x l n_zero) by assumption. reflexivity.
      * rewrite (lt_asym l x) by (now apply (lt_trans L _ r)). rewrite H. rewrite (lt_asym n_zero x); [reflexivity|]. eapply le_lt_trans; eassumption.
      * subst x. rewrite (lt_irrefl L), (lt_asym _ _ Hlr), (edge2_low L _ _ Hlr), Hl. reflexivity.
      * subst x. rewrite (lt_asym _ _ Hlr), (lt_irrefl L), (edge2_high L _ _ Hlr), Hr. reflexivity.
  - destruct (half_pos L e Hz) as [Hh Hn]. unfold bfly, cspr. change (n_mul n_half e) with (half_width e). pose proof (edge_low L e Hz) as El. pose proof (edge_high L e Hz) as Eh. pose proof (edge_mid L _ Hh) as Em.
    set (h := half_width e) in *. clearbody h. assert (Hlh : n_ltb (n_neg h) h = true) by (now apply (lt_trans L _ n_zero)).
    destruct op; cbn [test]; rewrite ?(gt0_is L), ?(ge0_is L).
    + destruct Hc as [H|[H|H]].
      * rewrite H. cbn [orb]. rewrite Eq0 by (left; now apply (lt_trans L _ (n_neg h))). reflexivity.
      * rewrite H, orb_true_r. rewrite Eq0 by (right; now apply (lt_trans L _ h)). reflexivity.
      * subst x. rewrite (lt_asym _ _ Hn), (lt_asym _ _ Hh). cbn [orb]. rewrite Em. now rewrite (proj2 (eq0_is L n_zero) eq_refl).
    + destruct Hc as [H|[H|[H|H]]].
      * rewrite H. rewrite (lt_asym x n_zero); [reflexivity|]. now apply (lt_trans L _ (n_neg h)).
      * rewrite (lt_asym (n_neg h) x) by (now apply (lt_trans L _ h)). rewrite H, (lt_trans L n_zero h x) by assumption. reflexivity.
      * subst x. rewrite (lt_irrefl L), (lt_asym _ _ Hlh), El, (lt_asym _ _ Hn). reflexivity.
      * subst x. rewrite (lt_asym _ _ Hlh), (lt_irrefl L), Eh, Hh. reflexivity.
    + destruct Hc as [H|[H|[H|H]]].
      * rewrite H, (lt_trans L x (n_neg h) n_zero) by assumption. reflexivity.
      * rewrite (lt_asym (n_neg h) x) by (now apply (lt_trans L _ h)). rewrite H. rewrite (lt_asym n_zero x); [reflexivity|]. now apply (lt_trans L _ h).
      * subst x. rewrite (lt_irrefl L), (lt_asym _ _ Hlh), El, Hn. reflexivity.
      * subst x. rewrite (lt_asym _ _ Hlh), (lt_irrefl L), Eh, (lt_asym _ _ Hh). reflexivity.
Qed.
Lemma degree_clear env c : clear_cond defEps smp env c -> degree defEps smp env c = as_num (truth false smp env c).
Proof.
  induction c as [f op z e|f a IHa b IHb|f a IHa b IHb|f a IHa| |]; cbn [clear_cond degree truth]; intros H.
  - destruct H. now apply degree_cmp_clear.
  - destruct H as [H1 H2]. rewrite IHa, IHb by assumption. destruct (truth _ _ _ a), (truth _ _ _ b); cbn [as_num andb]; auto using (mul_1_1 L), (mul_0_1 L), (mul_1_0 L), (mul_0_0 L).
  - destruct H as [H1 H2]. rewrite IHa, IHb by assumption. destruct (truth _ _ _ a), (truth _ _ _ b); cbn [as_num orb];
      [rewrite (mul_1_1 L)|rewrite (mul_0_1 L)|rewrite (mul_1_0 L)|rewrite (mul_0_0 L)]; auto using (or_1_1 L), (or_0_1 L), (or_1_0 L), (or_0_0 L).
  - rewrite IHa by assumption. destruct (truth _ _ _ a); cbn [as_num negb]; auto using (not_1 L), (not_0 L).
  - reflexivity.
  - reflexivity.
Qed.
Lemma fexec_clear s : forall env, clear_stmt defEps smp env s -> fexec defEps smp s env = exec false smp s env.
Proof.
  assert (HF : forall l, Forall (fun s => forall env, clear_stmt defEps smp env s -> fexec defEps smp s env = exec false smp s env) l ->
    forall env, clear_all defEps smp env l -> fold_left (fun env s => fexec defEps smp s env) l env = fold_left (fun env s => exec false smp s env) l env).
  { induction 1 as [|x l Hx Hl IH]; intros env Hc; cbn [fold_left]; [reflexivity|]. destruct Hc as [H1 H2]. rewrite Hx by assumption. apply IH, H2. }
  induction s as [v e|v e|f af c t Ht|f af c t l Ht Hl|l Hl] using stmt_ind'; intros env Hc; [reflexivity|reflexivity| | |].
  - destruct Hc as [H1 H2]. cbn [fexec exec]. rewrite (degree_clear env c H1). destruct (truth false smp env c); cbn [as_num].
    + rewrite (surely_1 L). apply (HF t Ht). exact H2.
    + now rewrite (surely_0 L), (never_0 L).
  - destruct Hc as [H1 H2]. cbn [fexec exec]. rewrite (degree_clear env c H1). destruct (truth false smp env c); cbn [as_num].
    + rewrite (surely_1 L). apply (HF t Ht). exact H2.
    + rewrite (surely_0 L), (never_0 L). apply (HF l Hl). exact H2.
  - cbn [fexec exec]. apply (HF l Hl). exact Hc.
Qed.
Lemma fexec_all_clear l : forall env, clear_all defEps smp env l -> fexec_all defEps smp l env = exec_all false smp l env.
Proof.
  unfold fexec_all, exec_all. induction l as [|x l IH]; intros env Hc; cbn [fold_left]; [reflexivity|]. destruct Hc as [H1 H2]. rewrite fexec_clear by assumption. now apply IH.
Qed.
End Clear.
Lemma fexec_events_clear {N : Num} {F : FuzzyNum N} (L : clear_laws) defEps events : forall scenario env, clear_events defEps events scenario env ->
  fexec_events defEps events scenario env = exec_events events scenario env.
Proof.
  induction events as [|evt r IH]; intros [|smp ss] env Hc; cbn [fexec_events exec_events clear_events] in *; try reflexivity. destruct Hc as [H1 H2].
  rewrite fexec_all_clear by assumption. now apply IH.
Qed.

(** * Rationals *)
Definition qc (n : Z) (d : positive) : Qc := Q2Qc (Qmake n d).
Definition qc_ltb (x y : Qc) : bool := if Qclt_le_dec x y then true else false.
Definition q_eps : Qc := qc 2 100000000000000.
(** exact arithmetic (log, exp, sqrt and powers are stand-ins); EPSILON = 2e-14 *)
#[export] Instance QNum : Num := {|
  num := Qc; n_zero := qc 0 1; n_thirty := qc 30 1; n_add := Qcplus; n_sub := Qcminus; n_mul := Qcmult; n_div := Qcdiv; n_pow := fun x _ => x;
  n_neg := Qcopp; n_log := fun x => x; n_sqrt := fun x => x; n_exp := fun x => x; n_ltb := qc_ltb;
  eq0 := fun x => if Qc_eq_dec x (qc 0 1) then true else false; gt0 := qc_ltb (qc 0 1); ge0 := fun x => negb (qc_ltb x (qc 0 1)); ge0_const := qc_ltb (- q_eps) |}.
#[export] Instance QFuzzy : FuzzyNum QNum := {|
  n_one := qc 1 1; n_half := qc 1 2; n_abs := fun x => if qc_ltb x (qc 0 1) then Qcopp x else x;
  surely := fun x => qc_ltb (Qcminus (qc 1 1) q_eps) x; never := fun x => qc_ltb x q_eps |}.
Open Scope Qc_scope.
Lemma qc_ltb_iff x y : qc_ltb x y = true <-> x < y.
Proof. unfold qc_ltb. destruct (Qclt_le_dec x y) as [H|H]; split; auto; try discriminate. intros C. exfalso. exact (Qcle_not_lt _ _ H C). Qed.
Lemma qc_ltb_niff x y : qc_ltb x y = false <-> y <= x.
Proof. unfold qc_ltb. destruct (Qclt_le_dec x y) as [H|H]; split; auto; try discriminate. intros C. exfalso. exact (Qcle_not_lt _ _ C H). Qed.
Lemma qc_neq_lt x y : x < y -> x <> y.
Proof. intros H E. subst. exact (Qcle_not_lt _ _ (Qcle_refl y) H). Qed.
Lemma half_alt e : qc 1 2 * e + qc 1 2 * e = e.
Proof. transitivity ((qc 1 2 + qc 1 2) * e); [ring|]. replace (qc 1 2 + qc 1 2) with 1 by (apply Qc_is_canon; reflexivity). ring. Qed.
Lemma qc0 : qc 0 1 = 0. Proof. apply Qc_is_canon. reflexivity. Qed.
Lemma qc1 : qc 1 1 = 1. Proof. apply Qc_is_canon. reflexivity. Qed.
Lemma half_posq e : 0 < e -> 0 < qc 1 2 * e.
Proof. intros H. replace 0 with (0 * e) by ring. apply Qcmult_lt_compat_r; [exact H|]. reflexivity. Qed.
Lemma qc_lt_minus a b : a < b <-> 0 < b - a.
Proof. rewrite Qclt_minus_iff. unfold Qcminus. reflexivity. Qed.
Lemma q_laws : @clear_laws QNum QFuzzy.
Proof.
  assert (Self : forall d, 0 < d -> d / d = 1) by (intros d H; apply Qcmult_inv_r; intros E; symmetry in E; now apply (qc_neq_lt _ _ H)).
  split; unfold half_width; cbn [n_ltb n_zero n_add n_sub n_mul n_div n_neg n_one n_half n_abs surely never eq0 gt0 ge0 QNum QFuzzy num]; rewrite ?qc0, ?qc1; intros.
  - apply qc_ltb_niff. apply Qcle_refl.
  - rewrite !qc_ltb_iff in *. eapply Qclt_trans; eassumption.
  - rewrite !qc_ltb_niff in *. now apply Qcle_antisym.
  - rewrite ?qc0. destruct (Qc_eq_dec x 0); split; auto; discriminate.
  - reflexivity.
  - reflexivity.
  - rewrite !qc_ltb_iff in *. split; [now apply half_posq|]. apply qc_lt_minus. replace (0 - - (qc 1 2 * e)) with (qc 1 2 * e) by ring. now apply half_posq.
  - unfold Qcdiv. ring.
  - rewrite half_alt. apply Self. now apply qc_ltb_iff.
  - replace (qc_ltb 0 0) with false by (symmetry; apply qc_ltb_niff; apply Qcle_refl). replace (e - 0) with e by ring. apply Self. now apply qc_ltb_iff.
  - unfold Qcdiv. ring.
  - apply Self. apply (proj1 (qc_lt_minus _ _)). now apply qc_ltb_iff.
  - unfold Qcdiv. ring.
  - ring.
  - ring.
  - ring.
  - ring.
  - ring.
  - ring.
  - ring.
  - ring.
  - ring.
  - ring.
  - reflexivity.
  - reflexivity.
  - reflexivity.
Qed.
Lemma div_bounds a b : 0 <= a -> a <= b -> 0 < b -> 0 <= a / b <= 1.
Proof.
  intros H1 H2 H3. assert (Hi : 0 < / b). { destruct (Qclt_le_dec 0 (/ b)) as [H|H]; [exact H|]. exfalso.
    assert (E : b * / b = 1) by (apply Qcmult_inv_r; intros E; symmetry in E; now apply (qc_neq_lt _ _ H3)).
    assert (C : / b * b <= 0 * b) by (apply Qcmult_le_compat_r; [exact H|now apply Qclt_le_weak]). rewrite Qcmult_comm, E in C. replace (0 * b) with 0 in C by ring. now apply (Qcle_not_lt _ _ C). }
  unfold Qcdiv. split.
  - replace 0 with (0 * / b) by ring. apply Qcmult_le_compat_r; [exact H1|now apply Qclt_le_weak].
  - apply Qcle_trans with (b * / b); [apply Qcmult_le_compat_r; [exact H2|now apply Qclt_le_weak]|]. rewrite Qcmult_inv_r; [apply Qcle_refl|]. intros E. symmetry in E. now apply (qc_neq_lt _ _ H3).
Qed.
Definition zone_q (defEps : Qc) (op : cmp) (z : fuzz) : Prop := zone defEps op z.
Lemma qc_le_minus a b : a <= b <-> 0 <= b - a.
Proof. rewrite Qcle_minus_iff. unfold Qcminus. reflexivity. Qed.
Lemma in01_mul a b : 0 <= a <= 1 -> 0 <= b <= 1 -> 0 <= a * b <= 1.
Proof.
  intros [A1 A2] [B1 B2]. split.
  - replace 0 with (0 * b) by ring. now apply Qcmult_le_compat_r.
  - apply Qcle_trans with (1 * b); [now apply Qcmult_le_compat_r|]. now replace (1 * b) with b by ring.
Qed.
Lemma in01_compl a : 0 <= a <= 1 -> 0 <= 1 - a <= 1.
Proof.
  intros [A1 A2]. split; [now apply (proj1 (qc_le_minus a 1))|]. apply qc_le_minus. now replace (1 - (1 - a)) with a by ring.
Qed.
Lemma degree_cmp_01 defEps op z x : zone defEps op z -> 0 <= degree_cmp defEps op z x <= 1.
Proof.
  assert (Z01 : 0 <= 0 <= 1) by (split; [apply Qcle_refl|discriminate]). assert (O01 : 0 <= 1 <= 1) by (split; [discriminate|apply Qcle_refl]).
  unfold zone, degree_cmp. set (e := if n_ltb (eps z) n_zero then defEps else eps z). clearbody e.
  cbn [n_ltb n_zero QNum num]. rewrite ?qc0. set (l := lb z). set (r := rb z). clearbody l r. change num with Qc in *.
  assert (Sp : forall l r, l < r -> 0 <= cspr2 x l r <= 1).
  { intros l0 r0 Hlr. unfold cspr2. cbn [n_ltb n_zero n_one n_div n_sub QNum QFuzzy]. rewrite qc0, qc1. destruct (qc_ltb x l0) eqn:E1; [exact Z01|]. destruct (qc_ltb r0 x) eqn:E2; [exact O01|].
    rewrite qc_ltb_niff in E1, E2. apply div_bounds; [now apply (proj1 (qc_le_minus _ _))| |now apply (proj1 (qc_lt_minus _ _))].
    apply qc_le_minus. replace (r0 - l0 - (x - l0)) with (r0 - x) by ring. now apply (proj1 (qc_le_minus _ _)). }
  destruct (isDiscrete z); intros Hz.
  - destruct op; rewrite ?qc_ltb_iff, ?qc_ltb_niff in Hz; destruct Hz as [Hl Hr].
    + unfold bfly2. cbn [n_ltb n_zero n_one n_div n_sub QNum QFuzzy]. rewrite qc0, qc1. destruct (qc_ltb x l) eqn:E1; [exact Z01|]. destruct (qc_ltb r x) eqn:E2; [exact Z01|]. cbn [orb].
      rewrite qc_ltb_niff in E1, E2. destruct (qc_ltb x 0) eqn:E3; apply in01_compl.
      * rewrite qc_ltb_iff in E3. replace (x / l) with ((- x) / (- l)) by (unfold Qcdiv; field; split; [apply qc_neq_lt in Hl; exact Hl|intros C; apply (qc_neq_lt _ _ Hl); replace l with (- - l) by ring; rewrite C; ring]).
        apply div_bounds; [apply qc_le_minus; replace (- x - 0) with (0 - x) by ring; apply (proj1 (qc_le_minus _ _)); now apply Qclt_le_weak| |].
        { apply qc_le_minus. replace (- l - - x) with (x - l) by ring. now apply (proj1 (qc_le_minus _ _)). }
        { apply qc_lt_minus. replace (- l - 0) with (0 - l) by ring. now apply (proj1 (qc_lt_minus _ _)). }
      * rewrite qc_ltb_niff in E3. now apply div_bounds.
    + apply Sp. eapply Qcle_lt_trans; eassumption.
    + apply Sp. eapply Qclt_le_trans; eassumption.
  - rewrite qc_ltb_iff in Hz. pose proof (half_posq e Hz) as Hh. unfold bfly, cspr. cbn [n_ltb n_zero n_one n_div n_sub n_add n_mul n_neg n_half n_abs QNum QFuzzy]. rewrite qc0, qc1. pose proof (half_alt e) as Ha.
    set (h := qc 1 2 * e) in *. clearbody h.
    assert (Cs : 0 <= (if qc_ltb x (- h) then 0 else if qc_ltb h x then 1 else (x + h) / e) <= 1).
    { destruct (qc_ltb x (- h)) eqn:E1; [exact Z01|]. destruct (qc_ltb h x) eqn:E2; [exact O01|]. rewrite qc_ltb_niff in E1, E2. apply div_bounds; [| |exact Hz].
      - apply qc_le_minus. replace (x + h - 0) with (x - - h) by ring. now apply (proj1 (qc_le_minus _ _)).
      - apply qc_le_minus. rewrite <- Ha. replace (h + h - (x + h)) with (h - x) by ring. now apply (proj1 (qc_le_minus _ _)). }
    destruct op; [|exact Cs|exact Cs]. destruct (qc_ltb x (- h)) eqn:E1; [exact Z01|]. destruct (qc_ltb h x) eqn:E2; [exact Z01|]. cbn [orb]. rewrite qc_ltb_niff in E1, E2.
    apply div_bounds; [| |exact Hh]; apply qc_le_minus; destruct (qc_ltb x 0) eqn:E3.
    + replace (h - - x - 0) with (x - - h) by ring. now apply (proj1 (qc_le_minus _ _)).
    + replace (h - x - 0) with (h - x) by ring. now apply (proj1 (qc_le_minus _ _)).
    + rewrite qc_ltb_iff in E3. replace (h - (h - - x)) with (0 - x) by ring. apply (proj1 (qc_le_minus _ _)). now apply Qclt_le_weak.
    + rewrite qc_ltb_niff in E3. now replace (h - (h - x)) with x by ring.
Qed.
Fixpoint zones (defEps : Qc) (c : cond) : Prop :=
  match c with
  | CCmp _ op z _ => zone defEps op z
  | CAnd _ a b | COr _ a b => zones defEps a /\ zones defEps b
  | CNot _ a => zones defEps a
  | CTrue | CFalse => True
  end.
Lemma degree_01 defEps smp env c : zones defEps c -> 0 <= degree defEps smp env c <= 1.
Proof.
  induction c as [f op z e|f a IHa b IHb|f a IHa b IHb|f a IHa| |]; cbn [zones degree]; intros H.
  - now apply degree_cmp_01.
  - destruct H. apply in01_mul; auto.
  - destruct H as [Ha Hb]. specialize (IHa Ha). specialize (IHb Hb). set (x := @degree QNum QFuzzy defEps smp env a) in *. set (y := @degree QNum QFuzzy defEps smp env b) in *. clearbody x y. change num with Qc in *.
    cbn [n_sub n_add n_mul QNum]. replace (y + x - y * x) with (1 - (1 - x) * (1 - y)) by ring. apply in01_compl, in01_mul; now apply in01_compl.
  - cbn [n_sub n_one QNum QFuzzy]. rewrite qc1. apply in01_compl; auto.
  - cbn [n_one QFuzzy]. rewrite qc1. split; [discriminate|apply Qcle_refl].
  - cbn [n_zero QNum]. rewrite qc0. split; [apply Qcle_refl|discriminate].
Qed.
Lemma combination_between d a b lo hi : 0 <= d <= 1 -> lo <= a <= hi -> lo <= b <= hi -> lo <= d * a + (1 - d) * b <= hi.
Proof.
  intros Hd [A1 A2] [B1 B2]. destruct (in01_compl _ Hd) as [C1 _]. destruct Hd as [D1 _]. split.
  - replace lo with (d * lo + (1 - d) * lo) by ring. apply Qcplus_le_compat; [rewrite !(Qcmult_comm d)|rewrite !(Qcmult_comm (1 - d))]; now apply Qcmult_le_compat_r.
  - replace hi with (d * hi + (1 - d) * hi) by ring. apply Qcplus_le_compat; [rewrite !(Qcmult_comm d)|rewrite !(Qcmult_comm (1 - d))]; now apply Qcmult_le_compat_r.
Qed.
