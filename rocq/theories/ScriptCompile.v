(** Proofs about the compiler and the evaluator of compiled streams. *)
From Coq Require Import ZArith List Bool Lia ZifyBool.
From Verif Require Import Base StringModel ScriptModel ScriptSpec ScriptEval.
Import ListNotations.
Open Scope Z_scope.

Definition zlen {A} (l : list A) : Z := Z.of_nat (length l).
Lemma zlen_app {A} (a b : list A) : zlen (a ++ b) = zlen a + zlen b.
Proof. unfold zlen. rewrite app_length. lia. Qed.
Lemma zlen_nonneg {A} (a : list A) : 0 <= zlen a. Proof. unfold zlen. lia. Qed.
Lemma zlen_cons {A} (x : A) l : zlen (x :: l) = 1 + zlen l. Proof. unfold zlen. cbn [length]. lia. Qed.
Lemma zlen_nil {A} : zlen (@nil A) = 0. Proof. reflexivity. Qed.

(** [code] is found in [l] from position [i] *)
Definition at_ {A} (l : list A) (i : Z) (code : list A) : Prop := exists a b, l = a ++ code ++ b /\ zlen a = i.
Lemma at_app {A} (l : list A) i x y : at_ l i (x ++ y) -> at_ l i x /\ at_ l (i + zlen x) y.
Proof.
  intros (a & b & -> & <-). split; [exists a, (y ++ b); now rewrite <- app_assoc|]. exists (a ++ x), b. rewrite zlen_app. now rewrite <- !app_assoc.
Qed.
Lemma at_cons {A} (l : list A) i x y : at_ l i (x :: y) -> vget l i = Ok x /\ at_ l (i + 1) y.
Proof.
  intros (a & b & -> & <-). split.
  - unfold vget, zlen. replace (_ <? 0) with false by lia. rewrite Nat2Z.id, nth_error_app2, Nat.sub_diag by lia. reflexivity.
  - exists (a ++ [x]), b. rewrite zlen_app. split; [now rewrite <- app_assoc|reflexivity].
Qed.
Lemma at_bound {A} (l : list A) i x : at_ l i x -> 0 <= i /\ i + zlen x <= zlen l.
Proof. intros (a & b & -> & <-). rewrite !zlen_app. pose proof (zlen_nonneg a). pose proof (zlen_nonneg b). lia. Qed.

Section Compile.
Context {N : Num}.
(** * The emitted code, as a function of where it goes *)
Definition code : Type := list Z * list num.
Fixpoint xcode (k : Z) (e : expr) : code :=
  match e with
  | EBin (Some v) _ _ _ _ => ([19; k], [v])
  | EBin None op l r _ =>
      match ann_of l, ann_of r with
      | Some v, _ => let c := xcode k r in (fst c ++ [op_const_left op; k + zlen (snd c)], snd c ++ [v])
      | None, Some v => let c := xcode k l in (fst c ++ [op_const_right op; k + zlen (snd c)], snd c ++ [v])
      | None, None => let c := xcode k l in let d := xcode (k + zlen (snd c)) r in (fst c ++ fst d ++ [op_bin op], snd c ++ snd d)
      end
  | EUn _ UPlus x => xcode k x
  | EUn (Some v) _ _ => ([19; k], [v])
  | EUn None op x => let c := xcode k x in (fst c ++ [op_un op], snd c)
  | ESpot _ => ([17], [])
  | EConst v => ([19; k], [v])
  | EVar _ _ i => ([18; i], [])
  | EConstVar _ _ v => ([39; k], [v])
  end.
Fixpoint ccode (k : Z) (c : cond) : code :=
  match c with
  | CCmp _ op _ e =>
      match ann_of e with
      | Some v => ([if const_test op v then 37 else 38], [])
      | None => let c := xcode k e in (fst c ++ [op_cmp op], snd c)
      end
  | CAnd _ a b => let c := ccode k a in let d := ccode (k + zlen (snd c)) b in (fst c ++ fst d ++ [29], snd c ++ snd d)
  | COr _ a b => let c := ccode k a in let d := ccode (k + zlen (snd c)) b in (fst c ++ fst d ++ [30], snd c ++ snd d)
  | CNot _ a => let c := ccode k a in (fst c ++ [35], snd c)
  | CTrue => ([37], [])
  | CFalse => ([38], [])
  end.
Fixpoint scode (i k : Z) (s : stmt) : code :=
  let fix all (i k : Z) (l : list stmt) : code :=
    match l with
    | [] => ([], [])
    | x :: r => let c := scode i k x in let d := all (i + zlen (fst c)) (k + zlen (snd c)) r in (fst c ++ fst d, snd c ++ snd d)
    end in
  match s with
  | SAssign v e => match ann_of e with
                   | Some c => ([21; k; lhs_index v], [c])
                   | None => let c := xcode k e in (fst c ++ [20; lhs_index v], snd c)
                   end
  | SPays v e => match ann_of e with
                 | Some c => ([23; k; lhs_index v], [c])
                 | None => let c := xcode k e in (fst c ++ [22; lhs_index v], snd c)
                 end
  | SIf _ _ c t None =>
      let x := ccode k c in let i1 := i + zlen (fst x) + 2 in
      let y := all i1 (k + zlen (snd x)) t in
      (fst x ++ [24; i1 + zlen (fst y)] ++ fst y, snd x ++ snd y)
  | SIf _ _ c t (Some l) =>
      let x := ccode k c in let i1 := i + zlen (fst x) + 3 in
      let y := all i1 (k + zlen (snd x)) t in
      let z := all (i1 + zlen (fst y)) (k + zlen (snd x) + zlen (snd y)) l in
      (fst x ++ [25; i1 + zlen (fst y); i1 + zlen (fst y) + zlen (fst z)] ++ fst y ++ fst z, snd x ++ snd y ++ snd z)
  | SCollect l => all i k l
  end.
Fixpoint acode (i k : Z) (l : list stmt) : code :=
  match l with
  | [] => ([], [])
  | x :: r => let c := scode i k x in let d := acode (i + zlen (fst c)) (k + zlen (snd c)) r in (fst c ++ fst d, snd c ++ snd d)
  end.

Lemma emit_at (l : list Z) (c : list num) x : emit x (l, c) = (l ++ [x], c). Proof. reflexivity. Qed.
Lemma emit_const_at (l : list Z) (c : list num) x v : emit_const x v (l, c) = (l ++ [x; zlen c], c ++ [v]). Proof. reflexivity. Qed.
Lemma comp_expr_code e : forall a c, comp_expr e (a, c) = (a ++ fst (xcode (zlen c) e), c ++ snd (xcode (zlen c) e)).
Proof.
  induction e as [an op l r x Hl Hr Hx|an op x IH|an|v|an n i|n i v] using expr_ind'; intros a c; cbn [comp_expr xcode].
  - destruct an as [v|]; [apply emit_const_at|]. destruct (ann_of l) as [v|]; [|destruct (ann_of r) as [v|]].
    + rewrite Hr, emit_const_at. cbn [fst snd]. rewrite zlen_app, <- !app_assoc. reflexivity.
    + rewrite Hl, emit_const_at. cbn [fst snd]. rewrite zlen_app, <- !app_assoc. reflexivity.
    + rewrite Hl, Hr, emit_at. cbn [fst snd]. rewrite zlen_app, <- !app_assoc. reflexivity.
  - destruct op; [destruct an; apply IH|destruct an as [v|]; [apply emit_const_at|rewrite IH, emit_at; cbn [fst snd]; now rewrite <- app_assoc]..].
  - rewrite emit_at. cbn [fst snd]. now rewrite app_nil_r.
  - apply emit_const_at.
  - rewrite !emit_at. cbn [fst snd]. rewrite app_nil_r, <- app_assoc. reflexivity.
  - apply emit_const_at.
Qed.
Lemma comp_cond_code q : forall a c, comp_cond q (a, c) = (a ++ fst (ccode (zlen c) q), c ++ snd (ccode (zlen c) q)).
Proof.
  induction q as [f op z e|f x IHa y IHb|f x IHa y IHb|f x IHa| |]; intros a c; cbn [comp_cond ccode].
  - destruct (ann_of e) as [v|].
    + rewrite emit_at. cbn [fst snd]. now rewrite app_nil_r.
    + rewrite comp_expr_code, emit_at. cbn [fst snd]. now rewrite <- app_assoc.
  - rewrite IHa, IHb, emit_at. cbn [fst snd]. rewrite zlen_app, <- !app_assoc. reflexivity.
  - rewrite IHa, IHb, emit_at. cbn [fst snd]. rewrite zlen_app, <- !app_assoc. reflexivity.
  - rewrite IHa, emit_at. cbn [fst snd]. rewrite <- !app_assoc. reflexivity.
  - rewrite emit_at. cbn [fst snd]. now rewrite app_nil_r.
  - rewrite emit_at. cbn [fst snd]. now rewrite app_nil_r.
Qed.
Lemma upd_nat_app {A} (a b : list A) x y : upd_nat (a ++ x :: b) (length a) y = a ++ y :: b.
Proof. induction a as [|z a IH]; cbn [app length upd_nat]; [reflexivity|]. now rewrite IH. Qed.
Definition compiles (st : stmt) : Prop := forall a c, comp_stmt st (a, c) = (a ++ fst (scode (zlen a) (zlen c) st), c ++ snd (scode (zlen a) (zlen c) st)).
Lemma comp_all_from l : Forall compiles l -> forall a c, comp_all l (a, c) = (a ++ fst (acode (zlen a) (zlen c) l), c ++ snd (acode (zlen a) (zlen c) l)).
Proof.
  induction 1 as [|x l Hx Hl IH]; intros a c; cbn [comp_all acode]; [cbn [fst snd]; now rewrite !app_nil_r|].
  rewrite Hx, IH. cbn [fst snd]. rewrite !zlen_app, <- !app_assoc. reflexivity.
Qed.
Lemma comp_stmt_code st : compiles st.
Proof.
  induction st as [v e|v e|f af c t Ht|f af c t l Ht Hl|l Hl] using stmt_ind'; intros a k.
  - cbn [comp_stmt scode]. destruct (ann_of e) as [x|].
    + rewrite emit_const_at, emit_at. cbn [fst snd]. now rewrite <- app_assoc.
    + rewrite comp_expr_code, !emit_at. cbn [fst snd]. now rewrite <- !app_assoc.
  - cbn [comp_stmt scode]. destruct (ann_of e) as [x|].
    + rewrite emit_const_at, emit_at. cbn [fst snd]. now rewrite <- app_assoc.
    + rewrite comp_expr_code, !emit_at. cbn [fst snd]. now rewrite <- !app_assoc.
  - change (comp_stmt (SIf f af c t None) (a, k)) with
      (let s1 := comp_cond c (a, k) in let s2 := comp_all t (emit 0 (emit 24 s1)) in
       patch (length (fst s1) + 1) (Z.of_nat (length (fst s2))) s2).
    change (scode (zlen a) (zlen k) (SIf f af c t None)) with
      (let x := ccode (zlen k) c in let i1 := zlen a + zlen (fst x) + 2 in
       let y := acode i1 (zlen k + zlen (snd x)) t in
       (fst x ++ [24; i1 + zlen (fst y)] ++ fst y, snd x ++ snd y)).
    cbv zeta. rewrite comp_cond_code. set (x := ccode (zlen k) c). rewrite !emit_at, (comp_all_from t Ht). cbn [fst snd].
    replace (zlen (((a ++ fst x) ++ [24]) ++ [0])) with (zlen a + zlen (fst x) + 2) by (rewrite !zlen_app, !zlen_cons, !zlen_nil; lia).
    rewrite (zlen_app k). set (y := acode (zlen a + zlen (fst x) + 2) (zlen k + zlen (snd x)) t).
    unfold patch. cbn [fst snd]. fold (zlen ((((a ++ fst x) ++ [24]) ++ [0]) ++ fst y)). f_equal; [|now rewrite <- app_assoc].
    replace (zlen ((((a ++ fst x) ++ [24]) ++ [0]) ++ fst y)) with (zlen a + zlen (fst x) + 2 + zlen (fst y)) by (rewrite !zlen_app, !zlen_cons, zlen_nil; lia).
    replace ((((a ++ fst x) ++ [24]) ++ [0]) ++ fst y) with (((a ++ fst x) ++ [24]) ++ 0 :: fst y) by now rewrite <- !app_assoc.
    replace (length (a ++ fst x) + 1)%nat with (length ((a ++ fst x) ++ [24])) by (rewrite (app_length (a ++ fst x)); reflexivity).
    rewrite upd_nat_app. now rewrite <- !app_assoc.
  - change (comp_stmt (SIf f af c t (Some l)) (a, k)) with
      (let s1 := comp_cond c (a, k) in let s2 := comp_all t (emit 0 (emit 0 (emit 25 s1))) in
       let s3 := comp_all l (patch (length (fst s1) + 1) (Z.of_nat (length (fst s2))) s2) in
       patch (length (fst s1) + 2) (Z.of_nat (length (fst s3))) s3).
    change (scode (zlen a) (zlen k) (SIf f af c t (Some l))) with
      (let x := ccode (zlen k) c in let i1 := zlen a + zlen (fst x) + 3 in
       let y := acode i1 (zlen k + zlen (snd x)) t in
       let z := acode (i1 + zlen (fst y)) (zlen k + zlen (snd x) + zlen (snd y)) l in
       (fst x ++ [25; i1 + zlen (fst y); i1 + zlen (fst y) + zlen (fst z)] ++ fst y ++ fst z, snd x ++ snd y ++ snd z)).
    cbv zeta. rewrite comp_cond_code. set (x := ccode (zlen k) c). rewrite !emit_at, (comp_all_from t Ht). cbn [fst snd].
    replace (zlen ((((a ++ fst x) ++ [25]) ++ [0]) ++ [0])) with (zlen a + zlen (fst x) + 3) by (rewrite !zlen_app, !zlen_cons, zlen_nil; lia).
    rewrite (zlen_app k). set (y := acode (zlen a + zlen (fst x) + 3) (zlen k + zlen (snd x)) t).
    set (P1 := patch (length (a ++ fst x) + 1) _ _).
    assert (HP1 : P1 = (((a ++ fst x) ++ [25]) ++ (zlen a + zlen (fst x) + 3 + zlen (fst y)) :: 0 :: fst y, k ++ snd x ++ snd y)).
    { unfold P1, patch. cbn [fst snd]. f_equal; [|now rewrite <- app_assoc].
      replace (((((a ++ fst x) ++ [25]) ++ [0]) ++ [0]) ++ fst y) with (((a ++ fst x) ++ [25]) ++ 0 :: 0 :: fst y) by now rewrite <- !app_assoc.
      replace (length (a ++ fst x) + 1)%nat with (length ((a ++ fst x) ++ [25])) by (rewrite (app_length (a ++ fst x)); reflexivity).
      rewrite upd_nat_app. do 2 f_equal. fold (zlen (((a ++ fst x) ++ [25]) ++ 0 :: 0 :: fst y)). rewrite !zlen_app, !zlen_cons, zlen_nil. lia. }
    rewrite HP1. clear P1 HP1. rewrite (comp_all_from l Hl). cbn [fst snd].
    replace (zlen (((a ++ fst x) ++ [25]) ++ (zlen a + zlen (fst x) + 3 + zlen (fst y)) :: 0 :: fst y)) with (zlen a + zlen (fst x) + 3 + zlen (fst y))
      by (rewrite !zlen_app, !zlen_cons, zlen_nil; lia).
    replace (zlen (k ++ snd x ++ snd y)) with (zlen k + zlen (snd x) + zlen (snd y)) by (rewrite !zlen_app; lia).
    set (z := acode (zlen a + zlen (fst x) + 3 + zlen (fst y)) (zlen k + zlen (snd x) + zlen (snd y)) l).
    unfold patch. cbn [fst snd]. f_equal; [|now rewrite <- !app_assoc].
    set (q := zlen a + zlen (fst x) + 3 + zlen (fst y)).
    replace ((((a ++ fst x) ++ [25]) ++ q :: 0 :: fst y) ++ fst z) with (((a ++ fst x) ++ [25; q]) ++ 0 :: fst y ++ fst z)
      by (rewrite <- !app_assoc; reflexivity).
    replace (length (a ++ fst x) + 2)%nat with (length ((a ++ fst x) ++ [25; q])) by (rewrite (app_length (a ++ fst x)); reflexivity).
    match goal with |- upd_nat _ _ (Z.of_nat (length ?w)) = _ =>
      replace (Z.of_nat (length w)) with (q + zlen (fst z)) by (fold (zlen w); unfold q; rewrite !zlen_app, !zlen_cons, !zlen_app, !zlen_nil; lia) end.
    rewrite upd_nat_app. rewrite <- !app_assoc. reflexivity.
  - exact (comp_all_from l Hl a k).
Qed.
Lemma comp_all_code l a c : comp_all l (a, c) = (a ++ fst (acode (zlen a) (zlen c) l), c ++ snd (acode (zlen a) (zlen c) l)).
Proof. apply comp_all_from. apply Forall_forall. intros x _. apply comp_stmt_code. Qed.
End Compile.
