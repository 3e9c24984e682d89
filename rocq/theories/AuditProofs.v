From Coq Require Import List Arith Bool Sorted Lia.
From Verif Require Import Base StringModel StringSpec StringProofs AuditModel AuditSpec.
Import ListNotations.

Definition le_key (p q : str * handle) : Prop := ci_compare (fst p) (fst q) <> Gt.
Definition ordered (m : multimap) : Prop := StronglySorted le_key m.
Lemma is_key_eqb k p : is_key k p = ci_eqb (fst p) k. Proof. unfold is_key, ci_eqb. destruct (ci_compare (fst p) k); reflexivity. Qed.
Lemma lt_le a b c : ci_compare a b = Lt -> ci_compare b c <> Gt -> ci_compare a c = Lt.
Proof.
  intros H G. destruct (ci_compare b c) eqn:E; [|eapply ci_compare_lt_trans; eassumption|contradiction].
  assert (ci_compare c b = Eq) as E' by (rewrite ci_compare_antisym, E; reflexivity).
  rewrite ci_compare_antisym, (ci_compare_eq_l c b a E'), ci_compare_antisym, H. reflexivity.
Qed.
Lemma filter_none {A} (f : A -> bool) l : Forall (fun x => f x = false) l -> filter f l = [].
Proof. induction 1; cbn; [|rewrite H]; auto. Qed.
Lemma range_insert m k v key : ordered m -> mm_range (mm_insert m k v) key = mm_range m key ++ (if ci_eqb k key then [(k, v)] else []).
Proof.
  unfold mm_range. intro H. induction H as [|[x w] r S IH F].
  - cbn. rewrite is_key_eqb. cbn. destruct (ci_eqb k key); reflexivity.
  - cbn [mm_insert]. destruct (ci_compare k x) eqn:E.
    + cbn [filter]. rewrite IH. destruct (is_key key (x, w)); reflexivity.
    + cbn [filter]. rewrite (is_key_eqb key (k, v)). cbn [fst]. destruct (ci_eqb k key) eqn:K.
      * assert (forall p, le_key (x, w) p -> is_key key p = false) as N.
        { intros p L. rewrite is_key_eqb. destruct (ci_eqb (fst p) key) eqn:P; [|reflexivity].
          pose proof (lt_le k x (fst p) E L) as Q.
          assert (ci_eqb k (fst p) = true) as Z by (apply ci_eqb_trans with key; [exact K|rewrite ci_eq_sym; exact P]).
          unfold ci_eqb in Z. rewrite Q in Z. discriminate. }
        rewrite (N (x, w)). 2: { unfold le_key. cbn. rewrite ci_compare_refl. discriminate. }
        rewrite filter_none. 2: { rewrite Forall_forall in *. intros p I. apply N, F, I. }
        reflexivity.
      * rewrite app_nil_r. reflexivity.
    + cbn [filter]. rewrite IH. destruct (is_key key (x, w)); reflexivity.
Qed.
Lemma insert_in m k v p : In p (mm_insert m k v) -> p = (k, v) \/ In p m.
Proof.
  induction m as [|[x w] r IH]; cbn; [intuition auto|]. destruct (ci_compare k x); cbn; intuition auto.
Qed.
Lemma insert_ordered m k v : ordered m -> ordered (mm_insert m k v).
Proof.
  intro H. induction H as [|[x w] r S IH F]; cbn [mm_insert]; [repeat constructor|]. destruct (ci_compare k x) eqn:E.
  1, 3: constructor; [exact IH|]; apply Forall_forall; intros p I; apply insert_in in I; destruct I as [->|I];
    [unfold le_key; cbn; rewrite ci_compare_antisym, E; discriminate|rewrite Forall_forall in F; apply F, I].
  constructor; [constructor; assumption|]. constructor; [unfold le_key; cbn; rewrite E; discriminate|].
  rewrite Forall_forall in *. intros p I. pose proof (lt_le k x (fst p) E (F p I)) as Q. unfold le_key. cbn. rewrite Q. discriminate.
Qed.
Lemma filter_ordered f m : ordered m -> ordered (filter f m).
Proof.
  intro H. induction H as [|p r S IH F]; cbn; [constructor|]. destruct (f p); [|exact IH]. constructor; [exact IH|].
  rewrite Forall_forall in *. intros q I. apply F. apply filter_In in I. tauto.
Qed.
Lemma range_erase m k key : mm_range (mm_erase m k) key = if ci_eqb k key then [] else mm_range m key.
Proof.
  unfold mm_range, mm_erase. induction m as [|p r IH]; cbn; [destruct (ci_eqb k key); reflexivity|].
  rewrite (is_key_eqb k p), (is_key_eqb key p). destruct (ci_eqb (fst p) k) eqn:E; cbn.
  - rewrite IH. destruct (ci_eqb k key) eqn:K; [reflexivity|]. destruct (ci_eqb (fst p) key) eqn:P; [|reflexivity].
    rewrite ci_eq_sym in E. rewrite (ci_eqb_trans _ _ _ E P) in K. discriminate.
  - rewrite is_key_eqb, IH. destruct (ci_eqb k key) eqn:K; destruct (ci_eqb (fst p) key) eqn:P; try reflexivity.
    rewrite ci_eq_sym in K. rewrite (ci_eqb_trans _ _ _ P K) in E. discriminate.
Qed.

(** a bag holds what is written on the page *)
Definition holds (a : auditor) (p : page) : Prop :=
  a_mode a = p_mode p /\ ordered (a_bag a) /\ forall key, map snd (mm_range (a_bag a) key) = told key (p_log p).
Lemma told_app key l l' : told key (l ++ l') = told key l ++ told key l'.
Proof. unfold told. rewrite filter_app, map_app. reflexivity. Qed.
Lemma told_one key k v : told key [(k, v)] = if ci_eqb k key then [v] else [].
Proof. unfold told. cbn. destruct (ci_eqb k key); reflexivity. Qed.
Lemma told_others key k l : told key (others k l) = if ci_eqb k key then [] else told key l.
Proof.
  pose proof (range_erase l k key) as H. unfold told, others. unfold mm_range, mm_erase in H.
  assert (forall z (q : list (str * handle)), filter (is_key z) q = filter (fun p => ci_eqb (fst p) z) q) as E
    by (intros; apply filter_ext; intro; apply is_key_eqb).
  assert (filter (fun p => negb (is_key k p)) l = filter (fun p => negb (ci_eqb (fst p) k)) l) as E'
    by (apply filter_ext; intro; rewrite is_key_eqb; reflexivity).
  rewrite !E, E' in H. rewrite H. destruct (ci_eqb k key); reflexivity.
Qed.
Lemma holds_nil a p : holds a p -> (a_bag a = [] <-> p_log p = []).
Proof.
  intros (_ & _ & H). split; intro E.
  - destruct (p_log p) as [|[k v] l]; [reflexivity|]. specialize (H k). rewrite E in H. unfold told in H. cbn in H.
    rewrite ci_eqb_refl in H. discriminate.
  - destruct (a_bag a) as [|[k v] l]; [reflexivity|]. specialize (H k). rewrite E in H. unfold mm_range in H. cbn in H.
    rewrite is_key_eqb in H. cbn in H. rewrite ci_eqb_refl in H. discriminate.
Qed.
Lemma notice_holds a p key v : holds a p ->
  match p_mode p with
  | None => notice a key v = UB
  | Some PASSIVE | Some SHOWING => notice a key v = Throw
  | Some _ => exists b, notice a key v = Ok b /\ holds b (jot p key v)
  end.
Proof.
  intros (M & O & H). unfold notice, jot. destruct (p_mode p) as [[]|] eqn:E; rewrite M; try reflexivity.
  - eexists. split; [reflexivity|]. split; [symmetry; reflexivity|]. split; [apply insert_ordered, O|].
    intro k. cbn [a_bag p_log]. rewrite range_insert, map_app, H, told_app, told_one by exact O. destruct (ci_eqb key k); reflexivity.
  - eexists. split; [reflexivity|]. split; [symmetry; reflexivity|]. split; [apply insert_ordered, filter_ordered, O|].
    intro k. cbn [a_bag p_log]. rewrite range_insert, map_app, range_erase, told_app, told_one, told_others by apply filter_ordered, O.
    destruct (ci_eqb key k); [reflexivity|]. rewrite H. reflexivity.
Qed.

Definition all_hold (w : world) (ps : list page) : Prop := Forall2 holds (w_auditors w) ps.
Lemma hold_nth l ps i : Forall2 holds l ps ->
  match nth_error ps i with Some p => exists a, nth_error l i = Some a /\ holds a p | None => nth_error l i = None end.
Proof. intro H. revert i. induction H; intros [|i]; cbn; eauto. apply IHForall2. Qed.
Lemma replace_hold l ps i b p f : Forall2 holds l ps -> nth_error ps i = Some p -> holds b (f p) -> Forall2 holds (replace l i b) (at_page ps i f).
Proof.
  intro H. revert i. induction H; intros [|i] E B; cbn in *; try discriminate.
  - injection E as ->. constructor; assumption.
  - constructor; auto.
Qed.
Lemma at_mode ps i f j : (forall p, p_mode (f p) = p_mode p) -> mode_of (at_page ps i f) j = mode_of ps j.
Proof.
  intro F. unfold mode_of. revert i j. induction ps as [|p r IH]; intros [|i] [|j]; cbn; try reflexivity; [rewrite F; reflexivity|apply IH].
Qed.
Lemma jot_mode p key v : p_mode (jot p key v) = p_mode p.
Proof. unfold jot. destruct (p_mode p) as [[]|] eqn:E; cbn; congruence. Qed.
Lemma reached_mode ps qs e : (forall j, mode_of qs j = mode_of ps j) -> reached qs e = reached ps e.
Proof. intro H. induction e as [|[i|] r IH]; cbn; [reflexivity| |exact IH]. rewrite H, IH. reflexivity. Qed.

(** how showing an object ends: the first auditor that is not reading decides *)
Fixpoint ending (ps : list page) (e : env) : outcome unit :=
  match e with
  | [] => Ok tt
  | EOther :: r => ending ps r
  | EAuditor i :: r => match mode_of ps i with
                       | None => UB
                       | Some PASSIVE | Some SHOWING => Throw
                       | Some _ => ending ps r
                       end
  end.
Lemma ending_mode ps qs e : (forall j, mode_of qs j = mode_of ps j) -> ending qs e = ending ps e.
Proof. intro H. induction e as [|[i|] r IH]; cbn; [reflexivity| |exact IH]. rewrite H, IH. reflexivity. Qed.
Lemma audit_holds e key v : forall w ps, all_hold w ps ->
  all_hold (fst (audit e key v w)) (after1 ps (Show e key v)) /\ snd (audit e key v w) = ending ps e /\ w_second (fst (audit e key v w)) = w_second w.
Proof.
  induction e as [|[i|] r IH]; intros w ps H; cbn [audit ending]; [repeat split; exact H| |apply (IH w ps H)].
  pose proof (hold_nth _ _ i H) as N. cbn [after1 reached]. unfold mode_of. destruct (nth_error ps i) as [p|] eqn:E.
  - destruct N as (a & -> & A). pose proof (notice_holds a p key v A) as Z.
    assert (forall b, reading (p_mode p) -> notice a key v = Ok b -> holds b (jot p key v) ->
      all_hold (fst (audit r key v (World (replace (w_auditors w) i b) (w_second w))))
        (fold_left (fun q j => at_page q j (fun p0 => jot p0 key v)) (i :: reached ps r) ps) /\
      snd (audit r key v (World (replace (w_auditors w) i b) (w_second w))) = ending ps r /\
      w_second (fst (audit r key v (World (replace (w_auditors w) i b) (w_second w)))) = w_second w) as step.
    { intros b Rd B Hb. cbn [fold_left].
      assert (forall j, mode_of (at_page ps i (fun p0 => jot p0 key v)) j = mode_of ps j) as M by (intro; apply at_mode; intro; apply jot_mode).
      specialize (IH (World (replace (w_auditors w) i b) (w_second w)) (at_page ps i (fun p0 => jot p0 key v))
        (replace_hold _ _ i b p (fun p0 => jot p0 key v) H E Hb)).
      cbn [after1] in IH. rewrite (reached_mode ps _ r M), (ending_mode ps _ r M) in IH. exact IH. }
    destruct (p_mode p) as [[]|] eqn:Q.
    + rewrite Z. cbn. repeat split; exact H.
    + destruct Z as (b & B & Hb). rewrite B. cbn [readingb]. apply step; [left; reflexivity|exact B|exact Hb].
    + destruct Z as (b & B & Hb). rewrite B. cbn [readingb]. apply step; [right; reflexivity|exact B|exact Hb].
    + rewrite Z. cbn. repeat split; exact H.
    + rewrite Z. cbn. repeat split; exact H.
  - rewrite N. cbn. repeat split; exact H.
Qed.
Lemma find_auditors w i key w' l : find w i key = Ok (w', l) -> w_auditors w' = w_auditors w /\ w_second w' = true.
Proof.
  unfold find. destruct (nth_error (w_auditors w) i); [|discriminate]. destruct (negb (w_second w) && _); [discriminate|].
  destruct (a_mode a) as [[]|]; try discriminate; intro E; injection E as <- _; split; reflexivity.
Qed.
Lemma recall_auditors is_T e key : forall w v, w_auditors (fst (fst (recall_loop is_T e key w v))) = w_auditors w.
Proof.
  induction e as [|[i|] r IH]; intros w v; cbn [recall_loop]; [reflexivity| |apply IH].
  destruct (find w i key) as [[w' l]| | |] eqn:E; try reflexivity. apply find_auditors in E. destruct E as [E _].
  destruct (collect is_T l v) as [v' [[]| | |]]; cbn; try exact E. rewrite IH. exact E.
Qed.
Lemma step_holds w ps x : all_hold w ps -> all_hold (fst (step w x)) (after1 ps x).
Proof.
  intro H. destruct x as [|i m|e key v|is_T e key dst]; cbn [step].
  - apply Forall2_app; [exact H|]. constructor; [|constructor]. repeat split; constructor.
  - cbn [after1 fst]. pose proof (hold_nth _ _ i H) as N. unfold all_hold. destruct (nth_error ps i) as [p|] eqn:E.
    + destruct N as (a & -> & A). destruct A as (A1 & A2 & A3). apply (replace_hold _ _ i _ p); [exact H|exact E|].
      split; [reflexivity|]. split; [exact A2|]. exact A3.
    + rewrite N. cbn. assert (at_page ps i (fun p => Page (Some m) (p_log p)) = ps) as ->; [|exact H].
      clear - E. revert i E. induction ps as [|p r IH]; intros [|i] E; cbn in *; try reflexivity; try discriminate. rewrite IH; auto.
  - pose proof (audit_holds e key v w ps H) as A. destruct (audit e key v w) as [w' o]. cbn in *. apply A.
  - unfold recall. destruct dst as [[x|]|]; cbn; try exact H.
    pose proof (recall_auditors is_T e key w None) as A. destruct (recall_loop is_T e key w None) as [[w' v'] o]. cbn in *.
    unfold all_hold. rewrite A. exact H.
Qed.
Lemma run_holds xs : forall w ps, all_hold w ps -> all_hold (fst (run w xs)) (fold_left after1 xs ps).
Proof.
  induction xs as [|x r IH]; intros w ps H; cbn [run fold_left]; [exact H|].
  pose proof (step_holds w ps x H) as S. destruct (step w x) as [w' s]. cbn in S. specialize (IH w' _ S).
  destruct (run w' r) as [w'' l]. exact IH.
Qed.
Lemma start_holds xs : all_hold (fst (run start xs)) (after xs). Proof. apply run_holds. constructor. Qed.

(** what a loop over found handles gives *)
Definition of_type (is_T : nat -> bool) (l : list handle) : list nat :=
  flat_map (fun h => match h with Some x => if is_T x then [x] else [] | None => [] end) l.
(** the result of a sequence of objects of the type, starting from a value *)
Fixpoint settle (l : list nat) (v : handle) : handle * outcome unit :=
  match l with
  | [] => (v, Ok tt)
  | x :: r => match v with
              | None => settle r (Some x)
              | Some y => if Nat.eqb x y then settle r v else (v, Throw)
              end
  end.
Lemma collect_settle is_T l : forall v, collect is_T l v = settle (of_type is_T l) v.
Proof.
  induction l as [|h r IH]; intro v; [reflexivity|]. cbn [collect of_type flat_map]. unfold handle_cast.
  destruct h as [x|]; [|apply IH]. destruct (is_T x); [|apply IH]. cbn. destruct v as [y|]; cbn; [|apply IH].
  destruct (Nat.eqb x y); cbn; [apply IH|reflexivity].
Qed.
Lemma settle_app l l' : forall v, settle (l ++ l') v = match settle l v with (v', Ok tt) => settle l' v' | z => z end.
Proof.
  induction l as [|x r IH]; intro v; cbn; [reflexivity|]. destruct v as [y|]; [|apply IH].
  destruct (Nat.eqb x y); [apply IH|reflexivity].
Qed.
Lemma recall_settle is_T e key : forall w ps v, all_hold w ps -> set_up ps e -> warm w ps e ->
  let '(_, v', o) := recall_loop is_T e key w v in (v', o) = settle (shown is_T ps e key) v.
Proof.
  induction e as [|[i|] r IH]; intros w ps v H S W; cbn [recall_loop]; [reflexivity| |apply (IH w ps v H S W)].
  pose proof (hold_nth _ _ i H) as N. destruct (S i) as [m M]; [left; reflexivity|]. unfold mode_of in M.
  unfold shown. cbn [auditors_of flat_map]. fold (shown is_T ps r key).
  destruct (nth_error ps i) as [p|] eqn:E; [|discriminate]. destruct N as (a & A & Ha).
  assert (exists w', find w i key = Ok (w', shows key p) /\ w_auditors w' = w_auditors w /\ w_second w' = true) as (w' & F & F1 & F2).
  { unfold find. rewrite A. destruct (negb (w_second w) && _) eqn:B.
    - exfalso. apply andb_prop in B. destruct B as [B1 B2]. destruct W as [W|W]; [rewrite W in B1; discriminate|].
      cbn in W. destruct W as (q & Q & L). rewrite E in Q. injection Q as <-. apply L. apply (proj1 (holds_nil a p Ha)).
      destruct (a_bag a); [reflexivity|discriminate].
    - destruct Ha as (Hm & _ & Hr). unfold shows. rewrite Hm, M. destruct m; eexists; (split; [try rewrite Hr; reflexivity|split; reflexivity]). }
  rewrite F, collect_settle, settle_app. fold (of_type is_T (shows key p)).
  destruct (settle (of_type is_T (shows key p)) v) as [v' [[]| | |]]; try reflexivity.
  assert (all_hold w' ps) as H' by (unfold all_hold; rewrite F1; exact H).
  specialize (IH w' ps v' H' (fun j J => S j (or_intror J)) (or_introl F2)).
  destruct (recall_loop is_T r key w' v') as [[w2 v2] o2]. exact IH.
Qed.
Lemma settle_same x l : Forall (eq x) l -> settle l (Some x) = (Some x, Ok tt).
Proof. induction 1; cbn; [reflexivity|]. subst. rewrite Nat.eqb_refl. exact IHForall. Qed.
Lemma settle_differ x l : ~ Forall (eq x) l -> settle l (Some x) = (Some x, Throw).
Proof.
  induction l as [|y r IH]; intro H; [contradiction H; constructor|]. cbn. destruct (Nat.eqb y x) eqn:E; [|reflexivity].
  apply Nat.eqb_eq in E. subst. apply IH. intro F. apply H. constructor; [reflexivity|exact F].
Qed.

(** the bag *)
Lemma zip_all : forall ks vs m, length ks = length vs -> zip_loop ks vs m = fold_left (fun q p => mm_insert q (fst p) (snd p)) (combine ks vs) m.
Proof. induction ks as [|k ks IH]; intros [|v vs] m L; try discriminate; [reflexivity|]. cbn. apply IH. cbn in L. lia. Qed.
Lemma insert_last m k v : Forall (fun p => ci_compare (fst p) k <> Gt) m -> mm_insert m k v = m ++ [(k, v)].
Proof.
  induction m as [|[x w] r IH]; intro H; [reflexivity|]. inversion H as [|? ? G F]; subst. cbn in *.
  rewrite ci_compare_antisym. destruct (ci_compare x k) eqn:E; cbn; try contradiction; rewrite IH; auto.
Qed.
Lemma fold_ordered l : forall m, ordered (m ++ l) -> fold_left (fun q p => mm_insert q (fst p) (snd p)) l m = m ++ l.
Proof.
  induction l as [|[k v] r IH]; intros m H; cbn; [rewrite app_nil_r; reflexivity|].
  assert (m ++ (k, v) :: r = (m ++ [(k, v)]) ++ r) as E by (rewrite <- app_assoc; reflexivity).
  rewrite insert_last.
  - rewrite E in H |- *. apply IH, H.
  - clear - H. induction m as [|p q IH]; [constructor|]. inversion H as [|? ? S F]; subst. constructor; [|apply IH, S].
    rewrite Forall_forall in F. apply (F (k, v)). apply in_or_app. right. left. reflexivity.
Qed.
Lemma fold_insert_ordered l : forall m, ordered m -> ordered (fold_left (fun q p => mm_insert q (fst p) (snd p)) l m).
Proof. induction l as [|p r IH]; intros m H; cbn; [exact H|]. apply IH, insert_ordered, H. Qed.
Lemma rebuild m : ordered m -> zip_to_multimap (keys m) (map_values m) = Ok m.
Proof.
  intro H. unfold zip_to_multimap, keys, map_values. rewrite !map_length, Nat.eqb_refl, zip_all by (rewrite !map_length; reflexivity).
  assert (forall l : multimap, combine (map fst l) (map snd l) = l) as -> by (induction l as [|[? ?] r IH]; cbn; [|rewrite IH]; reflexivity).
  rewrite fold_ordered; [reflexivity|exact H].
Qed.
Lemma fold_range l key : forall m, ordered m -> mm_range (fold_left (fun q p => mm_insert q (fst p) (snd p)) l m) key = mm_range m key ++ filter (fun p => ci_eqb (fst p) key) l.
Proof.
  induction l as [|[k v] r IH]; intros m H; cbn [fold_left filter fst snd]; [rewrite app_nil_r; reflexivity|].
  rewrite IH, range_insert by (try apply insert_ordered; exact H). rewrite <- app_assoc. destruct (ci_eqb k key); reflexivity.
Qed.
