(** The shipped calendars, computed once. *)
From Coq Require Import ZArith List Bool Lia Sorted.
From Verif Require Import Base StringModel StringSpec DateModel HolidayModel HolidaySpec HolidayProofs HolidayRegistry IndexModel SetupModel SetupSpec.
Import ListNotations.
Local Open Scope Z_scope.
Definition sse_list : list Z := Eval vm_compute in sse_holidays.
Definition ib_list : list Z := Eval vm_compute in ib_holidays.
Definition ww_list : list Z := Eval vm_compute in ib_weekends.
Lemma sse_eq : sse_holidays = sse_list. Proof. vm_compute. reflexivity. Qed.
Lemma ww_eq : ib_weekends = ww_list. Proof. vm_compute. reflexivity. Qed.
Lemma ib_eq : ib_holidays = ib_list.
Proof. unfold ib_holidays. rewrite sse_eq. vm_compute. reflexivity. Qed.

(** * They are well formed *)
Lemma sse_good : good_center sse_center.
Proof.
  unfold good_center, sse_center; cbn [c_hols c_wws]. rewrite sse_eq. split; [|split; [constructor|split; [|constructor]]].
  - apply monotonic_iff. vm_compute. reflexivity.
  - assert (H : forallb (fun d => (0 <=? d) && (d <? 65536) && negb ((d + 3) mod 7 =? 0) && negb ((d + 3) mod 7 =? 6)) sse_list = true) by (vm_compute; reflexivity).
    rewrite forallb_forall in H. apply Forall_forall. intros d Hd. specialize (H d Hd). rewrite !andb_true_iff, !negb_true_iff in H. unfold weekend, weekday. lia.
Qed.
Lemma ib_good : good_center ib_center.
Proof.
  unfold good_center, ib_center; cbn [c_hols c_wws]. rewrite ib_eq, ww_eq. split; [|split; [|split]].
  - apply monotonic_iff. vm_compute. reflexivity.
  - apply monotonic_iff. vm_compute. reflexivity.
  - assert (H : forallb (fun d => (0 <=? d) && (d <? 65536) && negb ((d + 3) mod 7 =? 0) && negb ((d + 3) mod 7 =? 6)) ib_list = true) by (vm_compute; reflexivity).
    rewrite forallb_forall in H. apply Forall_forall. intros d Hd. specialize (H d Hd). rewrite !andb_true_iff, !negb_true_iff in H. unfold weekend, weekday. lia.
  - assert (H : forallb (fun d => (0 <=? d) && (d <? 65536) && (((d + 3) mod 7 =? 0) || ((d + 3) mod 7 =? 6))) ww_list = true) by (vm_compute; reflexivity).
    rewrite forallb_forall in H. apply Forall_forall. intros d Hd. specialize (H d Hd). rewrite !andb_true_iff, orb_true_iff in H. unfold weekend, weekday. lia.
Qed.

(** * The holidays of the two markets *)
Lemma ib_in d : In d ib_holidays <-> In d sse_holidays /\ d <> mk_date 2024 2 9.
Proof.
  unfold ib_holidays. rewrite filter_In, uniqueZ_In, negb_true_iff, Z.eqb_neq. reflexivity.
Qed.
Lemma special_day : mk_date 2024 2 9 = 19763. Proof. vm_compute. reflexivity. Qed.

(** * No long closure *)
(** In the suffix of the list that starts at a holiday: whether one of the next weekdays is not there. *)
Fixpoint run_stops (n : nat) (d : Z) (l : list Z) : bool :=
  match n with
  | O => false
  | S k => if ((d + 3) mod 7 =? 0) || ((d + 3) mod 7 =? 6) then run_stops k (d + 1) l
           else match l with [] => true | x :: r => if x =? d then run_stops k (d + 1) r else (d <? x) end
  end.
Definition span (d : Z) : nat := if (d + 3) mod 7 =? 1 then 10 else 12.
Fixpoint runs_stop (l : list Z) : bool :=
  match l with [] => true | x :: r => run_stops (span x) x l && runs_stop r end.
Lemma run_stops_sound : forall n d l, StronglySorted Z.lt l -> Forall (fun x => d <= x) l -> run_stops n d l = true ->
  exists e, d <= e < d + Z.of_nat n /\ ~ weekend e /\ ~ In e l.
Proof.
  induction n as [|k IH]; intros d l Hs Hl H; [discriminate|]. cbn [run_stops] in H.
  destruct (((d + 3) mod 7 =? 0) || ((d + 3) mod 7 =? 6)) eqn:Ew.
  - destruct l as [|x r].
    + destruct (IH (d + 1) [] Hs (Forall_nil _) H) as (e & He & A & B). exists e. split; [lia|]. now split.
    + apply orb_true_iff in Ew. destruct (Z.eq_dec x d) as [->|N].
      * (* a holiday on a weekend: skip one day, the head stays behind *)
        destruct (run_stops k (d + 1) (d :: r)) eqn:E; [|discriminate].
        assert (F : exists e, d + 1 <= e < d + 1 + Z.of_nat k /\ ~ weekend e /\ ~ In e r).
        { inversion Hs as [|? ? Hs' Hx]; subst.
          assert (G : forall n d0, d < d0 -> run_stops n d0 (d :: r) = true -> exists e, d0 <= e < d0 + Z.of_nat n /\ ~ weekend e /\ ~ In e r).
          { intros n. induction n as [|m IHm]; intros d0 Hd Es; [discriminate|]. cbn [run_stops] in Es.
            destruct (((d0 + 3) mod 7 =? 0) || ((d0 + 3) mod 7 =? 6)) eqn:E0.
            - destruct (IHm (d0 + 1) ltac:(lia) Es) as (e & He & A & B). exists e. split; [lia|]. now split.
            - destruct (d =? d0) eqn:E1; [lia|]. lia. }
          exact (G k (d + 1) ltac:(lia) E). }
        destruct F as (e & He & A & B). exists e. split; [lia|]. split; [exact A|]. intros [->|I]; [lia|now apply B].
      * assert (Hl' : Forall (fun y => d + 1 <= y) (x :: r)).
        { inversion Hs as [|? ? Hs' Hx]; subst. inversion Hl as [|? ? Hx0 Hr]; subst. constructor; [lia|].
          rewrite Forall_forall in Hx |- *. intros y Hy. specialize (Hx y Hy). lia. }
        destruct (IH (d + 1) (x :: r) Hs Hl' H) as (e & He & A & B). exists e. split; [lia|]. now split.
  - apply orb_false_iff in Ew. assert (W : ~ weekend d) by (unfold weekend, weekday; lia).
    destruct l as [|x r]; [exists d; split; [lia|]; split; [exact W|now intros []]|].
    destruct (x =? d) eqn:E.
    + apply Z.eqb_eq in E. subst x. inversion Hs as [|? ? Hs' Hx]; subst.
      assert (Hl' : Forall (fun y => d + 1 <= y) r).
      { rewrite Forall_forall in Hx |- *. intros y Hy. specialize (Hx y Hy). lia. }
      destruct (IH (d + 1) r Hs' Hl' H) as (e & He & A & B). exists e. split; [lia|]. split; [exact A|].
      intros [->|I]; [lia|now apply B].
    + exists d. split; [lia|]. split; [exact W|]. inversion Hs as [|? ? Hs' Hx]; subst. intros [->|I]; [lia|].
      rewrite Forall_forall in Hx. specialize (Hx d I). lia.
Qed.
Lemma runs_stop_sound l0 : forall l pre, l0 = pre ++ l -> StronglySorted Z.lt l0 -> runs_stop l = true -> forall d, In d l ->
  exists e, d <= e < d + Z.of_nat (span d) /\ ~ weekend e /\ ~ In e l0.
Proof.
  induction l as [|x r IH]; intros pre E Hs H d Hd; [destruct Hd|]. cbn [runs_stop] in H. apply andb_true_iff in H as [H1 H2].
  destruct Hd as [->|Hd].
  - assert (Hs2 : StronglySorted Z.lt (d :: r) /\ Forall (fun y => y < d) pre).
    { rewrite E in Hs. clear - Hs. induction pre as [|y p IHp]; [now split|]. cbn in Hs. inversion Hs as [|? ? Hs' Hy]; subst.
      destruct (IHp Hs') as [A B]. split; [exact A|]. constructor; [|exact B]. rewrite Forall_app in Hy. destruct Hy as [_ Hy]. now inversion Hy. }
    destruct Hs2 as [Hs2 Hpre].
    assert (Hl : Forall (fun y => d <= y) (d :: r)).
    { inversion Hs2 as [|? ? _ Hx]; subst. constructor; [lia|]. rewrite Forall_forall in Hx |- *. intros y Hy. specialize (Hx y Hy). lia. }
    destruct (run_stops_sound (span d) d (d :: r) Hs2 Hl H1) as (e & He & A & B). exists e. split; [exact He|]. split; [exact A|].
    rewrite E. intros I. apply in_app_iff in I as [I|I]; [|now apply B]. rewrite Forall_forall in Hpre. specialize (Hpre e I). lia.
  - apply (IH (pre ++ [x])); [now rewrite E, <- app_assoc|exact Hs|exact H2|exact Hd].
Qed.
Lemma closure_bound (l : list Z) : StronglySorted Z.lt l -> runs_stop l = true -> forall d,
  exists e, d <= e < d + 12 /\ ~ weekend e /\ ~ In e l.
Proof.
  intros Hs H d.
  assert (W : exists w, d <= w <= d + 2 /\ (w <> d -> (w + 3) mod 7 = 1) /\ ~ weekend w).
  { pose proof (Z.div_mod (d + 3) 7 ltac:(lia)) as D. unfold weekend, weekday.
    destruct (Z.eq_dec ((d + 3) mod 7) 0) as [E|N]; [|destruct (Z.eq_dec ((d + 3) mod 7) 6) as [E|N']].
    - assert (E1 : (d + 1 + 3) mod 7 = 1) by (symmetry; apply Z.mod_unique with (q := (d + 3) / 7); lia).
      exists (d + 1). split; [lia|]. split; [intros _; exact E1|]. rewrite E1. lia.
    - assert (E1 : (d + 2 + 3) mod 7 = 1) by (symmetry; apply Z.mod_unique with (q := (d + 3) / 7 + 1); lia).
      exists (d + 2). split; [lia|]. split; [intros _; exact E1|]. rewrite E1. lia.
    - exists d. split; [lia|]. split; [intros F; now contradiction F|lia]. }
  destruct W as (w & Hw & M & W). destruct (in_dec Z.eq_dec w l) as [I|I].
  - destruct (runs_stop_sound l l [] eq_refl Hs H w I) as (e & He & A & B).
    exists e. split; [|now split]. unfold span in He. destruct ((w + 3) mod 7 =? 1) eqn:E; [lia|]. assert (w = d) by lia. lia.
  - exists w. split; [lia|]. now split.
Qed.
Lemma business_alone c d : business [c] d <-> ~ In d (c_hols c) /\ (~ weekend d \/ In d (c_wws c)).
Proof.
  unfold business, closed, opened. split; intros [A B]; (split; [intros H; apply A|destruct B as [B|B]; [now left|right]]).
  - exists c. split; [now left|exact H].
  - destruct B as (x & [<-|[]] & I). exact I.
  - destruct H as (x & [<-|[]] & I). exact I.
  - exists c. split; [now left|exact B].
Qed.
Lemma open_within c d : c = sse_center \/ c = ib_center -> exists e, d <= e <= d + 11 /\ business [c] e.
Proof.
  intros H.
  assert (G : exists e, d <= e < d + 12 /\ ~ weekend e /\ ~ In e (c_hols c)).
  { apply closure_bound; [|destruct H as [-> | ->]; cbn [c_hols sse_center ib_center]; [rewrite sse_eq|rewrite ib_eq]; vm_compute; reflexivity].
    destruct H as [-> | ->]; [apply sse_good|apply ib_good]. }
  destruct G as (e & He & A & B). exists e. split; [lia|]. apply business_alone. split; [exact B|now left].
Qed.
Lemma exchange_open d : business [sse_center] d -> business [ib_center] d.
Proof.
  rewrite !business_alone. cbn [c_hols c_wws sse_center ib_center]. intros [A [B|B]]; [|destruct B]. split; [|now left].
  intros H. exact (A (proj1 (proj1 (ib_in d) H))).
Qed.
Lemma bank_open d : business [ib_center] d -> business [sse_center] d \/ d = mk_date 2024 2 9 \/ In d ib_weekends.
Proof.
  rewrite !business_alone. cbn [c_hols c_wws sse_center ib_center]. intros [A [B|B]]; [|now right; right].
  destruct (Z.eq_dec d (mk_date 2024 2 9)) as [E|E]; [now right; left|]. left. split; [|now left].
  intros H. exact (A (proj2 (ib_in d) (conj H E))).
Qed.
