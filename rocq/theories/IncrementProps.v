(** C06, C09: increments written as text, and compound increments. *)
From Coq Require Import String Ascii ZArith List Bool Lia.
From Verif Require Import Base DateModel StringModel StringSpec StringProofs HolidayModel HolidayRegistry ScheduleModel ScheduleSpec ScheduleProofs.
Import ListNotations.
Open Scope Z_scope.

(** "<number><unit>;<calendars>" counts in the calendars named after the semicolon *)
Theorem C06_increment_calendar reg combos num n unit t name sz cal h : decimal num n -> num <> [] -> n <= 2147483647 ->
  ascii_only unit -> strip unit t -> In (name, sz) step_size_names -> same_up_to_case t (lit name) ->
  ~ In "&"%char cal -> mk_holidays reg combos cal = Ok h ->
  parse_increment reg combos (num ++ unit ++ ";"%char :: cal) = Ok (Multi n sz h).
Proof.
  intros Hd Hne Hn Ha Hs Hin Hsame Hcal Hh. destruct (decimal_val _ _ Hd) as [Hv Hdig]. destruct (names_letters _ _ Hin) as [Hlet Hnn].
  pose proof (unit_chars _ _ _ Hs Hsame Hlet Ha) as Hu.
  assert (Hune : unit <> []) by (intros ->; inversion Hs; subst; inversion Hsame; congruence).
  unfold parse_increment. rewrite existsb_none.
  2:{ repeat (apply Forall_app; split).
      - eapply Forall_impl; [|exact Hdig]; intros c Hc; apply (dig_plain c Hc).
      - eapply Forall_impl; [|exact Hu]; cbn beta; tauto.
      - constructor; [discriminate|]. apply Forall_forall. intros c Hc ->. contradiction. }
  unfold parse_single. rewrite span_dig_app; [|assumption|destruct unit; [congruence|]; inversion Hu; tauto].
  destruct num as [|c0 num]; [congruence|]. cbn [app].
  rewrite cut_app. 2:{ rewrite Forall_forall in Hu. intros H. destruct (Hu _ H) as (_ & H' & _). congruence. }
  rewrite Hh. cbn [obind]. unfold to_int. rewrite Hv. replace (n <=? 2147483647) with true by lia. cbn [obind].
  destruct unit as [|u unit]; [congruence|]. unfold read_step_size. cbn [app].
  rewrite (read_enum_hit step_size_names (u :: unit) t name sz Ha Hs Hin Hsame); [reflexivity|].
  intros n' v' H1 H2. exact (names_unique _ _ _ _ Hin H1 H2).
Qed.
Print Assumptions C06_increment_calendar.
Example C06_increment_calendar_example : forall c,
  let reg := HData [c] [(lit "TGT", 0)] in exists h, mk_holidays reg [] (lit "TGT") = Ok h /\ h <> hols_none /\
  parse_increment reg [] (lit "5BD;TGT") = Ok (Multi 5 SBD h).
Proof. intros c reg. eexists. split; [vm_compute; reflexivity|]. split; [discriminate|vm_compute; reflexivity]. Qed.

(** What an increment stands for: a number of steps of a size; the next special day; several increments one after the other, in
    the order written, all in the same direction. *)
Inductive moves (forward : bool) : increment -> Z -> outcome Z -> Prop :=
| mv_steps n sz h d : moves forward (Multi n sz h) d (step sz d forward n h)
| mv_imm d : moves forward (Special IMM) d (to_imm d forward 3)
| mv_imm1 d : moves forward (Special IMM1) d (to_imm d forward 1)
| mv_cds d : moves forward (Special CDS) d (to_cds d forward)
| mv_eom d : moves forward (Special EOM) d (Ok (to_eom d forward))
| mv_none d : moves forward (Compound []) d (Ok d)
| mv_then i l d d1 r : moves forward i d (Ok d1) -> moves forward (Compound l) d1 r -> moves forward (Compound (i :: l)) d r
| mv_fails i l d r : moves forward i d r -> (forall d1, r <> Ok d1) -> moves forward (Compound (i :: l)) d r.
Lemma increment_ind' (P : increment -> Prop) : (forall n sz h, P (Multi n sz h)) -> (forall s, P (Special s)) ->
  (forall l, Forall P l -> P (Compound l)) -> forall i, P i.
Proof.
  intros H1 H2 H3. fix IH 1. intros [n sz h|s|l]; [apply H1|apply H2|]. apply H3.
  induction l as [|x l IHl]; constructor; auto.
Qed.
Theorem C06_compound : forall i forward d, moves forward i d (apply_inc i forward d).
Proof.
  intros i. induction i as [n sz h|s|l H] using increment_ind'; intros forward d.
  - constructor.
  - destruct s; cbn [apply_inc special_step]; [apply mv_imm|apply mv_imm1|apply mv_cds|apply mv_eom].
  - revert d. induction H as [|x l Hx Hl IH]; intros d; [constructor|].
    change (apply_inc (Compound (x :: l)) forward d) with (do d' <- apply_inc x forward d; apply_inc (Compound l) forward d').
    pose proof (Hx forward d) as M. destruct (apply_inc x forward d) as [d1| | |] eqn:E; cbn [obind].
    + eapply mv_then; [exact M|apply IH].
    + eapply mv_fails; [exact M|discriminate].
    + eapply mv_fails; [exact M|discriminate].
    + eapply mv_fails; [exact M|discriminate].
Qed.
Print Assumptions C06_compound.
Example C06_compound_example : apply_inc (Compound [Multi 1 SM hols_none; Special EOM]) true 19003 = Ok 19052 /\ ymd 19003 = (2022, 1, 10) /\ ymd 19052 = (2022, 2, 28).
Proof. vm_compute. repeat split. Qed.

(** Tenors with a year unit (a Y in either case) are swap tenors, all others are deposit tenors. *)
Theorem C06_tenor_kind : forall t, (is_swap_tenor t = true <-> exists c, In c t /\ same_letter c "Y"%char) /\ (is_libor_tenor t = true <-> is_swap_tenor t = false).
Proof.
  intros t. unfold is_swap_tenor, is_libor_tenor. rewrite negb_involutive. split.
  - rewrite existsb_exists. split; intros (c & Hc & H); exists c; (split; [exact Hc|]).
    + apply orb_prop in H as [H|H]; apply ceq_same; [|exact H]. unfold ceq in *. apply Z.eqb_eq in H. apply Z.eqb_eq. rewrite H. reflexivity.
    + apply orb_true_intro. right. now apply ceq_same.
  - destruct (existsb _ t); cbn; split; congruence.
Qed.
Print Assumptions C06_tenor_kind.
Example C06_tenor_kind_example : is_swap_tenor (lit "10Y") = true /\ is_swap_tenor (lit "3m") = false.
Proof. split; reflexivity. Qed.
