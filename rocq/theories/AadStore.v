(** Storage for groups of slots, and the tape of addresses as a list of weighted dependencies. *)
From Coq Require Import List Arith Bool Lia.
From Verif Require Import Base Vec BlockModel BlockSpec BlockProofs AadModel.
Import ListNotations.

Section Store.
Context {T : Type}.
Variable B : nat.
Variable blank : T.
Hypothesis HB : 0 < B.
Notation pos := (pos B).

Record store (s : blocks T) : Prop := Store {
  st_full : Forall (fun b => length b = B) (data s); st_curr : curr s < length (data s); st_next : next s <= B;
  st_mark : forall b o, mark s = Some (b, o) -> b < length (data s) /\ o <= B }.
Definition top (s : blocks T) : nat := pos (curr s, next s).
Lemma init_store : store (init B blank).
Proof.
  unfold init, new_block; constructor; cbn; try lia; [|discriminate]. constructor; [apply repeat_length|constructor].
Qed.
Lemma next_block_store s : store s -> store (next_block B blank s) /\ next (next_block B blank s) = 0 /\ top s <= top (next_block B blank s) /\
  mark (next_block B blank s) = mark s /\ (forall p x, read s p = Ok x -> read (next_block B blank s) p = Ok x).
Proof.
  intros [H1 H2 H3 H4]. unfold next_block. destruct (Nat.eqb_spec (S (curr s)) (length (data s))) as [E|E].
  - unfold new_block. split; [|split; [reflexivity|split; [|split; [reflexivity|]]]].
    + constructor; cbn [data curr next mark]; try lia.
      * apply Forall_app. split; [exact H1|]. constructor; [apply repeat_length|constructor].
      * rewrite app_length. cbn. lia.
      * intros b o M. rewrite app_length. destruct (H4 b o M). lia.
    + unfold top, BlockProofs.pos; cbn [data curr next fst snd]. nia.
    + intros p x. unfold read, get; cbn [data]. destruct (nth_error (data s) (fst p)) as [b|] eqn:Eb; [|discriminate].
      rewrite nth_error_app1 by (apply nth_error_Some; congruence). rewrite Eb. auto.
  - split; [|split; [reflexivity|split; [|split; [reflexivity|auto]]]].
    + constructor; cbn [data curr next mark]; auto; lia.
    + unfold top, BlockProofs.pos; cbn [data curr next fst snd]. nia.
Qed.
Lemma emplace_multi_store n s : store s -> n <= B -> exists q s', emplace_multi B blank n s = Ok (q, s') /\ store s' /\
  top s <= pos q /\ pos q + n = top s' /\ snd q + n <= B /\ fst q < length (data s') /\ mark s' = mark s /\
  (forall p x, read s p = Ok x -> read s' p = Ok x).
Proof.
  intros H Hn. unfold emplace_multi. set (s1 := if B - next s <? n then next_block B blank s else s).
  assert (store s1 /\ top s <= top s1 /\ next s1 + n <= B /\ mark s1 = mark s /\ (forall p x, read s p = Ok x -> read s1 p = Ok x)) as (G1 & G2 & G3 & G4 & G5).
  { unfold s1. destruct (Nat.ltb_spec (B - next s) n) as [L|L].
    - destruct (next_block_store s H) as (A1 & A2 & A3 & A4 & A5). rewrite A2. auto.
    - split; [exact H|]. split; [lia|]. split; [|auto]. pose proof (st_next _ H). lia. }
  clearbody s1. apply Nat.leb_le in G3 as G3'. rewrite G3'. exists (curr s1, next s1). eexists. split; [reflexivity|]. cbn [fst snd data mark].
  destruct G1 as [F1 F2 F3 F4]. split; [constructor; auto|]. unfold top in *. unfold BlockProofs.pos in *. cbn [data curr next mark fst snd] in *. repeat split; auto; lia.
Qed.
Lemma read_ok s p : store s -> fst p < length (data s) -> snd p < B -> exists x, read s p = Ok x.
Proof.
  intros H Hb Ho. unfold read, get. destruct (nth_error (data s) (fst p)) as [b|] eqn:Eb; [|apply nth_error_None in Eb; lia]. cbn [obind].
  pose proof (st_full _ H) as F. rewrite Forall_forall in F. specialize (F b (nth_error_In _ _ Eb)).
  destruct (nth_error b (snd p)) as [x|] eqn:Ex; [eauto|apply nth_error_None in Ex; lia].
Qed.
Lemma write_store s p x : store s -> fst p < length (data s) -> snd p < B -> exists s', write s p x = Ok s' /\ store s' /\
  curr s' = curr s /\ next s' = next s /\ mark s' = mark s /\ length (data s') = length (data s) /\ read s' p = Ok x /\ (forall q y, q <> p -> read s q = Ok y -> read s' q = Ok y).
Proof.
  intros H Hb Ho. unfold write, get. destruct (nth_error (data s) (fst p)) as [b|] eqn:Eb; [|apply nth_error_None in Eb; lia]. cbn [obind].
  pose proof (st_full _ H) as F. rewrite Forall_forall in F. pose proof (F b (nth_error_In _ _ Eb)) as Hlen.
  rewrite put_ok by lia. cbn [obind]. rewrite put_ok by lia. cbn [obind]. eexists. split; [reflexivity|]. cbn [data curr next mark]. destruct H as [H1 H2 H3 H4].
  split; [|split; [reflexivity|split; [reflexivity|split; [reflexivity|split; [apply set_nth_length|split]]]]].
  - constructor; cbn [data curr next mark]; rewrite ?set_nth_length; auto. apply full_set; [exact H1|]. now rewrite set_nth_length.
  - unfold read, get; cbn [data]. rewrite nth_error_set with (B := B) by lia. cbn [obind]. rewrite nth_error_set with (B := B) by lia. reflexivity.
  - intros q y Hq. unfold read, get; cbn [data]. assert (forall (A : Type) (l : list A) k j z, j <> k -> nth_error (set_nth l k z) j = nth_error l j) as Hso.
    { clear. intros A l. induction l as [|u l IH]; intros [|k] [|j] z Hj; cbn; auto; try lia. }
    destruct (Nat.eq_dec (fst q) (fst p)) as [E|E].
    + rewrite E, Eb, nth_error_set with (B := B) by lia. cbn [obind]. rewrite Hso; [auto|]. intros E2. apply Hq. destruct p, q; cbn in *; congruence.
    + rewrite Hso by exact E. auto.
Qed.
Lemma set_mark_store s : store s -> store (set_mark B blank s) /\ top s <= top (set_mark B blank s) /\
  mark (set_mark B blank s) = Some (curr (set_mark B blank s), next (set_mark B blank s)) /\
  (forall p x, read s p = Ok x -> read (set_mark B blank s) p = Ok x).
Proof.
  intros H. unfold set_mark. set (s1 := room B blank s).
  assert (store s1 /\ top s <= top s1 /\ (forall p x, read s p = Ok x -> read s1 p = Ok x)) as (G1 & G2 & G3).
  { unfold s1, room. destruct (next s =? B); [|auto]. destruct (next_block_store s H) as (A1 & A2 & A3 & A4 & A5). auto. }
  clearbody s1. destruct G1 as [F1 F2 F3 F4]. split; [constructor; cbn [data curr next mark]; auto; intros b o M; injection M as <- <-; auto|]. auto.
Qed.
Lemma rewind_to_mark_store s b o : store s -> mark s = Some (b, o) -> exists s', rewind_to_mark s = Ok s' /\ store s' /\ top s' = pos (b, o) /\ mark s' = mark s /\
  (forall p x, read s p = Ok x -> read s' p = Ok x).
Proof.
  intros [F1 F2 F3 F4] M. unfold rewind_to_mark. rewrite M. eexists. split; [reflexivity|]. destruct (F4 b o M). rewrite <- M. split; [constructor; cbn [data curr next mark]; auto|]. auto.
Qed.
End Store.
