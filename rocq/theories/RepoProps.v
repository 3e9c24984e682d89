(** C25: the object repository is a set of named objects. *)
From Coq Require Import String Ascii ZArith List Bool Lia.
From Verif Require Import Base StringModel StringSpec StringProofs OMap RepoModel RepoSpec RepoProofs.
Import ListNotations.
Open Scope Z_scope.

(** Every legal sequence of operations on an initially empty repository returns what the set of objects says it should. *)
Theorem C25_repository : forall P uniq regex (l : list (@op P)), address_text uniq -> legal uniq regex (fun _ => False) l ->
  exists C, history uniq regex (fun _ => False) l (snd (exec_all uniq regex [] l)) C /\
            forall x, C x <-> In x (map snd (fst (exec_all uniq regex [] l))).
Proof.
  intros P uniq regex l Hu Hl. assert (G : good (P := P) uniq []) by (split; [constructor|intros k o []]).
  destruct (exec_all_spec uniq Hu regex l [] G Hl) as [G2 H]. exists (holds uniq (fst (exec_all uniq regex [] l))). split; [exact H|].
  intros x. rewrite in_map_iff. split.
  - intros Hx. exists (tag uniq x, x). auto.
  - intros ([k o] & E & Hin). cbn in E. subst o. eapply in_holds; eauto.
Qed.
Print Assumptions C25_repository.

(** The tag returned by an addition finds the object, through any later operations that do not remove it. *)
Definition spares {P} uniq regex (s : object P) (o : op) : Prop :=
  match o with
  | OAdd s' mode => s' = s \/ ~ replaced mode s' s
  | OErase p => forall f, regex p = Some f -> f (tag_text uniq s) = false
  | OEraseObject s' => s' <> s
  | OEraseList l => ~ In s l
  | _ => True
  end.
Lemma spared {P} uniq regex (s : object P) l : forall C xs C', history uniq regex C l xs C' -> C s -> Forall (spares uniq regex s) l -> C' s.
Proof.
  induction l as [|o l IH]; intros C xs C' H Hs F; inversion H as [|? ? x C1 ? ys ? H4 H5]; subst; [exact Hs|]. apply Forall_cons_iff in F as [H6 F].
  eapply IH; [exact H5| |exact F]. destruct o; cbn [spec_step spares] in *.
  - destruct H4 as [_ H4]. apply H4. destruct H6; [left; auto|right; auto].
  - destruct (regex pattern) as [f|]; [destruct H4 as [_ H4]; apply H4; auto|]. destruct H4 as [_ H4]. apply H4. exact Hs.
  - destruct H4 as [_ H4]. apply H4. auto.
  - destruct H4 as [_ H4]. apply H4. auto.
  - destruct H4 as [_ H4]. apply H4. exact Hs.
  - destruct H4 as [_ H4]. apply H4. exact Hs.
  - destruct H4 as [_ H4]. apply H4. exact Hs.
Qed.
Lemma history_app {P} uniq regex l1 : forall C (l2 : list (@op P)) xs C', history uniq regex C (l1 ++ l2) xs C' ->
  exists xs1 xs2 C1, xs = xs1 ++ xs2 /\ history uniq regex C l1 xs1 C1 /\ history uniq regex C1 l2 xs2 C'.
Proof.
  induction l1 as [|o l1 IH]; intros C l2 xs C' H; [exists [], xs, C; repeat split; [constructor|exact H]|].
  cbn [app] in H. inversion H as [|? ? x C1 ? ys ? H4 H6]; subst. destruct (IH _ _ _ _ H6) as (xs1 & xs2 & C2 & -> & Ha & Hb).
  exists (x :: xs1), xs2, C2. repeat split; [econstructor; eauto|exact Hb].
Qed.
Theorem C25_found_until_erased : forall P uniq regex l1 (s : object P) mode l2 quiet, address_text uniq ->
  legal uniq regex (fun _ => False) (l1 ++ OAdd s mode :: l2 ++ [OFetch (tag_text uniq s) quiet]) ->
  Forall (spares uniq regex s) l2 ->
  exists xs, snd (exec_all uniq regex [] (l1 ++ OAdd s mode :: l2 ++ [OFetch (tag_text uniq s) quiet])) = xs ++ [RObject (Some s)] /\
    nth_error xs (length l1) = Some (RTag (tag_text uniq s)).
Proof.
  intros P uniq regex l1 s mode l2 quiet Hu Hl F.
  destruct (C25_repository P uniq regex _ Hu Hl) as (C & H & _). revert H.
  generalize (snd (exec_all uniq regex [] (l1 ++ OAdd s mode :: l2 ++ [OFetch (tag_text uniq s) quiet]))). intros xs0 H.
  (* what is stored is well formed and has distinct addresses *)
  pose (I0 := fun C0 : @contents_t P => (forall x, C0 x -> wf x) /\ forall x y, C0 x -> C0 y -> oaddr x = oaddr y -> x = y).
  assert (W : forall l (C0 : @contents_t P), legal uniq regex C0 l -> I0 C0 -> forall xs C1, history uniq regex C0 l xs C1 -> I0 C1).
  { clear. induction l as [|o l IH]; intros C0 Hl Hw xs C1 H; inversion H as [|? ? x C2 ? ys ? H4 H5]; subst; [exact Hw|]. destruct Hl as [Ha Hl].
    eapply IH; [eapply Hl; exact H4| |exact H5]. clear -Ha H4 Hw. 
    assert (Sub : (forall z, C2 z -> C0 z) -> I0 C2).
    { intros S0. destruct Hw as [Hw1 Hw2]. split; [intros z Hz; apply Hw1; auto|intros z1 z2 Hz1 Hz2; apply Hw2; auto]. }
    destruct o; cbn [spec_step admissible] in *.
    - destruct H4 as [_ H4]. destruct Ha as (? & ? & Hd). split.
      + intros z Hz. apply H4 in Hz as [->|[Hz _]]; [split; assumption|]. apply (proj1 Hw z Hz).
      + intros z1 z2 Hz1 Hz2 Hz. apply H4 in Hz1 as [->|[Hz1 _]]; apply H4 in Hz2 as [->|[Hz2 _]]; auto.
        * symmetry. apply Hd; auto.
        * apply (proj2 Hw); auto.
    - apply Sub. intros z Hz. destruct (regex pattern); destruct H4 as [_ H4]; apply H4 in Hz; tauto.
    - apply Sub. intros z Hz. destruct H4 as [_ H4]. apply H4 in Hz. tauto.
    - apply Sub. intros z Hz. destruct H4 as [_ H4]. apply H4 in Hz. tauto.
    - apply Sub. intros z Hz. destruct H4 as [_ H4]. apply H4 in Hz. tauto.
    - apply Sub. intros z Hz. destruct H4 as [_ H4]. apply H4 in Hz. tauto.
    - apply Sub. intros z Hz. destruct H4 as [_ H4]. apply H4 in Hz. tauto. }
  specialize (W _ _ Hl (conj (fun x (f : False) => match f with end) (fun x y (f : False) => match f with end)) _ _ H).
  apply history_app in H as (xs1 & xs2 & C1 & -> & H1 & H2). inversion H2 as [|? ? x C3 ? ys ? H4 H7]; subst. apply history_app in H7 as (ys1 & ys2 & C2 & -> & H7 & H8).
  cbn [spec_step] in H4. destruct H4 as [-> H4].
  assert (S2 : C2 s) by (eapply spared; [exact H7| |exact F]; apply H4; left; reflexivity).
  inversion H8 as [|? ? x C4 ? ys ? H6 H10]; subst. inversion H10; subst. cbn [spec_step] in H6. destruct H6 as [[(y & Hy & Hsame & ->)|[Hn _]] Hc].
  - assert (y = s).
    { rewrite <- !tag_is_text in Hsame. apply (tag_same uniq Hu) in Hsame; [|apply (proj1 W), Hc; exact Hy|apply (proj1 W), Hc; exact S2].
      apply (proj2 W); [apply Hc; exact Hy|apply Hc; exact S2|tauto]. }
    subst y. exists (xs1 ++ RTag (tag_text uniq s) :: ys1). split; [now rewrite <- app_assoc|].
    assert (Ly : length xs1 = length l1) by (clear -H1; induction H1; cbn; congruence).
    rewrite nth_error_app2 by lia. rewrite Ly, Nat.sub_diag. reflexivity.
  - exfalso. apply (Hn s S2). apply same_refl.
Qed.
Print Assumptions C25_found_until_erased.

(** A concrete run: two boxes and a curve. *)
Fixpoint bits (p : positive) : str := match p with xH => lit "1" | xO p => "0"%char :: bits p | xI p => "1"%char :: bits p end.
Definition address (a : Z) : str := match a with Z0 => lit "0" | Zpos p => lit "x" ++ bits p | Zneg p => lit "y" ++ bits p end.
Lemma bits_inj p : forall q, same_up_to_case (bits p) (bits q) -> p = q.
Proof.
  assert (N : forall q, bits q <> []) by (destruct q; discriminate).
  induction p as [p IH|p IH|]; intros [q|q|] H; cbn [bits lit list_ascii_of_string] in H; inversion H as [|? ? ? ? H1 H2]; subst; clear H;
    try (apply ceq_same in H1; vm_compute in H1; discriminate); try (f_equal; now apply IH); try reflexivity; exfalso.
  - apply same_length in H2. destruct (bits p) eqn:E; [exact (N _ E)|discriminate].
  - apply same_length in H2. destruct (bits q) eqn:E; [exact (N _ E)|discriminate].
Qed.
Lemma address_ok : address_text address.
Proof.
  split.
  - assert (B : forall p, ~ In "~"%char (bits p)).
    { induction p; cbn; intros H; repeat destruct H as [H|H]; try discriminate; auto. }
    intros [|p|p] H; cbn in H; destruct H as [H|H]; try discriminate; [destruct H|exact (B p H)|exact (B p H)].
  - intros [|p|p] [|q|q] H; cbn in H; try reflexivity; inversion H; subst; 
      try (match goal with X : same_letter _ _ |- _ => apply ceq_same in X; vm_compute in X; discriminate end);
      f_equal; now apply bits_inj.
Qed.
Example C25_example :
  let b1 := Obj (lit "Box") (lit "rates") 16 tt in let b2 := Obj (lit "box") (lit "RATES") 32 tt in let c := Obj (lit "Curve") (lit "rates") 48 tt in
  let l := [OAdd b1 EName; OAdd c EName; OAdd b2 EName; OSize; OEraseObject b1; OFetch (lit "~BOX~Rates~x000001") false; OFetch (lit "~Box~rates~x00001") true] in
  address_text address /\ legal address (fun _ => None) (fun _ => False) l /\
  snd (exec_all address (fun _ => None) [] l) =
    [RTag (lit "~Box~rates~x00001"); RTag (lit "~Curve~rates~x000011"); RTag (lit "~box~RATES~x000001"); RCount 2; RBool false; RObject (Some b2); RObject None].
Proof.
  cbv zeta. split; [exact address_ok|]. split; [|vm_compute; reflexivity].
  assert (T : forall s, In s (lit "Box" :: lit "box" :: lit "Curve" :: lit "rates" :: lit "RATES" :: nil) -> ~ In "~"%char s).
  { cbn [In]. intros s H. repeat destruct H as [<-|H]; try destruct H; cbn; intros H; repeat destruct H as [H|H]; try discriminate; auto. }
  split; [repeat split; try (apply T; cbn; tauto); intros y []|]. intros r1 C1 [_ H1].
  split; [repeat split; try (apply T; cbn; tauto); intros y Hy Ha; apply H1 in Hy as [->|[[] _]]; discriminate|]. intros r2 C2 [_ H2].
  split; [repeat split; try (apply T; cbn; tauto); intros y Hy Ha; apply H2 in Hy as [->|[Hy _]]; [discriminate|apply H1 in Hy as [->|[[] _]]; discriminate]|].
  intros r3 C3 [_ H3]. split; [exact Logic.I|]. intros r4 C4 [_ H4].
  split; [repeat split; try (apply T; cbn; tauto); intros y Hy Ha; apply H4, H3 in Hy as [->|[Hy _]]; [discriminate|apply H2 in Hy as [->|[Hy _]]; [discriminate|]; apply H1 in Hy as [->|[[] _]]; reflexivity]|].
  intros r5 C5 _. split; [exact Logic.I|]. intros r6 C6 _. split; [exact Logic.I|]. intros r7 C7 _. exact Logic.I.
Qed.

(** A name with a tilde: storing a box called "a" also removes the box called "a~b". *)
Theorem C25_tilde_refuted : exists uniq (x s : object unit), address_text uniq /\ ~ same_up_to_case (oname x) (oname s) /\ oaddr x <> oaddr s /\
  let l := [OAdd x EName; OAdd s EName; OFetch (tag_text uniq x) true] in
  exists t1 t2, snd (exec_all uniq (fun _ => None) [] l) = [t1; t2; RObject None].
Proof.
  exists address, (Obj (lit "Box") (lit "a~b") 16 tt), (Obj (lit "Box") (lit "a") 32 tt). split; [exact address_ok|]. split; [|split].
  - intros H. apply same_length in H. discriminate.
  - discriminate.
  - cbv zeta. eexists. eexists. vm_compute. reflexivity.
Qed.
Print Assumptions C25_tilde_refuted.

(** An addition takes the lock twice.  Two threads replacing the same name at once can both find nothing to erase, and leave
    two objects of that name. *)
Theorem C25_racing_additions_refuted : exists uniq (a b : object unit), address_text uniq /\ otype a = otype b /\ oname a = oname b /\ a <> b /\
  let m0 : omap str (object unit) := [] in
  let m1 := add_erase m0 a EName in (* thread 1 *)
  let m2 := add_erase m1 b EName in (* thread 2 *)
  let m3 := fst (add_insert uniq m2 a) in (* thread 1 *)
  let m4 := fst (add_insert uniq m3 b) in (* thread 2 *)
  size m4 = 2.
Proof.
  exists address, (Obj (lit "Box") (lit "a") 16 tt), (Obj (lit "Box") (lit "a") 32 tt). split; [exact address_ok|]. repeat split; discriminate.
Qed.
Print Assumptions C25_racing_additions_refuted.
