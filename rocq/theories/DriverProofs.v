(** What calls write, and what they leave alone. *)
From Coq Require Import List ZArith Bool Ascii String Lia Permutation.
From Verif Require Import Base StringModel SplatFileModel DriverModel DriverSpec.
Import ListNotations.
Open Scope Z_scope.

Section Proofs.
Context {D : Type}.
Variable legal : str -> bool.
Variable key : str -> str.
Variables max_row max_col : Z.
Notation cell := (Z * Z * content D)%type.
Notation length := List.length.
Notation put := (put max_row max_col).
Notation fits r c := ((1 <=? r) && (r <=? max_row) && (1 <=? c) && (c <=? max_col)).

Definition wrote (k : nat) (W : list cell) (b : book D) : book D :=
  Book (change (fun s => Sheet (s_name s) (W ++ s_cells s)) (sheets b) k) (charts b) (column b).
Fixpoint writes (k : nat) (l : list cell) (b : book D) : result D :=
  match l with [] => Done b | (r, c, v) :: l' => after (put k r c v b) (writes k l') end.

Lemma change_change {X} (f g : X -> X) l : forall k, change f (change g l k) k = change (fun x => f (g x)) l k.
Proof. induction l as [|x l IH]; intros [|k]; cbn; try reflexivity. now rewrite IH. Qed.
Lemma change_ext {X} (f g : X -> X) l : (forall x, f x = g x) -> forall k, change f l k = change g l k.
Proof. intros H. induction l as [|x l IH]; intros [|k]; cbn; try reflexivity; [now rewrite H|now rewrite IH]. Qed.
Lemma change_id {X} (f : X -> X) l : (forall x, f x = x) -> forall k, change f l k = l.
Proof. intros H. induction l as [|x l IH]; intros [|k]; cbn; try reflexivity; [now rewrite H|now rewrite IH]. Qed.
Lemma change_length {X} (f : X -> X) l : forall k, length (change f l k) = length l.
Proof. induction l as [|x l IH]; intros [|k]; cbn; auto. Qed.
Lemma change_same {X} (f : X -> X) l : forall k, nth_error (change f l k) k = option_map f (nth_error l k).
Proof. induction l as [|x l IH]; intros [|k]; cbn; auto. Qed.
Lemma change_other {X} (f : X -> X) l : forall k i, i <> k -> nth_error (change f l k) i = nth_error l i.
Proof. induction l as [|x l IH]; intros [|k] [|i] H; cbn; auto; try lia. Qed.
Lemma change_app {X} (f : X -> X) l x : change f (l ++ [x]) (length l) = l ++ [f x].
Proof. induction l as [|y l IH]; cbn; [reflexivity|]. now rewrite IH. Qed.
Lemma change_map {X Y} (f : X -> X) (g : X -> Y) l : (forall x, g (f x) = g x) -> forall k, map g (change f l k) = map g l.
Proof. intros H. induction l as [|x l IH]; intros [|k]; cbn; try reflexivity; [now rewrite H|now rewrite IH]. Qed.

Lemma wrote_nil k b : wrote k [] b = b.
Proof. unfold wrote. destruct b as [ss cs c]. cbn. rewrite change_id; [reflexivity|]. now intros []. Qed.
Lemma wrote_wrote k W V b : wrote k V (wrote k W b) = wrote k (V ++ W) b.
Proof. unfold wrote. cbn. rewrite change_change. f_equal. apply change_ext. intros s. cbn. now rewrite app_assoc. Qed.
Lemma put_eq k r c v b : put k r c v b = if fits r c then Done (wrote k [(r, c, v)] b) else Thrown b.
Proof. reflexivity. Qed.

(** a run of writes ends with all of them, or throws after the first of them *)
Lemma writes_ok k l : forall b, match writes k l b with
  | Done b' => b' = wrote k (rev l) b /\ Forall (fun w => fits (fst (fst w)) (snd (fst w)) = true) l
  | Thrown b' => exists p, (exists q, l = p ++ q) /\ b' = wrote k (rev p) b
  | Undefined => False end.
Proof.
  induction l as [|[[r c] v] l IH]; intros b; cbn [writes].
  - split; [now rewrite wrote_nil|constructor].
  - rewrite put_eq. destruct (fits r c) eqn:E; cbn [after].
    + specialize (IH (wrote k [(r, c, v)] b)). destruct (writes k l _) as [b'|b'|]; [| |exact IH].
      * destruct IH as [-> F]. split; [|constructor; [exact E|exact F]]. cbn [rev]. now rewrite wrote_wrote.
      * destruct IH as (p & (q & ->) & ->). exists ((r, c, v) :: p). split; [now exists q|]. cbn [rev]. now rewrite wrote_wrote.
    + exists []. split; [now eexists|]. cbn [rev]. now rewrite wrote_nil.
Qed.
Lemma writes_all k l : forall b, Forall (fun w => fits (fst (fst w)) (snd (fst w)) = true) l -> writes k l b = Done (wrote k (rev l) b).
Proof.
  induction l as [|[[r c] v] l IH]; intros b H; cbn [writes]; [now rewrite wrote_nil|]. inversion H as [|? ? H1 H2]; subst. cbn [fst snd] in H1. rewrite put_eq, H1. cbn [after]. rewrite IH by exact H2. cbn [rev]. now rewrite wrote_wrote.
Qed.
Lemma writes_app k l m b : writes k (l ++ m) b = after (writes k l b) (writes k m).
Proof. revert b. induction l as [|[[r c] v] l IH]; intros b; cbn [app writes]; [reflexivity|]. rewrite put_eq. destruct (fits r c); cbn [after]; [apply IH|reflexivity]. Qed.

(** * What each loop writes *)
Fixpoint across_list (r c : Z) (xs : list D) : list cell := match xs with [] => [] | x :: l => (r, c, Real x) :: across_list r (c + 1) l end.
Fixpoint down_list (r c : Z) (vs : list (content D)) : list cell := match vs with [] => [] | v :: l => (r, c, v) :: down_list (r + 1) c l end.
Definition row_list (r c : Z) (l : str) (xs : list D) : list cell := (r, c, Text (c_str l)) :: across_list r (c + 1) xs.
Fixpoint head_list (r c : Z) (ls : list str) : list cell := match ls with [] => [] | l :: r' => (r, c, Text (c_str l)) :: head_list r (c + 1) r' end.
Fixpoint table_list (r c : Z) (m : list (list D)) (ls : list str) : list cell :=
  match m, ls with xs :: m', l :: ls' => row_list r c l xs ++ table_list (r + 1) c m' ls' | _, _ => [] end.
Fixpoint cols_list (c : Z) (ls : list str) (vs : list (list D)) {struct vs} : list cell :=
  match vs, ls with v :: vs', l :: ls' => down_list 1 c (headed l v) ++ cols_list (c + 1) ls' vs' | _, _ => [] end.

Lemma across_writes k r xs : forall c b, across max_row max_col k r c xs b = writes k (across_list r c xs) b.
Proof. induction xs as [|x xs IH]; intros c b; cbn [across across_list writes]; [reflexivity|]. rewrite put_eq. destruct (fits r c); cbn [after]; [apply IH|reflexivity]. Qed.
Lemma down_writes k c xs : forall r b, down max_row max_col k r c xs b = writes k (down_list r c (map Real xs)) b.
Proof. induction xs as [|x xs IH]; intros r b; cbn [down map down_list writes]; [reflexivity|]. rewrite put_eq. destruct (fits r c); cbn [after]; [apply IH|reflexivity]. Qed.
Lemma text_writes k c xs : forall r b, text_down max_row max_col k r c xs b = writes k (down_list r c (map (fun s => Text (c_str s)) xs)) b.
Proof. induction xs as [|x xs IH]; intros r b; cbn [text_down map down_list writes]; [reflexivity|]. rewrite put_eq. destruct (fits r c); cbn [after]; [apply IH|reflexivity]. Qed.
Lemma horizontal_writes k r c l xs b : to_horizontal max_row max_col k r c l xs b = writes k (row_list r c l xs) b.
Proof. unfold to_horizontal, row_list. cbn [writes]. rewrite put_eq. destruct (fits r c); cbn [after]; [apply across_writes|reflexivity]. Qed.
Lemma vertical_writes k r c l xs b : to_vertical max_row max_col k r c l xs b = writes k (down_list r c (headed l xs)) b.
Proof. unfold to_vertical, headed. cbn [down_list writes]. rewrite put_eq. destruct (fits r c); cbn [after]; [apply down_writes|reflexivity]. Qed.
Lemma head_writes k r ls : forall c b, head_row max_row max_col k r c ls b = writes k (head_list r c ls) b.
Proof. induction ls as [|l ls IH]; intros c b; cbn [head_row head_list writes]; [reflexivity|]. rewrite put_eq. destruct (fits r c); cbn [after]; [apply IH|reflexivity]. Qed.
Lemma table_writes k c m : forall r ls b, table max_row max_col k r c m ls b = after (writes k (table_list r c m ls) b) (fun b' => if (length m <=? length ls)%nat then Done b' else Undefined).
Proof.
  induction m as [|xs m IH]; intros r [|l ls] b; cbn [table table_list writes after length Nat.leb]; try reflexivity.
  rewrite horizontal_writes, writes_app. destruct (writes k (row_list r c l xs) b); cbn [after]; [apply IH|reflexivity|reflexivity].
Qed.
Lemma outputs_ok k vs : forall ls b, match outputs max_row max_col k ls vs b with
  | Done b' => (length vs <= length ls)%nat /\ b' = Book (change (fun s => Sheet (s_name s) (rev (cols_list (column b) ls vs) ++ s_cells s)) (sheets b) k) (charts b) (column b + Z.of_nat (length vs))
  | Thrown b' => exists W c, Forall (fun w : cell => column b <= snd (fst w)) W /\ column b <= c /\ b' = Book (sheets (wrote k W b)) (charts b) c
  | Undefined => True end.
Proof.
  induction vs as [|v vs IH]; intros ls b.
  - replace (outputs max_row max_col k ls [] b) with (Done b) by (now destruct ls). split; [cbn; lia|]. cbn [cols_list rev app length]. destruct b as [ss cs c]. cbn [sheets charts column]. f_equal; [|cbn; lia]. rewrite change_id; [reflexivity|now intros []].
  - destruct ls as [|l ls]; [exact Logic.I|]. cbn [outputs]. rewrite vertical_writes. pose proof (writes_ok k (down_list 1 (column b) (headed l v)) b) as Hw.
    assert (Hc : forall r vs', Forall (fun w : cell => snd (fst w) = column b) (down_list r (column b) vs')) by (intros r vs'; revert r; induction vs' as [|v' vs' IHv]; intros r; constructor; [reflexivity|apply IHv]).
    destruct (writes k _ b) as [b1|b1|]; cbn [after]; [| |exact Logic.I].
    + destruct Hw as [-> _]. specialize (IH ls (next_column (wrote k (rev (down_list 1 (column b) (headed l v))) b))).
      destruct (outputs max_row max_col k ls vs _) as [b2|b2|]; [| |exact Logic.I].
      * destruct IH as [IH1 ->]. split; [cbn; lia|]. unfold wrote, next_column. cbn [sheets charts column]. rewrite change_change. cbn [s_name s_cells]. f_equal; [|cbn [length]; lia].
        apply change_ext. intros s. cbn [cols_list]. now rewrite rev_app_distr, <- app_assoc.
      * destruct IH as (W & c & F & Hc' & ->). exists (W ++ rev (down_list 1 (column b) (headed l v))), c. split; [|split].
        -- apply Forall_app. split; [eapply Forall_impl; [|exact F]; cbn; intros; lia|]. apply Forall_rev. eapply Forall_impl; [|apply Hc]. cbv beta. intros; lia.
        -- cbn in Hc'. lia.
        -- unfold wrote, next_column. cbn [sheets charts column]. rewrite change_change. cbn [s_name s_cells]. f_equal. apply change_ext. intros s. cbn. now rewrite app_assoc.
    + destruct Hw as (p & (q & E) & ->). exists (rev p), (column b). split; [|split; [lia|reflexivity]]. apply Forall_rev. specialize (Hc 1 (headed l v)). rewrite E in Hc. apply Forall_app in Hc as [Hc _]. eapply Forall_impl; [|exact Hc]. cbv beta. intros; lia.
Qed.

(** * Looking at what was written *)
Lemma look_app (a b : list cell) i j : look (a ++ b) i j = match look a i j with Some v => Some v | None => look b i j end.
Proof. induction a as [|[[r c] v] a IH]; cbn [app look]; [reflexivity|]. destruct ((i =? r) && (j =? c)); [reflexivity|exact IH]. Qed.
Lemma nthZ_cons {X} (x : X) l z : nthZ (x :: l) z = if z =? 0 then Some x else nthZ l (z - 1).
Proof.
  unfold nthZ. destruct (Z.ltb_spec z 0), (Z.eqb_spec z 0), (Z.ltb_spec (z - 1) 0); try lia; try reflexivity; [subst; reflexivity|]. replace (Z.to_nat z) with (Datatypes.S (Z.to_nat (z - 1))) by lia. reflexivity.
Qed.
Lemma nthZ_nil {X} z : nthZ (@nil X) z = None.
Proof. unfold nthZ. destruct (z <? 0); [reflexivity|]. now destruct (Z.to_nat z). Qed.
Lemma look_across r xs : forall c i j, look (rev (across_list r c xs)) i j = if i =? r then option_map Real (nthZ xs (j - c)) else None.
Proof.
  induction xs as [|x xs IH]; intros c i j; cbn [across_list rev look].
  - rewrite nthZ_nil. now destruct (i =? r).
  - rewrite look_app, IH, nthZ_cons. cbn [look]. replace (j - (c + 1)) with (j - c - 1) by lia. destruct (Z.eqb_spec i r), (Z.eqb_spec j c), (Z.eqb_spec (j - c) 0); try lia; cbn [andb].
    + assert (nthZ xs (j - c - 1) = None) as -> by (unfold nthZ; destruct (Z.ltb_spec (j - c - 1) 0); [reflexivity|lia]). reflexivity.
    + now destruct (nthZ xs (j - c - 1)).
    + reflexivity.
    + reflexivity.
Qed.
Lemma look_down c vs : forall r i j, look (rev (down_list r c vs)) i j = if j =? c then nthZ vs (i - r) else None.
Proof.
  induction vs as [|v vs IH]; intros r i j; cbn [down_list rev look].
  - rewrite nthZ_nil. now destruct (j =? c).
  - rewrite look_app, IH, nthZ_cons. cbn [look]. replace (i - (r + 1)) with (i - r - 1) by lia. destruct (Z.eqb_spec j c), (Z.eqb_spec i r), (Z.eqb_spec (i - r) 0); try lia; cbn [andb].
    + assert (nthZ vs (i - r - 1) = None) as -> by (unfold nthZ; destruct (Z.ltb_spec (i - r - 1) 0); [reflexivity|lia]). reflexivity.
    + now destruct (nthZ vs (i - r - 1)).
    + reflexivity.
    + reflexivity.
Qed.
Lemma look_row r c l xs i j : look (rev (row_list r c l xs)) i j = if i =? r then row_cell c l xs j else None.
Proof.
  unfold row_list, row_cell. cbn [rev]. rewrite look_app, look_across. cbn [look]. replace (j - (c + 1)) with (j - c - 1) by lia. destruct (Z.eqb_spec i r); [|reflexivity]. cbn [andb]. destruct (Z.eqb_spec j c).
  - assert (nthZ xs (j - c - 1) = None) as -> by (unfold nthZ; destruct (Z.ltb_spec (j - c - 1) 0); [reflexivity|lia]). reflexivity.
  - now destruct (nthZ xs (j - c - 1)).
Qed.
Lemma look_head r ls : forall c i j, look (rev (head_list r c ls)) i j = if i =? r then option_map (fun l => Text (c_str l)) (nthZ ls (j - c)) else None.
Proof.
  induction ls as [|x xs IH]; intros c i j; cbn [head_list rev look].
  - rewrite nthZ_nil. now destruct (i =? r).
  - rewrite look_app, IH, nthZ_cons. cbn [look]. replace (j - (c + 1)) with (j - c - 1) by lia. destruct (Z.eqb_spec i r), (Z.eqb_spec j c), (Z.eqb_spec (j - c) 0); try lia; cbn [andb].
    + assert (nthZ xs (j - c - 1) = None) as -> by (unfold nthZ; destruct (Z.ltb_spec (j - c - 1) 0); [reflexivity|lia]). reflexivity.
    + now destruct (nthZ xs (j - c - 1)).
    + reflexivity.
    + reflexivity.
Qed.
Lemma nthZ_neg {X} (l : list X) z : z < 0 -> nthZ l z = None.
Proof. intros H. unfold nthZ. now destruct (Z.ltb_spec z 0); [|lia]. Qed.
Lemma look_table c m : forall r ls i j, look (rev (table_list r c m ls)) i j = rows_cell r c ls m i j.
Proof.
  induction m as [|xs m IH]; intros r [|l ls] i j; cbn [table_list rev look]; unfold rows_cell.
  - now rewrite !nthZ_nil.
  - rewrite nthZ_nil. now destruct (nthZ (l :: ls) (i - r)).
  - now rewrite nthZ_nil.
  - rewrite rev_app_distr, look_app, IH, look_row, !nthZ_cons. unfold rows_cell. replace (i - (r + 1)) with (i - r - 1) by lia. destruct (Z.eqb_spec i r), (Z.eqb_spec (i - r) 0); try lia.
    + now rewrite (nthZ_neg ls) by lia.
    + destruct (nthZ ls (i - r - 1)) as [l0|]; [|reflexivity]. destruct (nthZ m (i - r - 1)) as [x0|]; [|reflexivity]. now destruct (row_cell c l0 x0 j).
Qed.
Lemma look_cols vs : forall c ls i j, look (rev (cols_list c ls vs)) i j = match nthZ ls (j - c), nthZ vs (j - c) with Some l, Some v => nthZ (headed l v) (i - 1) | _, _ => None end.
Proof.
  induction vs as [|v vs IH]; intros c [|l ls] i j; cbn [cols_list rev look].
  - now rewrite !nthZ_nil.
  - rewrite nthZ_nil. now destruct (nthZ (l :: ls) (j - c)).
  - now rewrite nthZ_nil.
  - rewrite rev_app_distr, look_app, IH, look_down, !(nthZ_cons _ _ (j - c)). replace (j - (c + 1)) with (j - c - 1) by lia. destruct (Z.eqb_spec j c), (Z.eqb_spec (j - c) 0); try lia.
    + now rewrite (nthZ_neg ls) by lia.
    + destruct (nthZ ls (j - c - 1)) as [l0|]; [|reflexivity]. destruct (nthZ vs (j - c - 1)) as [x0|]; [|reflexivity]. now destruct (nthZ (headed l0 x0) (i - 1)).
Qed.
Lemma look_low (W : list cell) c i j : Forall (fun w => c <= snd (fst w)) W -> j < c -> look W i j = None.
Proof. intros H Hj. induction H as [|[[r0 c0] v] W H1 _ IH]; cbn [look]; [reflexivity|]. cbn [fst snd] in H1. destruct (Z.eqb_spec j c0); [lia|]. rewrite andb_false_r. exact IH. Qed.
Lemma cols_low vs : forall c ls, Forall (fun w : cell => c <= snd (fst w)) (cols_list c ls vs).
Proof.
  induction vs as [|v vs IH]; intros c [|l ls]; cbn [cols_list]; try apply Forall_nil. apply Forall_app. split; [|eapply Forall_impl; [|apply IH]; cbv beta; intros; lia].
  generalize (headed l v) as l'. generalize 1. intros z l'. revert z. induction l' as [|v' l' IHl]; intros z; constructor; [cbn; lia|apply IHl].
Qed.

(** * Names *)
Definition keys (l : list (option str)) : list str := flat_map (fun o => match o with Some n => [key n] | None => [] end) l.
Lemma same_spec a b : same a b = true <-> a = b.
Proof. unfold same. destruct (list_eq_dec ascii_dec a b); split; congruence. Qed.
Lemma taken_false n (b : book D) : taken key n b = false <-> ~ In (key n) (named key b).
Proof.
  clear legal max_row max_col.
  unfold taken, named. induction (names b) as [|o l IH]; cbn [existsb flat_map]; [cbn; tauto|]. rewrite orb_false_iff, in_app_iff, IH. destruct o as [m|]; cbn [In]; [|tauto].
  destruct (same (key m) (key n)) eqn:E.
  - apply same_spec in E. split; [intros [? _]; discriminate|]. intros H. exfalso. tauto.
  - assert (key m <> key n) by (intros H; apply same_spec in H; congruence). tauto.
Qed.
Lemma named_keys (b : book D) : named key b = keys (map s_name (sheets b)) ++ keys (map c_name (charts b)).
Proof. unfold named, names, keys. apply flat_map_app. Qed.
Lemma keys_app a b : keys (a ++ b) = keys a ++ keys b.
Proof. apply flat_map_app. Qed.
Lemma find_at l : forall n k0 k s m, nth_error l k = Some s -> s_name s = Some m -> key m = key n -> NoDup (keys (map s_name l)) -> find_sheet key (D := D) l n k0 = Some (k0 + k)%nat.
Proof.
  induction l as [|s0 l IH]; intros n k0 [|k] s m Hn Hs Hm Hd; try discriminate; cbn [find_sheet].
  - cbn in Hn. injection Hn as ->. rewrite Hs. rewrite (proj2 (same_spec _ _) Hm). f_equal. lia.
  - cbn [nth_error] in Hn. cbn [map keys flat_map] in Hd. destruct (s_name s0) as [m0|] eqn:E0.
    + cbn [app] in Hd. inversion Hd as [|? ? H1 H2]; subst. destruct (same (key m0) (key n)) eqn:E.
      * exfalso. apply same_spec in E. apply H1. rewrite E, <- Hm. apply in_flat_map. exists (Some m). split; [|now left]. rewrite <- Hs. apply in_map. eapply nth_error_In; eauto.
      * rewrite (IH n (Datatypes.S k0) k s m Hn Hs Hm H2). f_equal. lia.
    + rewrite (IH n (Datatypes.S k0) k s m Hn Hs Hm Hd). f_equal. lia.
Qed.

(** * What holds throughout a session *)
Definition inv (b : book D) : Prop := (exists s l, sheets b = s :: l /\ s_name s = Some chart_data) /\ NoDup (named key b).
Record grows (b b' : book D) : Prop := Grows {
  g_sheets : forall k s, (0 < k)%nat -> nth_error (sheets b) k = Some s -> nth_error (sheets b') k = Some s;
  g_first : forall s, nth_error (sheets b) 0 = Some s -> exists s', nth_error (sheets b') 0 = Some s' /\ s_name s' = s_name s /\ forall i j, j < column b -> look (s_cells s') i j = look (s_cells s) i j;
  g_charts : forall n ch, nth_error (charts b) n = Some ch -> nth_error (charts b') n = Some ch;
  g_column : column b <= column b' }.
Lemma grows_refl b : grows b b.
Proof. constructor; auto; try lia. intros s H. exists s. auto. Qed.
Lemma grows_trans a b c : grows a b -> grows b c -> grows a c.
Proof.
  intros [A1 A2 A3 A4] [B1 B2 B3 B4]. constructor; auto; try lia. intros s H. destruct (A2 s H) as (s1 & H1 & N1 & L1). destruct (B2 s1 H1) as (s2 & H2 & N2 & L2). exists s2. split; [exact H2|]. split; [congruence|]. intros i j Hj. rewrite L2 by lia. now apply L1.
Qed.

(** a call that adds a sheet *)
Definition ext (o : option str) (W : list cell) (b : book D) : book D := Book (sheets b ++ [Sheet o W]) (charts b) (column b).
Definition fresh (o : option str) (b : book D) : Prop := match o with Some n => ~ In (key n) (named key b) | None => True end.
Lemma wrote_ext o W V b : wrote (length (sheets b)) V (ext o W b) = ext o (V ++ W) b.
Proof. unfold wrote, ext. cbn [sheets charts column]. now rewrite change_app. Qed.
Lemma ext_inv o W b : inv b -> fresh o b -> inv (ext o W b) /\ grows b (ext o W b).
Proof.
  intros [(s & l & E & N) Hd] Hf. split; [split|].
  - exists s, (l ++ [Sheet o W]). unfold ext. cbn [sheets]. rewrite E. auto.
  - rewrite named_keys in *. unfold ext. cbn [sheets charts]. rewrite map_app, keys_app. destruct o as [n|]; cbn [map s_name keys flat_map app].
    + rewrite <- app_assoc. cbn [app]. eapply Permutation.Permutation_NoDup; [apply Permutation.Permutation_middle|]. constructor; [|exact Hd]. cbn [fresh] in Hf. now rewrite named_keys in Hf.
    + now rewrite app_nil_r.
  - constructor; cbn [ext sheets charts column]; auto; try lia.
    + intros k s' _ H. rewrite nth_error_app1; [exact H|]. apply nth_error_Some. congruence.
    + intros s' H. exists s'. split; [|auto]. rewrite nth_error_app1; [exact H|]. apply nth_error_Some. congruence.
Qed.
Lemma name_eq n b : name_sheet legal key (length (sheets b)) n (add_sheet b) = if legal n && negb (taken key n b) then Done (ext (Some n) [] b) else Thrown (ext None [] b).
Proof.
  unfold name_sheet. assert (taken key n (add_sheet b) = taken key n b) as ->.
  { unfold taken, names, add_sheet. cbn [sheets charts]. rewrite map_app, !existsb_app. cbn. now rewrite orb_false_r. }
  destruct (legal n && negb (taken key n b)); [|reflexivity]. unfold ext, add_sheet. cbn [sheets charts column]. now rewrite change_app.
Qed.
Lemma after_writes k l b (f : book D -> result D) : match after (writes k l b) f with
  | Done b' => f (wrote k (rev l) b) = Done b' | Thrown b' => f (wrote k (rev l) b) = Thrown b' \/ exists W, b' = wrote k W b | Undefined => f (wrote k (rev l) b) = Undefined end.
Proof.
  pose proof (writes_ok k l b) as H. destruct (writes k l b) as [b1|b1|]; cbn [after]; [|destruct H as (p & _ & ->); right; eauto|contradiction]. destruct H as [-> _]. destruct (f _); auto.
Qed.
Lemma matrix_shape m name rl cl r c b : match add_matrix legal key max_row max_col m name rl cl r c b with
  | Done b' => legal (c_str name) = true /\ fresh (Some (c_str name)) b /\ (length m <= length rl)%nat /\ b' = ext (Some (c_str name)) (rev (head_list r (c + 1) cl ++ table_list (r + 1) c m rl)) b
  | Thrown b' => exists o W, fresh o b /\ b' = ext o W b
  | Undefined => (length rl < length m)%nat end.
Proof.
  unfold add_matrix. rewrite name_eq. destruct (legal (c_str name)) eqn:L; cbn [andb after]; [|now exists None, []]. destruct (taken key (c_str name) b) eqn:T; cbn [negb after]; [now exists None, []|]. apply taken_false in T.
  rewrite head_writes.
  assert (E : after (writes (length (sheets b)) (head_list r (c + 1) cl) (ext (Some (c_str name)) [] b)) (table max_row max_col (length (sheets b)) (r + 1) c m rl)
            = after (writes (length (sheets b)) (head_list r (c + 1) cl ++ table_list (r + 1) c m rl) (ext (Some (c_str name)) [] b)) (fun b' => if (length m <=? length rl)%nat then Done b' else Undefined)).
  { rewrite writes_app. destruct (writes _ (head_list _ _ _) _); cbn [after]; [apply table_writes|reflexivity|reflexivity]. }
  rewrite E. match goal with |- context [after (writes ?k ?l ?b0) ?f] => pose proof (after_writes k l b0 f) as H; destruct (after (writes k l b0) f) end.
  - destruct (Nat.leb_spec (length m) (length rl)); [|discriminate]. injection H as <-. do 3 (split; [auto; fail|]). now rewrite wrote_ext, app_nil_r.
  - destruct H as [H|[W ->]]; [destruct (length m <=? length rl)%nat; discriminate|]. exists (Some (c_str name)), W. split; [exact T|]. now rewrite wrote_ext, app_nil_r.
  - destruct (Nat.leb_spec (length m) (length rl)); [discriminate|lia].
Qed.
Lemma plain_shape m name r c b : match add_plain legal key max_row max_col m name r c b with
  | Done b' => legal (c_str name) = true /\ fresh (Some (c_str name)) b /\ b' = ext (Some (c_str name)) (rev (table_list r c m (map (fun _ => []) m))) b
  | Thrown b' => exists o W, fresh o b /\ b' = ext o W b
  | Undefined => False end.
Proof.
  unfold add_plain. rewrite name_eq. destruct (legal (c_str name)) eqn:L; cbn [andb after]; [|now exists None, []]. destruct (taken key (c_str name) b) eqn:T; cbn [negb after]; [now exists None, []|]. apply taken_false in T.
  rewrite table_writes. rewrite map_length, Nat.leb_refl.
  match goal with |- context [after (writes ?k ?l ?b0) ?f] => pose proof (after_writes k l b0 f) as H; destruct (after (writes k l b0) f) end.
  - injection H as <-. do 2 (split; [auto; fail|]). now rewrite wrote_ext, app_nil_r.
  - destruct H as [H|[W ->]]; [discriminate|]. exists (Some (c_str name)), W. split; [exact T|]. now rewrite wrote_ext, app_nil_r.
  - discriminate.
Qed.
Lemma print_shape l r c (b : book D) : match print_strings max_row max_col l r c b with
  | Done b' => b' = ext None (rev (down_list r c (map (fun s => Text (c_str s)) l))) b | Thrown b' => exists W, b' = ext None W b | Undefined => False end.
Proof.
  unfold print_strings. rewrite text_writes. change (add_sheet b) with (ext None [] b). pose proof (writes_ok (length (sheets b)) (down_list r c (map (fun s => Text (c_str s)) l)) (ext None [] b)) as H.
  destruct (writes _ _ _); [|destruct H as (p & _ & ->); eexists; now rewrite wrote_ext|contradiction]. destruct H as [-> _]. now rewrite wrote_ext, app_nil_r.
Qed.

(** a call that makes a chart *)
Definition charted (W : list cell) (cs : list chart) (c : Z) (b : book D) : book D := Book (sheets (wrote 0 W b)) (charts b ++ cs) c.
Lemma charted_inv W cs c b : inv b -> Forall (fun w : cell => column b <= snd (fst w)) W -> column b <= c ->
  (cs = [] \/ exists ch, cs = [ch] /\ fresh (c_name ch) b) -> inv (charted W cs c b) /\ grows b (charted W cs c b).
Proof.
  intros [(s & l & E & N) Hd] Hw Hc Hcs. split; [split|].
  - unfold charted, wrote. cbn [sheets]. rewrite E. cbn [change]. eexists _, l. split; [reflexivity|exact N].
  - rewrite named_keys in *. unfold charted, wrote. cbn [sheets charts]. rewrite change_map by reflexivity. rewrite map_app, keys_app. destruct Hcs as [->|(ch & -> & Hf)]; [cbn; now rewrite app_nil_r|]. cbn [map keys flat_map]. destruct (c_name ch) as [n|]; cbn [app]; [|now rewrite app_nil_r].
    rewrite app_assoc. eapply Permutation.Permutation_NoDup; [apply Permutation.Permutation_cons_append|]. constructor; [|exact Hd]. cbn [fresh] in Hf. now rewrite named_keys in Hf.
  - constructor; unfold charted, wrote; cbn [sheets charts column]; auto.
    + intros k s' Hk H. rewrite change_other by lia. exact H.
    + intros s' H. rewrite change_same, H. cbn [option_map]. eexists. split; [reflexivity|]. split; [reflexivity|]. cbn [s_cells]. intros i j Hj. rewrite look_app. now rewrite (look_low W (column b)).
    + intros n ch H. rewrite nth_error_app1; [exact H|]. apply nth_error_Some. congruence.
Qed.
Lemma find_first b : inv b -> find_sheet key (sheets b) chart_data 0 = Some 0%nat.
Proof. intros [(s & l & E & N) _]. rewrite E. cbn [find_sheet]. rewrite N. now rewrite (proj2 (same_spec _ _) eq_refl). Qed.
Lemma chart_shape x labels vs title xt yt b : inv b -> match create_chart legal key max_row max_col x labels vs title xt yt b with
  | Done b' => legal (c_str title) = true /\ fresh (Some (c_str title)) b /\ (length vs <= length labels)%nat /\
               b' = charted (rev (cols_list (column b) (xt :: labels) (x :: vs))) [Chart (Some (c_str title)) (1, column b) (Z.of_nat (length x) + 1, column b + Z.of_nat (length vs)) (c_str title) (c_str xt) (c_str yt)] (column b + Z.of_nat (length vs) + 2) b
  | Thrown b' => exists W cs c, Forall (fun w : cell => column b <= snd (fst w)) W /\ column b <= c /\ (cs = [] \/ exists ch, cs = [ch] /\ c_name ch = None) /\ b' = charted W cs c b
  | Undefined => True end.
Proof.
  intros Hi. unfold create_chart. rewrite (find_first b Hi). cbv zeta.
  match goal with |- context [after (to_vertical _ _ _ _ _ _ _ _) (fun b1 => after (outputs _ _ _ _ _ _) ?f)] => set (fin := f) end.
  assert (E : after (to_vertical max_row max_col 0 1 (column b) xt x b) (fun b1 => after (outputs max_row max_col 0 labels vs (next_column b1)) fin) = after (outputs max_row max_col 0 (xt :: labels) (x :: vs) b) fin).
  { cbn [outputs]. now destruct (to_vertical max_row max_col 0 1 (column b) xt x b). }
  rewrite E. pose proof (outputs_ok 0 (x :: vs) (xt :: labels) b) as H. destruct (outputs max_row max_col 0 (xt :: labels) (x :: vs) b) as [b2|b2|]; cbn [after]; [| |exact Logic.I].
  - destruct H as [H1 ->]. unfold fin. cbn [sheets charts column].
    set (W := rev (cols_list (column b) (xt :: labels) (x :: vs))). assert (HW : Forall (fun w : cell => column b <= snd (fst w)) W) by (apply Forall_rev, cols_low).
    match goal with |- context [if ?t then _ else _] => destruct t end; cbn [after].
    + unfold name_chart. match goal with |- context [taken key (c_str title) ?b3] => assert (taken key (c_str title) b3 = taken key (c_str title) b) as -> end.
      { unfold taken, names. cbn [sheets charts]. rewrite change_map by reflexivity. rewrite map_app, !existsb_app. cbn. now rewrite orb_false_r. }
      destruct (legal (c_str title)) eqn:L; cbn [andb]; [destruct (taken key (c_str title) b) eqn:T; cbn [negb]|]; cbn [after].
      * exists W. eexists [_], _. split; [exact HW|]. split; [|split; [|unfold charted, wrote; cbn [sheets charts]; reflexivity]]; [cbn [length]; lia|right; eexists; split; reflexivity].
      * apply taken_false in T. split; [reflexivity|]. split; [exact T|]. split; [cbn in H1; lia|]. unfold next_column, charted, wrote. cbn [sheets charts column]. rewrite change_app. cbn [c_begin c_end c_title c_x c_y]. f_equal. cbn [length]. lia.
      * exists W. eexists [_], _. split; [exact HW|]. split; [|split; [|unfold charted, wrote; cbn [sheets charts]; reflexivity]]; [cbn [length]; lia|right; eexists; split; reflexivity].
    + exists W, []. eexists. split; [exact HW|]. split; [|split; [now left|unfold charted, wrote; cbn [sheets charts]; rewrite app_nil_r; reflexivity]]; cbn [length]; lia.
  - destruct H as (W & c & HW & Hc & ->). exists W, [], c. split; [exact HW|]. split; [exact Hc|]. split; [now left|]. unfold charted. now rewrite app_nil_r.
Qed.

Lemma step_ok o b b' : inv b -> step legal key max_row max_col o b = Done b' \/ step legal key max_row max_col o b = Thrown b' -> inv b' /\ grows b b'.
Proof.
  intros Hi H. destruct o as [x labels vs title xt yt|m name rl cl r c|m name r c|l r c]; cbn [step] in H.
  - pose proof (chart_shape x labels vs title xt yt b Hi) as P. destruct H as [H|H]; rewrite H in P.
    + destruct P as (_ & Hf & _ & ->). apply charted_inv; auto; [apply Forall_rev, cols_low|lia|]. right. eexists. split; [reflexivity|exact Hf].
    + destruct P as (W & cs & c & HW & Hc & Hcs & ->). apply charted_inv; auto. destruct Hcs as [?|(ch & -> & N)]; [now left|right]. exists ch. split; [reflexivity|]. now rewrite N.
  - pose proof (matrix_shape m name rl cl r c b) as P. destruct H as [H|H]; rewrite H in P.
    + destruct P as (_ & Hf & _ & ->). now apply ext_inv.
    + destruct P as (o & W & Hf & ->). now apply ext_inv.
  - pose proof (plain_shape m name r c b) as P. destruct H as [H|H]; rewrite H in P.
    + destruct P as (_ & Hf & ->). now apply ext_inv.
    + destruct P as (o & W & Hf & ->). now apply ext_inv.
  - pose proof (print_shape l r c b) as P. destruct H as [H|H]; rewrite H in P.
    + subst b'. now apply ext_inv.
    + destruct P as (W & ->). now apply ext_inv.
Qed.
Lemma session_ok l : forall b b', inv b -> session legal key max_row max_col l b = Some b' -> inv b' /\ grows b b'.
Proof.
  induction l as [|o l IH]; intros b b' Hi H; cbn [session] in H.
  - injection H as <-. split; [exact Hi|apply grows_refl].
  - destruct (step legal key max_row max_col o b) as [b1|b1|] eqn:E; [| |discriminate].
    + destruct (step_ok o b b1 Hi (or_introl E)) as [H1 G1]. destruct (IH b1 b' H1 H) as [H2 G2]. split; [exact H2|eapply grows_trans; eauto].
    + destruct (step_ok o b b1 Hi (or_intror E)) as [H1 G1]. destruct (IH b1 b' H1 H) as [H2 G2]. split; [exact H2|eapply grows_trans; eauto].
Qed.
Lemma new_inv c : inv (new_driver c).
Proof. split; [now eexists _, _|]. unfold named, names, new_driver. cbn [sheets charts map app flat_map s_name]. constructor; [easy|constructor]. Qed.

Lemma nodup_front {X} (a b : list X) : NoDup (a ++ b) -> NoDup a.
Proof. induction a as [|x a IH]; cbn; intros H; [constructor|]. inversion H as [|? ? H1 H2]; subst. constructor; [|auto]. intros HI. apply H1. apply in_or_app. now left. Qed.
(** a sheet added by a call is found by its name ever after *)
Lemma ext_lasts n W b b' i j : inv b -> fresh (Some n) b -> inv b' -> grows (ext (Some n) W b) b' -> cell_of key b' n i j = look W i j.
Proof.
  intros [(s & l & E & N) Hd] Hf [_ Hd'] G. assert (Hn : nth_error (sheets b') (length (sheets b)) = Some (Sheet (Some n) W)).
  { apply (g_sheets _ _ G); [rewrite E; cbn; lia|]. unfold ext. cbn [sheets]. rewrite nth_error_app2 by lia. now rewrite Nat.sub_diag. }
  unfold cell_of. rewrite named_keys in Hd'. rewrite (find_at _ n 0 _ _ n Hn eq_refl eq_refl); [|eapply nodup_front; eauto]. cbn [Nat.add]. now rewrite Hn.
Qed.

(** what a chart shows, in any later book *)
Lemma zseq_map {X Y} (f : Z -> Y) (g : X -> Y) l : (forall n x, nth_error l n = Some x -> f (Z.of_nat n) = g x) -> map f (zseq (Z.of_nat (length l))) = map g l.
Proof.
  unfold zseq. rewrite Nat2Z.id, map_map. intros H. assert (E : forall k, (forall n x, nth_error l n = Some x -> f (Z.of_nat (k + n)) = g x) -> map (fun n => f (Z.of_nat n)) (seq k (length l)) = map g l).
  { clear H. induction l as [|x l IH]; intros k H; cbn [length seq map]; [reflexivity|]. f_equal; [specialize (H 0%nat x eq_refl); now rewrite Nat.add_0_r in H|]. apply IH. intros n y Hn. specialize (H (Datatypes.S n) y Hn). now replace (Datatypes.S k + n)%nat with (k + Datatypes.S n)%nat by lia. }
  now apply E.
Qed.
Lemma nthZ_nth {X} (l : list X) n : nthZ l (Z.of_nat n) = nth_error l n.
Proof. unfold nthZ. destruct (Z.ltb_spec (Z.of_nat n) 0); [lia|]. now rewrite Nat2Z.id. Qed.
Lemma nth_combine {X Y} (a : list X) : forall (b : list Y) n p, nth_error (combine a b) n = Some p -> nth_error a n = Some (fst p) /\ nth_error b n = Some (snd p).
Proof. induction a as [|x a IH]; intros [|y b] [|n] p H; cbn in *; try discriminate; [now injection H as <-|auto]. Qed.
Lemma cell_first b i j : inv b -> cell_of key b chart_data i j = match nth_error (sheets b) 0 with Some s => look (s_cells s) i j | None => None end.
Proof. intros H. unfold cell_of. now rewrite (find_first b H). Qed.
Lemma shown_ok (x : list D) ls vs cs c b b' ch : inv b -> inv b' -> (length vs <= length ls)%nat -> vs <> [] -> column b + Z.of_nat (length vs) <= c ->
  Forall (fun v => length v = length x) vs -> c_begin ch = (1, column b) -> c_end ch = (Z.of_nat (length x) + 1, column b + Z.of_nat (length vs) - 1) ->
  grows (charted (rev (cols_list (column b) ls vs)) cs c b) b' ->
  shown key b' ch = map (fun p => map Some (headed (fst p) (snd p))) (combine ls vs).
Proof.
  intros Hi Hi' Hl Hne Hc HF Eb Ee G. unfold shown. rewrite Eb, Ee. cbn [fst snd].
  replace (column b + Z.of_nat (length vs) - 1 - column b + 1) with (Z.of_nat (length (combine ls vs))) by (rewrite combine_length; lia).
  apply zseq_map. intros n [l v] Hn. destruct (nth_combine _ _ _ _ Hn) as [Hnl Hnv]. cbn [fst snd] in *.
  assert (Hlv : length v = length x) by (rewrite Forall_forall in HF; apply HF; eapply nth_error_In; eauto).
  replace (Z.of_nat (length x) + 1 - 1 + 1) with (Z.of_nat (length (headed l v))) by (unfold headed; cbn [length]; rewrite map_length; lia).
  apply zseq_map. intros k y Hk. rewrite cell_first by exact Hi'. destruct Hi as [(s & t & E & _) _].
  destruct (g_first _ _ G (Sheet (s_name s) (rev (cols_list (column b) ls vs) ++ s_cells s))) as (s' & -> & _ & L); [unfold charted, wrote; cbn [sheets]; now rewrite E|].
  assert ((n < length vs)%nat) by (apply nth_error_Some; congruence).
  rewrite L by (unfold charted; cbn [column]; lia). cbn [s_cells]. rewrite look_app, look_cols. replace (column b + Z.of_nat n - column b) with (Z.of_nat n) by lia. rewrite !nthZ_nth, Hnl, Hnv. replace (1 + Z.of_nat k - 1) with (Z.of_nat k) by lia. now rewrite nthZ_nth, Hk.
Qed.

(** * Calls that end *)
Definition room r0 r1 c0 c1 (l : list cell) : Prop := Forall (fun w => r0 <= fst (fst w) <= r1 /\ c0 <= snd (fst w) <= c1) l.
Lemma room_fits r0 r1 c0 c1 l : room r0 r1 c0 c1 l -> 1 <= r0 -> r1 <= max_row -> 1 <= c0 -> c1 <= max_col -> Forall (fun w => fits (fst (fst w)) (snd (fst w)) = true) l.
Proof. intros H A B C E. eapply Forall_impl; [|exact H]. intros [[r c] v]. cbn [fst snd]. intros [? ?]. rewrite !andb_true_iff, !Z.leb_le. lia. Qed.
Lemma across_room r r0 r1 c0 c1 xs : forall c, r0 <= r <= r1 -> c0 <= c -> c + Z.of_nat (length xs) - 1 <= c1 -> room r0 r1 c0 c1 (across_list r c xs).
Proof. induction xs as [|x xs IH]; intros c A B C; cbn [across_list]; [constructor|]. cbn [length] in C. constructor; [cbn; lia|]. apply IH; lia. Qed.
Lemma head_room r r0 r1 c0 c1 xs : forall c, r0 <= r <= r1 -> c0 <= c -> c + Z.of_nat (length xs) - 1 <= c1 -> room r0 r1 c0 c1 (head_list r c xs).
Proof. induction xs as [|x xs IH]; intros c A B C; cbn [head_list]; [constructor|]. cbn [length] in C. constructor; [cbn; lia|]. apply IH; lia. Qed.
Lemma down_room c r0 r1 c0 c1 xs : forall r, c0 <= c <= c1 -> r0 <= r -> r + Z.of_nat (length xs) - 1 <= r1 -> room r0 r1 c0 c1 (down_list r c xs).
Proof. induction xs as [|x xs IH]; intros r A B C; cbn [down_list]; [constructor|]. cbn [length] in C. constructor; [cbn; lia|]. apply IH; lia. Qed.
Lemma widest_cons (x : list D) m : widest (x :: m) = Z.max (Z.of_nat (length x)) (widest m).
Proof. unfold widest. cbn [map list_max fold_right]. unfold list_max. lia. Qed.
Lemma table_room r0 r1 c0 c1 c m : forall r ls, r0 <= r -> r + Z.of_nat (length m) - 1 <= r1 -> c0 <= c -> c <= c1 -> c + widest m <= c1 -> room r0 r1 c0 c1 (table_list r c m ls).
Proof.
  induction m as [|xs m IH]; intros r [|l ls] A B C E F; cbn [table_list]; try apply Forall_nil. rewrite widest_cons in F. cbn [length] in B. apply Forall_app. split; [|apply IH; lia].
  constructor; [cbn; lia|]. apply across_room; lia.
Qed.
Lemma outputs_room k (vs : list (list D)) : forall ls (b : book D), (length vs <= length ls)%nat -> 1 <= column b -> column b + Z.of_nat (length vs) - 1 <= max_col -> 1 <= max_row -> 1 + widest vs <= max_row -> exists b', outputs max_row max_col k ls vs b = Done b'.
Proof.
  induction vs as [|v vs IH]; intros ls b A B C E F; [exists b; now destruct ls|]. destruct ls as [|l ls]; [cbn in A; lia|]. cbn [outputs]. rewrite vertical_writes. rewrite widest_cons in F. cbn [length] in A, C.
  rewrite writes_all; [|eapply room_fits with (r0 := 1) (r1 := max_row) (c0 := 1) (c1 := max_col); try lia; apply down_room; [lia|lia|]; unfold headed; cbn [length]; rewrite map_length; lia].
  cbn [after]. apply IH; unfold next_column, wrote; cbn [column]; lia.
Qed.
Lemma outputs_short k (vs : list (list D)) : forall ls (b : book D), (length ls < length vs)%nat -> 1 <= column b -> column b + Z.of_nat (length vs) - 1 <= max_col -> 1 <= max_row -> 1 + widest vs <= max_row -> outputs max_row max_col k ls vs b = Undefined.
Proof.
  induction vs as [|v vs IH]; intros ls b A B C E F; [cbn in A; lia|]. destruct ls as [|l ls]; [reflexivity|]. cbn [outputs]. rewrite vertical_writes. rewrite widest_cons in F. cbn [length] in A, C.
  rewrite writes_all; [|eapply room_fits with (r0 := 1) (r1 := max_row) (c0 := 1) (c1 := max_col); try lia; apply down_room; [lia|lia|]; unfold headed; cbn [length]; rewrite map_length; lia].
  cbn [after]. apply IH; unfold next_column, wrote; cbn [column]; lia.
Qed.
End Proofs.
