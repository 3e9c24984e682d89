(** Proofs about matrix storage. *)
From Coq Require Import List Arith Bool Lia.
From Verif Require Import Base Vec MatrixModel MatrixSpec.
Import ListNotations.

Lemma index_inj c i j k l : j < c -> l < c -> i * c + j = k * c + l -> i = k /\ j = l.
Proof.
  intros Hj Hl E. assert (i = k) as -> by (destruct (Nat.lt_trichotomy i k) as [H|[H|H]]; [exfalso; nia|exact H|exfalso; nia]). lia.
Qed.
Lemma index_lt r c i j : i < r -> j < c -> i * c + j < r * c.
Proof. nia. Qed.
Section P.
Context {A : Type}.
Variable d : A.
Notation mat := (mat A).
Implicit Types m src dst above below : mat.
Definition wf (m : mat) : Prop := length (vals m) = (rows m + 1) * cols m /\ forall i, i < rows m -> nth_error (hooks m) i = Some (Some (blk m), i * cols m).

Lemma rows_set_hook f (m : mat) : f <= rows m \/ True -> length (firstn f (hooks m) ++ hooks_from (blk m) (cols m) f (length (hooks m))) = rows m.
Proof. intros _. rewrite app_length, firstn_length. unfold hooks_from. rewrite map_length, seq_length. unfold rows. lia. Qed.
Lemma wf_set_hook f (m : mat) : length (vals m) = (rows m + 1) * cols m -> (forall i, i < f -> i < rows m -> nth_error (hooks m) i = Some (Some (blk m), i * cols m)) ->
  wf (set_hook f m) /\ rows (set_hook f m) = rows m.
Proof.
  intros Hl Hh. assert (rows (set_hook f m) = rows m) as Hr by (unfold rows at 1, set_hook; cbn [hooks]; apply rows_set_hook; auto). split; [|exact Hr]. unfold wf. rewrite Hr. cbn [set_hook vals cols hooks blk]. split; [exact Hl|]. intros i Hi. unfold rows in *.
  destruct (le_lt_dec f i) as [H|H].
  - rewrite nth_error_app2 by (rewrite firstn_length; lia). rewrite firstn_length. replace (Nat.min f (length (hooks m))) with f by lia. unfold hooks_from. rewrite (map_nth_error (fun i => (Some (blk m), i * cols m)) _ _ (d := i)); [reflexivity|]. rewrite (nth_error_nth' _ 0) by (rewrite seq_length; lia). rewrite seq_nth by lia. f_equal. lia.
  - rewrite nth_error_app1 by (rewrite firstn_length; lia). rewrite <- (Hh i H Hi). clear -H. revert i H. generalize (hooks m). induction f as [|f IH]; intros l i H; [lia|]. destruct l; [now rewrite firstn_nil|]. destruct i; [reflexivity|]. cbn. apply IH. lia.
Qed.
Lemma hook_ok m i : wf m -> i < rows m -> hook m i = Ok (i * cols m).
Proof. intros [_ H] Hi. unfold hook, get. rewrite (H i Hi). cbn. now rewrite Nat.eqb_refl. Qed.
Lemma hook_ub m i : rows m <= i -> hook m i = UB.
Proof. intros H. unfold hook. rewrite get_ub by exact H. reflexivity. Qed.
Lemma at_ok m i j : wf m -> i < rows m -> j < cols m -> at_ m i j = Ok (nth (i * cols m + j) (vals m) d).
Proof. intros W Hi Hj. unfold at_. rewrite hook_ok by assumption. cbn [obind]. apply get_ok. destruct W as [-> _]. nia. Qed.
Lemma wf_new r c (v : A) : wf (new_mat r c v) /\ rows (new_mat r c v) = r /\ cols (new_mat r c v) = c.
Proof.
  unfold new_mat. destruct (wf_set_hook 0 (Mat 0 (repeat v ((r + 1) * c)) c (repeat (None, 0) r))) as [W R].
  - cbn [vals cols]. unfold rows. cbn [hooks]. now rewrite !repeat_length.
  - intros; lia.
  - split; [exact W|]. split; [rewrite R; unfold rows; cbn; apply repeat_length|reflexivity].
Qed.
Lemma new_at r c (v : A) i j : i < r -> j < c -> at_ (new_mat r c v) i j = Ok v.
Proof.
  intros Hi Hj. destruct (wf_new r c v) as (W & R & C). rewrite at_ok by (rewrite ?R, ?C; auto). rewrite C. f_equal. cbn [new_mat set_hook vals]. assert (i * c + j < (r + 1) * c) by nia. rewrite (nth_indep _ d v) by now rewrite repeat_length. apply nth_repeat.
Qed.
Lemma wf_none : wf no_matrix. Proof. split; [reflexivity|]. unfold rows. cbn. intros; lia. Qed.

(** runs *)
Lemma read_run_ok (v : list A) step n : forall pos, (n = 0 \/ pos + (n - 1) * step < length v) -> exists xs, read_run v pos step n = Ok xs /\ length xs = n /\ forall k, k < n -> nth k xs d = nth (pos + k * step) v d.
Proof.
  induction n as [|n IH]; intros pos H; [exists []; repeat split; intros; lia|]. cbn [read_run]. rewrite (get_ok v pos d) by nia. cbn [obind]. destruct (IH (pos + step)) as (xs & E & L & N); [destruct n; [left; reflexivity|right; nia]|].
  rewrite E. cbn [obind]. eexists. split; [reflexivity|]. split; [cbn; lia|]. intros [|k] Hk; [cbn; f_equal; lia|]. cbn [nth]. rewrite N by lia. f_equal. lia.
Qed.
Lemma write_run_ok step xs : forall (v : list A) pos, 0 < step \/ length xs <= 1 -> (length xs = 0 \/ pos + (length xs - 1) * step < length v) ->
  exists v', write_run v pos step xs = Ok v' /\ length v' = length v /\ (forall k, k < length xs -> nth (pos + k * step) v' d = nth k xs d) /\ (forall j, (forall k, k < length xs -> j <> pos + k * step) -> nth j v' d = nth j v d).
Proof.
  induction xs as [|x xs IH]; intros v pos Hs H; [exists v; cbn; repeat split; intros; lia|]. cbn [write_run length] in *. rewrite put_ok by nia. cbn [obind].
  destruct (IH (set_nth v pos x) (pos + step)) as (v' & E & L & N & O); [destruct Hs; [left; assumption|right; lia]|rewrite set_nth_length; destruct xs; [left; reflexivity|right; cbn [length] in *; nia]|].
  exists v'. rewrite E. split; [reflexivity|]. split; [now rewrite L, set_nth_length|]. split.
  - intros [|k] Hk; [|cbn [nth]; rewrite <- N by lia; f_equal; lia]. cbn [nth]. rewrite Nat.add_0_r. rewrite O; [apply nth_set_same; nia|]. intros k Hk'. destruct Hs; nia.
  - intros j Hj. rewrite O; [apply nth_set_other; [nia|]; specialize (Hj 0 ltac:(lia)); lia|]. intros k Hk E'. apply (Hj (S k) ltac:(lia)). lia.
Qed.

(** the entries of a well-formed matrix *)
Definition ent (m : mat) (i j : nat) : A := nth (i * cols m + j) (vals m) d.
Lemma ent_at m i j : wf m -> i < rows m -> j < cols m -> at_ m i j = Ok (ent m i j).
Proof. apply at_ok. Qed.
Lemma row_ok m i : wf m -> i < rows m -> exists xs, row m i = Ok xs /\ length xs = cols m /\ forall j, j < cols m -> nth j xs d = ent m i j.
Proof.
  intros W Hi. unfold row. rewrite hook_ok by assumption. cbn [obind]. destruct (read_run_ok (vals m) 1 (cols m) (i * cols m)) as (xs & E & L & N); [destruct W as [-> _]; destruct (cols m) eqn:E; [left; reflexivity|right; nia]|].
  exists xs. split; [exact E|]. split; [exact L|]. intros j Hj. rewrite N by exact Hj. unfold ent. f_equal. lia.
Qed.
Lemma col_ok m j : wf m -> 0 < rows m -> j < cols m -> exists xs, col m j = Ok xs /\ length xs = rows m /\ forall i, i < rows m -> nth i xs d = ent m i j.
Proof.
  intros W Hr Hj. unfold col. rewrite hook_ok by assumption. cbn [obind]. rewrite Nat.mul_0_l. cbn [Nat.add]. destruct (read_run_ok (vals m) (cols m) (rows m) j) as (xs & E & L & N); [right; destruct W as [-> _]; nia|].
  exists xs. split; [exact E|]. split; [exact L|]. intros i Hi. rewrite N by exact Hi. unfold ent. f_equal. lia.
Qed.
Lemma wf_vals m v : wf m -> length v = length (vals m) -> wf (Mat (blk m) v (cols m) (hooks m)).
Proof. intros [W1 W2] L. split; [cbn [vals cols]; unfold rows in *; cbn [hooks]; congruence|exact W2]. Qed.
Lemma set_row_ok m i xs : wf m -> i < rows m -> length xs = cols m -> exists m', set_row m i xs = Ok m' /\ wf m' /\ rows m' = rows m /\ cols m' = cols m /\
  forall k l, k < rows m -> l < cols m -> ent m' k l = if k =? i then nth l xs d else ent m k l.
Proof.
  intros W Hi L. unfold set_row. rewrite hook_ok by assumption. cbn [obind]. rewrite L, Nat.eqb_refl. destruct (write_run_ok 1 xs (vals m) (i * cols m)) as (v & E & Lv & N & O); [left; lia|destruct W as [-> _]; rewrite L; destruct (cols m) eqn:Ec; [left; reflexivity|right; nia]|].
  rewrite E. cbn [obind]. eexists. split; [reflexivity|]. split; [now apply wf_vals|]. split; [reflexivity|]. split; [reflexivity|]. intros k l Hk Hl. unfold ent. cbn [vals cols]. destruct (Nat.eqb_spec k i) as [->|Hne].
  - rewrite <- N by lia. f_equal. lia.
  - apply O. intros k' Hk' E'. destruct (index_inj (cols m) k l i (k' * 1)) as [? _]; [lia|lia|lia|congruence].
Qed.
Lemma set_col_ok m j xs : wf m -> 0 < rows m -> j < cols m -> length xs = rows m -> exists m', set_col m j xs = Ok m' /\ wf m' /\ rows m' = rows m /\ cols m' = cols m /\
  forall k l, k < rows m -> l < cols m -> ent m' k l = if l =? j then nth k xs d else ent m k l.
Proof.
  intros W Hr Hj L. unfold set_col. rewrite hook_ok by assumption. cbn [obind]. unfold rows in L. rewrite L, Nat.eqb_refl. rewrite Nat.mul_0_l. cbn [Nat.add]. fold (rows m) in L. destruct (write_run_ok (cols m) xs (vals m) j) as (v & E & Lv & N & O); [left; lia|right; destruct W as [-> _]; rewrite L; nia|].
  rewrite E. cbn [obind]. eexists. split; [reflexivity|]. split; [now apply wf_vals|]. split; [reflexivity|]. split; [reflexivity|]. intros k l Hk Hl. unfold ent. cbn [vals cols]. destruct (Nat.eqb_spec l j) as [->|Hne].
  - rewrite <- N by lia. f_equal. lia.
  - apply O. intros k' Hk' E'. destruct (index_inj (cols m) k l k' j) as [_ ?]; [lia|lia|lia|congruence].
Qed.
Lemma put_at_ok m i j x : wf m -> i < rows m -> j < cols m -> exists m', put_at m i j x = Ok m' /\ wf m' /\ rows m' = rows m /\ cols m' = cols m /\
  forall k l, k < rows m -> l < cols m -> ent m' k l = if (k =? i) && (l =? j) then x else ent m k l.
Proof.
  intros W Hi Hj. unfold put_at. rewrite hook_ok by assumption. cbn [obind]. assert (i * cols m + j < length (vals m)) as Hlt by (destruct W as [-> _]; nia). rewrite put_ok by exact Hlt. cbn [obind]. eexists. split; [reflexivity|]. split; [apply wf_vals; [exact W|apply set_nth_length]|]. split; [reflexivity|]. split; [reflexivity|].
  intros k l Hk Hl. unfold ent. cbn [vals cols]. rewrite nth_set_nth by exact Hlt. destruct (Nat.eqb_spec k i) as [->|], (Nat.eqb_spec l j) as [->|]; cbn [andb]; [now rewrite Nat.eqb_refl| | |]; (destruct (Nat.eqb_spec (k * cols m + l) (i * cols m + j)) as [E|]; [apply index_inj in E; [|lia|lia]; lia|reflexivity]) || (destruct (Nat.eqb_spec (i * cols m + l) (i * cols m + j)) as [E|]; [lia|reflexivity]) || (destruct (Nat.eqb_spec (k * cols m + j) (i * cols m + j)) as [E|]; [apply index_inj in E; [|lia|lia]; lia|reflexivity]).
Qed.

(** resize *)
Lemma vresize_length {B} (b : B) v n : length (vresize b v n) = n.
Proof. unfold vresize. rewrite app_length, firstn_length, repeat_length. lia. Qed.
Lemma nth_error_firstn_lt {B} (l : list B) n i : i < n -> nth_error (firstn n l) i = nth_error l i.
Proof. revert l i; induction n as [|n IH]; intros l i H; [lia|]. destruct l; [reflexivity|]. destruct i; [reflexivity|]. cbn. apply IH. lia. Qed.
Lemma vresize_error {B} (b : B) v n i : i < n -> i < length v -> nth_error (vresize b v n) i = nth_error v i.
Proof. intros H1 H2. unfold vresize. rewrite nth_error_app1 by (rewrite firstn_length; lia). now apply nth_error_firstn_lt. Qed.
Lemma vresize_nth v n i : i < n -> i < length v -> nth i (vresize d v n) d = nth i v d.
Proof. intros H1 H2. pose proof (vresize_error d v n i H1 H2) as E. rewrite !nth_error_nth' with (d := d) in E; [now injection E| exact H2|now rewrite vresize_length]. Qed.
Lemma copy_rows_ok m c r : wf m -> forall n ir nv, length nv = (r + 1) * c -> ir + n <= rows m -> ir + n <= r ->
  exists v, copy_rows m c (Nat.min c (cols m)) ir n nv = Ok v /\ length v = (r + 1) * c /\
    (forall i j, ir <= i < ir + n -> j < c -> j < cols m -> nth (i * c + j) v d = ent m i j) /\
    (forall i j, i < ir \/ ir + n <= i \/ cols m <= j -> j < c -> nth (i * c + j) v d = nth (i * c + j) nv d).
Proof.
  intros W n; induction n as [|n IH]; intros ir nv L Hm Hr; [exists nv; cbn; repeat split; intros; try lia; assumption|]. cbn [copy_rows]. rewrite hook_ok by (assumption || lia). cbn [obind].
  destruct (read_run_ok (vals m) 1 (Nat.min c (cols m)) (ir * cols m)) as (xs & Ex & Lx & Nx). { destruct (Nat.min c (cols m)) eqn:Em; [left; reflexivity|right; destruct W as [-> _]; nia]. }
  rewrite Ex. cbn [obind]. destruct (write_run_ok 1 xs nv (ir * c)) as (v & Ev & Lv & Nv & Ov); [left; lia|rewrite L, Lx; destruct (Nat.min c (cols m)) eqn:Em; [left; reflexivity|right; nia]|]. rewrite Ev. cbn [obind].
  destruct (IH (S ir) v) as (w & Ew & Lw & Nw & Ow); [congruence|lia|lia|]. exists w. split; [exact Ew|]. split; [exact Lw|]. split.
  - intros i j Hi Hj Hj'. destruct (Nat.eq_dec i ir) as [->|]; [|apply Nw; lia]. rewrite Ow by lia. replace (ir * c + j) with (ir * c + j * 1) by lia. rewrite Nv by lia. rewrite Nx by lia. unfold ent. f_equal. lia.
  - intros i j Hi Hj. rewrite Ow by lia. apply Ov. intros k Hk E. rewrite Lx in Hk. destruct (index_inj c i j ir (k * 1)); lia.
Qed.
Lemma resize_ok moved m r c : wf m -> exists m', resize d moved m r c = Ok m' /\ wf m' /\ rows m' = r /\ cols m' = c /\
  (forall i j, i < r -> j < c -> i < rows m -> j < cols m -> ent m' i j = ent m i j) /\
  (c <> cols m -> forall i j, i < r -> j < c -> rows m <= i \/ cols m <= j -> ent m' i j = d) /\
  (c = cols m -> forall i j, i < r -> j < c -> rows m < i -> ent m' i j = d).
Proof.
  intros W. unfold resize. destruct (Nat.eqb_spec c (cols m)) as [->|Hc]; [destruct (Nat.ltb_spec 0 (r * length (hooks m))) as [H|H]|]; cbn [andb].
  - set (m1 := Mat _ _ _ _). assert (0 < r) as Hr by nia. assert (0 < rows m) as Hr0 by (unfold rows; nia). assert (rows m1 = r) as R1 by (unfold rows; cbn [m1 hooks]; apply vresize_length).
    assert (forall i, i < r -> i < rows m -> nth_error (hooks m1) i = Some (Some (blk m), i * cols m)) as Hh by (intros i Hi Hi'; cbn [m1 hooks]; rewrite vresize_error by assumption; now apply W).
    assert (length (vals m1) = (rows m1 + 1) * cols m1) as L1 by (rewrite R1; cbn [m1 vals cols]; apply vresize_length).
    unfold get. rewrite (Hh 0 Hr Hr0). cbn [obind Nat.mul]. set (from := if blk m =? blk m1 then _ else 0).
    destruct (wf_set_hook from m1 L1) as [W1 R].
    { intros i Hi Hi'. unfold from in Hi. destruct (Nat.eqb_spec (blk m) (blk m1)) as [Eb|]; [|lia]. rewrite <- Eb. apply Hh; [lia|exact Hi]. }
    eexists. split; [reflexivity|]. split; [exact W1|]. split; [congruence|]. split; [reflexivity|]. destruct W as [W0 _]. split; [|split].
    + intros i j Hi Hj Hi' _. unfold ent. cbn [set_hook vals cols m1]. apply vresize_nth; [nia|rewrite W0; nia].
    + congruence.
    + intros _ i j Hi Hj Hi'. unfold ent. cbn [set_hook vals cols m1]. unfold vresize. rewrite app_nth2 by (rewrite firstn_length; nia). set (k := _ - _). destruct (nth_in_or_default k (repeat d ((r + 1) * cols m - length (vals m))) d) as [Hin| ->]; [now apply repeat_spec in Hin|reflexivity].
  - (* no rows before or after *)
    destruct (copy_rows_ok m (cols m) r W (Nat.min r (rows m)) 0 (repeat d ((r + 1) * cols m))) as (v & E & L & N & O); [apply repeat_length|lia|lia|]. fold (rows m). rewrite E. cbn [obind]. eexists. split; [reflexivity|].
    set (m1 := Mat _ _ _ _). assert (rows m1 = r) as R1 by (unfold rows; cbn [m1 hooks]; apply vresize_length). destruct (wf_set_hook 0 m1) as [W1 R]; [rewrite R1; exact L|intros; lia|].
    split; [exact W1|]. split; [congruence|]. split; [reflexivity|]. split; [|split; [congruence|]].
    + intros i j Hi Hj Hi' Hj'. unfold ent at 1. cbn [set_hook vals cols m1]. apply N; lia.
    + intros _ i j Hi Hj Hi'. unfold ent. cbn [set_hook vals cols m1]. rewrite O by lia. apply nth_repeat.
  - destruct (copy_rows_ok m c r W (Nat.min r (rows m)) 0 (repeat d ((r + 1) * c))) as (v & E & L & N & O); [apply repeat_length|lia|lia|]. fold (rows m). rewrite E. cbn [obind]. eexists. split; [reflexivity|].
    set (m1 := Mat _ _ _ _). assert (rows m1 = r) as R1 by (unfold rows; cbn [m1 hooks]; apply vresize_length). destruct (wf_set_hook 0 m1) as [W1 R]; [rewrite R1; exact L|intros; lia|].
    split; [exact W1|]. split; [congruence|]. split; [reflexivity|]. split; [|split; [|congruence]].
    + intros i j Hi Hj Hi' Hj'. unfold ent at 1. cbn [set_hook vals cols m1]. apply N; lia.
    + intros _ i j Hi Hj Hi'. unfold ent. cbn [set_hook vals cols m1]. rewrite O by lia. apply nth_repeat.
Qed.
Lemma copy_ok m : wf m -> wf (copy_of m) /\ rows (copy_of m) = rows m /\ cols (copy_of m) = cols m /\ forall i j, ent (copy_of m) i j = ent m i j.
Proof.
  intros [W _]. unfold copy_of. set (m1 := Mat _ _ _ _). assert (rows m1 = rows m) as R1 by (unfold rows; cbn [m1 hooks]; apply repeat_length). destruct (wf_set_hook 0 m1) as [W1 R]; [rewrite R1; exact W|intros; lia|]. split; [exact W1|]. split; [congruence|]. split; reflexivity.
Qed.

(** transpose *)
Lemma transpose_loop_ok src : wf src -> 0 < cols src -> forall n dst ir, wf dst -> rows dst = cols src -> cols dst = rows src -> ir + n <= rows src ->
  exists m, transpose_loop src dst ir n = Ok m /\ wf m /\ rows m = cols src /\ cols m = rows src /\ forall k l, k < cols src -> l < rows src -> ent m k l = if (ir <=? l) && (l <? ir + n) then ent src l k else ent dst k l.
Proof.
  intros W Hc n; induction n as [|n IH]; intros dst ir Wd Rd Cd Hn.
  - exists dst. cbn [transpose_loop]. repeat (split; [assumption||reflexivity|]). intros k l Hk Hl. destruct (Nat.leb_spec ir l), (Nat.ltb_spec l (ir + 0)); cbn; try reflexivity; lia.
  - cbn [transpose_loop]. destruct (row_ok src ir W ltac:(lia)) as (xs & E & L & N). rewrite E. cbn [obind]. destruct (set_col_ok dst ir xs Wd ltac:(lia) ltac:(lia) ltac:(lia)) as (dst' & E' & W' & R' & C' & N'). rewrite E'. cbn [obind].
    destruct (IH dst' (S ir) W' ltac:(congruence) ltac:(congruence) ltac:(lia)) as (m & Em & Wm & Rm & Cm & Nm). exists m. split; [exact Em|]. split; [exact Wm|]. split; [exact Rm|]. split; [exact Cm|]. intros k l Hk Hl. rewrite Nm by assumption.
    rewrite N' by lia. destruct (Nat.leb_spec (S ir) l), (Nat.ltb_spec l (S ir + n)), (Nat.leb_spec ir l), (Nat.ltb_spec l (ir + S n)), (Nat.eqb_spec l ir); cbn [andb]; subst; try lia; try reflexivity. apply N; lia.
Qed.
Lemma transpose_ok m : wf m -> 0 < cols m -> exists t, make_transpose d m = Ok t /\ wf t /\ rows t = cols m /\ cols t = rows m /\ forall i j, i < rows m -> j < cols m -> ent t j i = ent m i j.
Proof.
  intros W Hc. destruct (wf_new (cols m) (rows m) d) as (Wn & Rn & Cn). destruct (transpose_loop_ok m W Hc (rows m) (new_mat (cols m) (rows m) d) 0 Wn Rn Cn ltac:(lia)) as (t & E & Wt & Rt & Ct & N). exists t. repeat (split; [assumption|]). intros i j Hi Hj. rewrite N by assumption.
  destruct (Nat.leb_spec 0 i), (Nat.ltb_spec i (0 + rows m)); cbn [andb]; try lia. reflexivity.
Qed.
(** append *)
Lemma append_loop_ok below : wf below -> forall n above off ir, wf above -> cols above = cols below -> ir + n = rows below -> rows above = off + rows below ->
  exists m, append_loop above below off ir n = Ok m /\ wf m /\ rows m = rows above /\ cols m = cols above /\ forall k l, k < rows above -> l < cols above -> ent m k l = if off + ir <=? k then ent below (k - off) l else ent above k l.
Proof.
  intros W n; induction n as [|n IH]; intros above off ir Wa Ca Hn Ra.
  - exists above. cbn [append_loop]. repeat (split; [assumption||reflexivity|]). intros k l Hk Hl. destruct (Nat.leb_spec (off + ir) k); [lia|reflexivity].
  - cbn [append_loop]. destruct (row_ok below ir W ltac:(lia)) as (xs & E & L & N). rewrite E. cbn [obind]. destruct (set_row_ok above (ir + off) xs Wa ltac:(lia) ltac:(lia)) as (a' & E' & W' & R' & C' & N'). rewrite E'. cbn [obind].
    destruct (IH a' off (S ir) W' ltac:(lia) ltac:(lia) ltac:(lia)) as (m & Em & Wm & Rm & Cm & Nm). exists m. split; [exact Em|]. split; [exact Wm|]. split; [lia|]. split; [lia|]. intros k l Hk Hl. rewrite Nm by lia. rewrite N' by lia.
    destruct (Nat.leb_spec (off + S ir) k), (Nat.leb_spec (off + ir) k), (Nat.eqb_spec k (ir + off)); try lia; try reflexivity. subst k. rewrite N by lia. f_equal. lia.
Qed.
(** vectors *)
Lemma to_rows_ok m : wf m -> forall n ii, ii + n <= rows m -> exists vv, to_loop m false ii n = Ok vv /\ length vv = n /\ forall i, i < n -> length (nth i vv []) = cols m /\ forall j, j < cols m -> nth j (nth i vv []) d = ent m (ii + i) j.
Proof.
  intros W n; induction n as [|n IH]; intros ii Hn; [exists []; repeat split; intros; lia|]. cbn [to_loop]. destruct (row_ok m ii W ltac:(lia)) as (xs & E & L & N). rewrite E. cbn [obind]. destruct (IH (S ii) ltac:(lia)) as (vv & Ev & Lv & Nv). rewrite Ev. cbn [obind]. exists (xs :: vv). split; [reflexivity|]. split; [cbn; lia|].
  intros [|i] Hi; cbn [nth]; [rewrite Nat.add_0_r; auto|]. rewrite <- Nat.add_succ_comm. apply Nv. lia.
Qed.
Lemma to_cols_ok m : wf m -> 0 < rows m -> forall n ii, ii + n <= cols m -> exists vv, to_loop m true ii n = Ok vv /\ length vv = n /\ forall i, i < n -> length (nth i vv []) = rows m /\ forall j, j < rows m -> nth j (nth i vv []) d = ent m j (ii + i).
Proof.
  intros W Hr n; induction n as [|n IH]; intros ii Hn; [exists []; repeat split; intros; lia|]. cbn [to_loop]. destruct (col_ok m ii W Hr ltac:(lia)) as (xs & E & L & N). rewrite E. cbn [obind]. destruct (IH (S ii) ltac:(lia)) as (vv & Ev & Lv & Nv). rewrite Ev. cbn [obind]. exists (xs :: vv). split; [reflexivity|]. split; [cbn; lia|].
  intros [|i] Hi; cbn [nth]; [rewrite Nat.add_0_r; auto|]. rewrite <- Nat.add_succ_comm. apply Nv. lia.
Qed.
(** a list of rows, each no longer than the matrix is wide *)
Lemma from_rows_ok quiet ragged size2 : forall vv m ii, wf m -> cols m = size2 -> rows m = ii + length vv -> (forall v, In v vv -> length v <= size2) -> (quiet || ragged = true \/ forall v, In v vv -> length v = size2) ->
  exists m', from_loop vv false quiet ragged size2 ii m = Ok m' /\ wf m' /\ rows m' = rows m /\ cols m' = size2 /\
    forall i j, i < rows m -> j < size2 -> ent m' i j = if (ii <=? i) && (j <? length (nth (i - ii) vv [])) then nth j (nth (i - ii) vv []) d else ent m i j.
Proof.
  induction vv as [|v vv IH]; intros m ii W C R Hle Hq.
  - exists m. cbn [from_loop]. repeat (split; [assumption||reflexivity|]). intros i j Hi Hj. cbn in R. destruct (Nat.leb_spec ii i); [lia|reflexivity].
  - cbn [from_loop]. cbn [length] in R. assert (quiet || ragged || (length v =? size2) = true) as -> by (destruct Hq as [->|H]; [reflexivity|rewrite (H v) by (left; reflexivity); rewrite Nat.eqb_refl; apply orb_true_r]).
    rewrite hook_ok by (assumption || lia). cbn [obind]. pose proof (Hle v (or_introl eq_refl)) as Hv. destruct (write_run_ok 1 v (vals m) (ii * cols m)) as (w & Ew & Lw & Nw & Ow); [left; lia|destruct W as [-> _]; destruct (length v) eqn:El; [left; reflexivity|right; nia]|]. rewrite Ew. cbn [obind].
    set (m1 := Mat (blk m) w (cols m) (hooks m)). assert (wf m1) as W1 by now apply wf_vals. destruct (IH m1 (S ii) W1 C ltac:(unfold rows in *; cbn [m1 hooks]; lia)) as (m' & E & W' & R' & C' & N); [intros x Hx; apply Hle; now right|destruct Hq as [Q|Q]; [now left|right; intros x Hx; apply Q; now right]|].
    exists m'. split; [exact E|]. split; [exact W'|]. split; [exact R'|]. split; [exact C'|]. intros i j Hi Hj. rewrite N by assumption. destruct (Nat.leb_spec (S ii) i) as [H|H].
    + replace (i - ii) with (S (i - S ii)) by lia. cbn [nth]. destruct (Nat.leb_spec ii i); [|lia]. cbn [andb]. destruct (Nat.ltb j _); [reflexivity|]. unfold ent. cbn [m1 vals cols]. apply Ow. intros k Hk E'. destruct (index_inj (cols m) i j ii (k * 1)); lia.
    + cbn [andb]. destruct (Nat.leb_spec ii i) as [H'|H']; cbn [andb].
      * assert (i = ii) as -> by lia. rewrite Nat.sub_diag. cbn [nth]. destruct (Nat.ltb_spec j (length v)) as [Hjl|Hjl]; unfold ent; cbn [m1 vals cols].
        -- rewrite <- Nw by exact Hjl. f_equal. lia.
        -- apply Ow. intros k Hk E'. lia.
      * unfold ent. cbn [m1 vals cols]. apply Ow. intros k Hk E'. destruct (index_inj (cols m) i j ii (k * 1)); lia.
Qed.
Lemma from_cols_ok quiet ragged size2 : 0 < size2 -> forall vv m ii, wf m -> rows m = size2 -> cols m = ii + length vv -> (forall v, In v vv -> length v <= size2) -> (quiet || ragged = true \/ forall v, In v vv -> length v = size2) ->
  exists m', from_loop vv true quiet ragged size2 ii m = Ok m' /\ wf m' /\ rows m' = size2 /\ cols m' = cols m /\
    forall i j, i < cols m -> j < size2 -> ent m' j i = if (ii <=? i) && (j <? length (nth (i - ii) vv [])) then nth j (nth (i - ii) vv []) d else ent m j i.
Proof.
  intros Hs. induction vv as [|v vv IH]; intros m ii W R C Hle Hq.
  - exists m. cbn [from_loop]. repeat (split; [assumption||reflexivity|]). intros i j Hi Hj. cbn in C. destruct (Nat.leb_spec ii i); [lia|reflexivity].
  - cbn [from_loop]. cbn [length] in C. assert (quiet || ragged || (length v =? size2) = true) as -> by (destruct Hq as [->|H]; [reflexivity|rewrite (H v) by (left; reflexivity); rewrite Nat.eqb_refl; apply orb_true_r]).
    rewrite hook_ok by (assumption || lia). cbn [obind]. rewrite Nat.mul_0_l. cbn [Nat.add]. pose proof (Hle v (or_introl eq_refl)) as Hv. destruct (write_run_ok (cols m) v (vals m) ii) as (w & Ew & Lw & Nw & Ow); [left; lia|destruct W as [-> _]; destruct (length v) eqn:El; [left; reflexivity|right; nia]|]. rewrite Ew. cbn [obind].
    set (m1 := Mat (blk m) w (cols m) (hooks m)). assert (wf m1) as W1 by now apply wf_vals. destruct (IH m1 (S ii) W1 R ltac:(cbn [m1 cols]; lia)) as (m' & E & W' & R' & C' & N); [intros x Hx; apply Hle; now right|destruct Hq as [Q|Q]; [now left|right; intros x Hx; apply Q; now right]|].
    exists m'. split; [exact E|]. split; [exact W'|]. split; [exact R'|]. split; [exact C'|]. intros i j Hi Hj. rewrite N by assumption. destruct (Nat.leb_spec (S ii) i) as [H|H].
    + replace (i - ii) with (S (i - S ii)) by lia. cbn [nth]. destruct (Nat.leb_spec ii i); [|lia]. cbn [andb]. destruct (Nat.ltb j _); [reflexivity|]. unfold ent. cbn [m1 vals cols]. apply Ow. intros k Hk E'. destruct (index_inj (cols m) j i k ii); lia.
    + cbn [andb]. destruct (Nat.leb_spec ii i) as [H'|H']; cbn [andb].
      * assert (i = ii) as -> by lia. rewrite Nat.sub_diag. cbn [nth]. destruct (Nat.ltb_spec j (length v)) as [Hjl|Hjl]; unfold ent; cbn [m1 vals cols].
        -- rewrite <- Nw by exact Hjl. f_equal. lia.
        -- apply Ow. intros k Hk E'. destruct (index_inj (cols m) j ii k ii); lia.
      * unfold ent. cbn [m1 vals cols]. apply Ow. intros k Hk E'. destruct (index_inj (cols m) j i k ii); lia.
Qed.
Lemma list_max_ge (l : list nat) x : In x l -> x <= list_max l.
Proof. intros H. pose proof (proj1 (list_max_le l (list_max l)) (Nat.le_refl _)) as F. rewrite Forall_forall in F. auto. Qed.
Lemma apply_ok op m : wf m -> 0 < rows m -> exists m', apply d op m = Ok m' /\ wf m' /\ rows m' = rows m /\ cols m' = cols m /\ forall i j, i < rows m -> j < cols m -> ent m' i j = op (ent m i j).
Proof.
  intros W Hr. unfold apply. rewrite hook_ok by assumption. cbn [obind]. set (last := if is_empty m then 0 else rows m - 1). assert (last < rows m) as Hl by (unfold last; destruct (is_empty m); lia). rewrite hook_ok by assumption. cbn [obind]. rewrite Nat.mul_0_l, Nat.sub_0_r.
  assert (last * cols m + cols m = rows m * cols m) as ->. { unfold last, is_empty. destruct W as [W _]. destruct (Nat.eqb_spec (length (vals m) - cols m) 0) as [E|E]; [|nia]. destruct (cols m) eqn:Ec; nia. }
  destruct (wf_new (rows m) (cols m) d) as (Wn & Rn & Cn). destruct (read_run_ok (vals m) 1 (rows m * cols m) 0) as (xs & Ex & Lx & Nx); [destruct W as [-> _]; destruct (cols m); [left; nia|right; nia]|]. rewrite Ex. cbn [obind]. rewrite hook_ok by (rewrite ?Rn; assumption). cbn [obind]. rewrite Nat.mul_0_l.
  assert (length (vals (new_mat (rows m) (cols m) d)) = (rows m + 1) * cols m) as Ln by (destruct Wn as [-> _]; congruence).
  destruct (write_run_ok 1 (map op xs) (vals (new_mat (rows m) (cols m) d)) 0) as (w & Ew & Lw & Nw & Ow); [left; lia|rewrite map_length, Lx, Ln; destruct (cols m); [left; nia|right; nia]|]. rewrite Ew. cbn [obind]. eexists. split; [reflexivity|]. split; [apply wf_vals; [exact Wn|congruence]|]. split; [exact Rn|]. split; [exact Cn|].
  intros i j Hi Hj. unfold ent. cbn [vals cols]. rewrite Cn. specialize (Nw (i * cols m + j)). rewrite map_length, Lx in Nw. specialize (Nw ltac:(nia)). replace (0 + (i * cols m + j) * 1) with (i * cols m + j) in Nw by lia. rewrite Nw. rewrite (nth_indep _ d (op d)) by (rewrite map_length, Lx; nia). rewrite map_nth. f_equal. rewrite Nx by nia. f_equal. lia.
Qed.
End P.
