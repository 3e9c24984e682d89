(** Property C44: laying tables out with Matrix::Format. *)
From Coq Require Import Ascii String List Arith ZArith Bool Lia.
From Verif Require Import Base Vec StringModel MatrixModel MatrixSpec MatrixProofs MatrixProps FormatModel FormatSpec FormatProofs FormatParseProofs.
Import ListNotations.
Open Scope nat_scope.

Section Props.
Context {A : Type}.
Variable d : A.
Variable args : list (mat A).
Hypothesis args_made : forall m, In m args -> made d m.
(** Whatever the tables and the format, the result has the size the layout says and every cell of it is the one the layout
    says; places nobody wrote are empty cells. *)
Theorem C44_format s w : parse_format s = Ok w -> 0 < trows (layout d args w) * tcols (layout d args w) ->
  exists m, format d args s = Ok m /\
    holds m (trows (layout d args w)) (tcols (layout d args w)) (fun i j => match tcell (layout d args w) i j with Some x => x | None => d end).
Proof.
  intros Hp H. unfold format. rewrite Hp. cbn [obind]. destruct (format_writer_ok d args (fun m Hm => made_wf d m (args_made m Hm)) w H) as (m & E & W & R & C & N). exists m. split; [exact E|]. now repeat split.
Qed.
(** An empty layout is refused. *)
Theorem C44_nothing s w : parse_format s = Ok w -> trows (layout d args w) * tcols (layout d args w) = 0 -> format d args s = Throw.
Proof using. intros Hp H. unfold format. rewrite Hp. cbn [obind]. now apply format_writer_empty. Qed.
(** No format that can be read leads to a write outside the output. *)
Theorem C44_inside s : format d args s = UB -> parse_format s = UB.
Proof.
  unfold format. destruct (parse_format s) as [w| | |] eqn:Hp; cbn [obind]; try discriminate; [|reflexivity]. intros H. exfalso. destruct (Nat.eq_dec (trows (layout d args w) * tcols (layout d args w)) 0) as [H0|H0].
  - rewrite format_writer_empty in H by exact H0. discriminate.
  - destruct (format_writer_ok d args (fun m Hm => made_wf d m (args_made m Hm)) w ltac:(lia)) as (m & E & _). congruence.
Qed.
End Props.
Print Assumptions C44_nothing.
Print Assumptions C44_inside.
(** Reading a format always ends. *)
Theorem C44_parse_ends s : parse_format s <> OutOfFuel.
Proof. apply new_writer_total. lia. Qed.
Print Assumptions C44_parse_ends.
(** Every layout of up to nine tables can be written down and is read back as it is, with or without parentheses around. *)
Theorem C44_text w : writable w -> parse_format (text w) = Ok w /\ parse_format (wrap (text w)) = Ok w.
Proof.
  intros Hw. split; [apply parse_text; [exact Hw|lia]|]. unfold parse_format. rewrite new_writer_wrap by exact Hw. apply parse_text; [exact Hw|]. rewrite wrap_length. lia.
Qed.
(** ... t and i may be lower case *)
Theorem C44_lower_case w : writable w -> parse_format (wrap (text w) ++ lit "t") = Ok (WTransposed w) /\ parse_format (wrap (text w) ++ lit "i") = Ok (WInverted w).
Proof.
  intros Hw. pose proof (bal_text w Hw) as Hb. unfold parse_format. rewrite !app_length, wrap_length. set (f := length (text w) + 2 + _).
  assert (new_writer f (wrap (text w)) = Ok w) as E by (rewrite new_writer_wrap by exact Hw; apply parse_text; [exact Hw|unfold f; lia]). clearbody f.
  change (lit "t") with ["t"%char]. change (lit "i") with ["i"%char]. split; cbn [new_writer]; rewrite strip_keep by (assumption || discriminate); cbv zeta; rewrite !split_suffix by (assumption || discriminate); rewrite last_last, removelast_last, E; unfold wrap at 1; reflexivity.
Qed.
Print Assumptions C44_lower_case.
(** Refutation: an empty part, as in "1," or "()", is not refused: back() of an empty string is undefined behaviour. *)
Theorem C44_empty_part_refuted : parse_format (lit "1,") = UB /\ parse_format (lit "()") = UB /\ parse_format [] = UB.
Proof. repeat split. Qed.
Print Assumptions C44_empty_part_refuted.

(** Without parentheses: transposition first, then side by side, then one below the other. *)
Example precedence : parse_format (lit "1,2t;3") = Ok (WVertical false [WHorizontal false [WArg 0; WTransposed (WArg 1)]; WArg 2]). Proof. reflexivity. Qed.
(** Two tables, the second transposed, at the bottom of a strip, and both flattened below it at the right. *)
Definition t12 : mat nat := match from_vectors 0 [[1; 2]; [3; 4]; [5; 6]] false true false with Ok m => m | _ => no_matrix end.
Definition t7 : mat nat := match from_vectors 0 [[7]; [8]] false true false with Ok m => m | _ => no_matrix end.
Example tables_made : forall m, In m [t12; t7] -> made 0 m.
Proof. intros m [<-|[<-|[]]]; [apply (made_from 0 [[1; 2]; [3; 4]; [5; 6]] false)|apply (made_from 0 [[7]; [8]] false)]; try reflexivity; intros v w Hv Hw; cbn in Hv, Hw; intuition subst; reflexivity. Qed.
Example placed : obind (format 0 [t12; t7] (lit "1.2T:2*")) (fun m => to_vectors m false) = Ok [[1; 2; 0; 0]; [3; 4; 0; 0]; [5; 6; 7; 8]; [0; 0; 7; 8]]. Proof. reflexivity. Qed.
Example turned : obind (format 0 [t12; t7] (lit "(1i;2)t")) (fun m => to_vectors m false) = Ok [[6; 4; 2; 7; 8]; [5; 3; 1; 0; 0]]. Proof. reflexivity. Qed.
Example w0 : writer := WVertical true [WHorizontal false [WArg 0; WTransposed (WArg 1)]; WInverted (WLinear WEmpty); WArg 8].
Example w0_writable : writable w0. Proof. cbn. intuition lia. Qed.
Print Assumptions C44_format.
Print Assumptions C44_text.
