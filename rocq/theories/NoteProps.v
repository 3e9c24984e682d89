(** C63: the notes in error messages. *)
From Coq Require Import String List Arith Bool Lia.
From Verif Require Import NoteModel NoteSpec.
From Verif Require NoteProofs.
Import ListNotations.
Local Open Scope string_scope.
(** For every program whose notes are about variables in scope: what is thrown, what handlers see and what the memory holds is
    what the scopes say, each message listing exactly the notes around the throw, outermost first, with current values;
    nothing undefined happens, and no note is left behind. *)
Theorem C63_messages p : closed p [] ->
  exists r s, run p no_vars start = (r, s) /\ meaning p [] no_vars (mem start) [] = (r, mem s, log s) /\ r <> Undefined /\ stack_of (instance s) = [].
Proof.
  intros C. assert (H := NoteProofs.run_ok p [] no_vars start C). destruct (run p no_vars start) as [r s]. exists r, s. split; [reflexivity|].
  destruct H as (E & K & N & _); [intros loc L; exfalso; apply L; reflexivity|intros x []|intros n loc []|]. split; [exact E|]. split; [exact N|exact K].
Qed.
Print Assumptions C63_messages.
(** The same in the middle of a run: whatever is done later does not depend on notes of scopes already left. *)
Theorem C63_after p q : closed p [] -> closed q [] ->
  exists r s, run (Seq (Try p Done) q) no_vars start = (r, s) /\
    (forall r1 m1 l1, meaning (Try p Done) [] no_vars (mem start) [] = (r1, m1, l1) -> r1 = Normal /\ meaning q [] no_vars m1 l1 = (r, mem s, log s)).
Proof.
  intros Cp Cq. destruct (C63_messages (Seq (Try p Done) q)) as (r & s & E & M & N & _); [cbn; auto|]. exists r, s. split; [exact E|]. intros r1 m1 l1 H. cbn [meaning] in M. cbn [meaning] in H. rewrite H in M.
  assert (R1 : r1 = Normal).
  { destruct (C63_messages (Try p Done)) as (r' & s' & _ & M' & N' & _); [cbn; auto|]. cbn [meaning] in M'. destruct (meaning p [] no_vars (mem start) []) as [[rp mp] lp]. destruct rp; injection H as <- <- <-; [reflexivity|reflexivity|]. injection M' as <- _ _. congruence. }
  subst r1. split; [reflexivity|exact M].
Qed.
Print Assumptions C63_after.
(** A note about a temporary - NOTICE of an expression rather than a variable - points to a dead object: building the message
    is undefined.  report.cpp:134 NOTICE(static_cast<int>(n_labels)), reached when a header row has the wrong size, is one. *)
Theorem C63_temporary_refuted : exists p s, run p no_vars start = (Undefined, s) /\ p = NoticeTemp "static_cast<int>(n_labels)" "3" (Fail "report.cpp" "135" "AddHeaderRow" "Wrong number (= 2 of labels").
Proof. exists (NoticeTemp "static_cast<int>(n_labels)" "3" (Fail "report.cpp" "135" "AddHeaderRow" "Wrong number (= 2 of labels")). eexists. split; reflexivity. Qed.
Print Assumptions C63_temporary_refuted.
(** An error raised with no notes around leaves an empty stack allocated for good. *)
Theorem C63_leak_refuted : exists p s, closed p [] /\ run p no_vars start = (Normal, s) /\ instance s = Some [] /\ p = Try (Fail "a.cpp" "1" "f" "oops") Done.
Proof. exists (Try (Fail "a.cpp" "1" "f" "oops") Done). eexists. split; [cbn; auto|]. split; [reflexivity|]. split; reflexivity. Qed.
Print Assumptions C63_leak_refuted.
(** Two notes, the variable changed after the second, an error caught inside the first note and one after it. *)
Example C63_case :
  let p := Local 0 "1" (Note "outer" (Seq (Try (Notice "x" 0 (Seq (Assign 0 "2") (Fail "a.cpp" "7" "f" "bad"))) Done) (Fail "a.cpp" "9" "g" "worse"))) in
  closed p [] /\ exists s, run p no_vars start = (Thrown (newline ++ "a.cpp:9: In function `g': " ++ newline ++ "worse" ++ newline ++ "outer"), s) /\
    log s = [newline ++ "a.cpp:7: In function `f': " ++ newline ++ "bad" ++ newline ++ "outer" ++ newline ++ "x = 2"] /\ instance s = None.
Proof. intros p. split; [cbn; intuition|]. eexists. split; [vm_compute; reflexivity|]. split; vm_compute; reflexivity. Qed.
