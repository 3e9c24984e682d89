(** The discipline under which waiting is safe, and the states in which nothing is left to do. *)
From Coq Require Import List Arith.
From Verif Require Import PoolModel.
Import ListNotations.
(** [own inherited known b]: the body waits only for futures of tasks it spawned itself ([inherited] futures come from the
    spawning task, [known] in all), and so do the tasks it spawns. *)
Fixpoint own (inherited known : nat) (b : body) : Prop :=
  match b with
  | End => True
  | Spawn c k => own known known c /\ own inherited (S known) k
  | Wait i k => inherited <= i < known /\ own inherited known k
  end.
(** all futures named exist, but may belong to other tasks *)
Fixpoint known (n : nat) (b : body) : Prop :=
  match b with End => True | Spawn c k => known n c /\ known (S n) k | Wait i k => i < n /\ known n k end.
(** nothing runs any more: the user's program has ended, the workers sleep, and every task ever spawned has finished - or the
    pool has no worker and the program did not wait for some tasks *)
Definition complete (s : state) : Prop :=
  (forall i t, at_ s i t -> t = Stack false [] \/ t = Sleep) /\
  ((queue s = [] /\ forall x, x < next s -> In x (finished s)) \/ (forall i t, at_ s i t -> t = Stack false [])).
