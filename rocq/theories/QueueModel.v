(** Model of dal/concurrency/concurrentqueue.hpp: any number of threads call Push, TryPop, Pop, Empty and Interrupt in any
    interleaving.  Taking the mutex, the critical section that ends by releasing it, waiting on the condition variable and
    notifying are separate steps; the condition variable may wake a waiting thread at any time (spurious wake-up).
    ResetInterrupt and Clear (which do not lock) are only called by ThreadPool_::Stop after all workers have ended, and are
    not part of the model. *)
From Coq Require Import List Arith Bool.
From Verif Require Import Base Vec.
Import ListNotations.

Section Queue.
Context {V : Type}.
(** where a thread is; [Want..] is waiting for the mutex, [In..] holds it *)
Inductive pc :=
| Idle
| WantPush (v : V) | InPush (v : V) | NotifyOne
| WantTry | InTry
| WantEmpty | InEmpty
| WantPop | InPop | Asleep
| WantIntr | InIntr | NotifyAll.
(** what a call did, recorded when it takes effect *)
Inductive event := Pushed (v : V) | Popped (v : V) | TryFailed | PopFailed | Interrupted | SaidEmpty (b : bool).
Record state := State { queue : list V; lock : option nat; intr : bool; pcs : list pc }.
Definition at_ (s : state) (i : nat) (p : pc) : Prop := nth_error (pcs s) i = Some p.
Definition goto (s : state) (i : nat) (p : pc) : list pc := set_nth (pcs s) i p.
Definition want (p q : pc) : Prop :=
  match p, q with WantPush v, InPush w => v = w | WantTry, InTry | WantEmpty, InEmpty | WantPop, InPop | WantIntr, InIntr => True | _, _ => False end.
Definition is_want (p : pc) : Prop := match p with WantPush _ | WantTry | WantEmpty | WantPop | WantIntr => True | _ => False end.
Definition wake (p : pc) : pc := match p with Asleep => WantPop | _ => p end.

Inductive step : state -> list event -> state -> Prop :=
(* a thread calls an operation; std::lock_guard / std::unique_lock acquires the mutex *)
| call i p s : at_ s i Idle -> is_want p -> step s [] (State (queue s) (lock s) (intr s) (goto s i p))
| acquire i p q s : at_ s i p -> want p q -> lock s = None -> step s [] (State (queue s) (Some i) (intr s) (goto s i q))
(* concurrentqueue.hpp:45-51: Push *)
| push i v s : at_ s i (InPush v) -> step s [Pushed v] (State (queue s ++ [v]) None (intr s) (goto s i NotifyOne))
| notify_one i j s : at_ s i NotifyOne -> at_ s j Asleep -> step s [] (State (queue s) (lock s) (intr s) (set_nth (goto s i Idle) j WantPop))
| notify_none i s : at_ s i NotifyOne -> (forall j, ~ at_ s j Asleep) -> step s [] (State (queue s) (lock s) (intr s) (goto s i Idle))
(* concurrentqueue.hpp:36-43: TryPop *)
| try_empty i s : at_ s i InTry -> queue s = [] -> step s [TryFailed] (State (queue s) None (intr s) (goto s i Idle))
| try_pop i v r s : at_ s i InTry -> queue s = v :: r -> step s [Popped v] (State r None (intr s) (goto s i Idle))
(* concurrentqueue.hpp:31-34: Empty *)
| is_empty i s : at_ s i InEmpty -> step s [SaidEmpty (match queue s with [] => true | _ => false end)] (State (queue s) None (intr s) (goto s i Idle))
(* concurrentqueue.hpp:53-62: Pop *)
| pop_wait i s : at_ s i InPop -> intr s = false -> queue s = [] -> step s [] (State (queue s) None (intr s) (goto s i Asleep))
| pop_interrupted i s : at_ s i InPop -> intr s = true -> step s [PopFailed] (State (queue s) None (intr s) (goto s i Idle))
| pop i v r s : at_ s i InPop -> intr s = false -> queue s = v :: r -> step s [Popped v] (State r None (intr s) (goto s i Idle))
| spurious i s : at_ s i Asleep -> step s [] (State (queue s) (lock s) (intr s) (goto s i WantPop))
(* concurrentqueue.hpp:64-70: Interrupt *)
| interrupt i s : at_ s i InIntr -> step s [Interrupted] (State (queue s) None true (goto s i NotifyAll))
| notify_all i s : at_ s i NotifyAll -> step s [] (State (queue s) (lock s) (intr s) (map wake (goto s i Idle))).

Inductive steps : state -> list event -> state -> Prop :=
| done s : steps s [] s
| more s t u (e1 e2 : list event) : steps s e1 t -> step t e2 u -> steps s (e1 ++ e2) u.
Definition start (threads : nat) : state := State [] None false (repeat Idle threads).
End Queue.
Arguments pc : clear implicits.
Arguments event : clear implicits.
Arguments state : clear implicits.
