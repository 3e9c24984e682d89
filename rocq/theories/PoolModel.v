(** Model of dal/concurrency/threadpool.{hpp,cpp}: SpawnTask, ActiveWait and the worker loop.  The queue operations are atomic
    (QueueProps.v: C34); pushing and the notification that follows are separate steps.  Tasks are programs that spawn tasks and
    wait for futures; everything else they compute is left out.  Stop is not modelled. *)
From Coq Require Import List Arith Bool.
From Verif Require Import Base Vec SimModel.
Import ListNotations.

(** [Spawn c k]: SpawnTask with body [c], keeping its future, then [k]; [Wait i k]: ActiveWait on the i-th future known to the
    task (those known to the spawning task when it was spawned, then its own in the order spawned), then [k]. *)
Inductive body := End | Spawn (child rest : body) | Wait (i : nat) (rest : body).
(** a queued task: its number (in push order), the futures it knows, its body *)
Record task := Task { tnum : nat; tfuts : list nat; tbody : body }.
(** [Go]: about to do the next thing in [code] (at a [Wait]: about to test the future, threadpool.cpp:55); [Notify]: between
    queue_.push and cv_.notify_one of Push; [Pop_]: in ActiveWait, the future was not ready, about to TryPop (:55);
    [Block]: in f.wait() (:59) *)
Inductive mode := Go | Notify | Pop_ | Block.
Record frame := Frame { fnum : nat; futs : list nat; code : body; md : mode }.
(** a thread: the stack of tasks it is running (innermost first), or a worker in queue_.Pop (threadpool.cpp:19), awake or
    asleep; [w] tells workers from the thread that uses the pool, whose outermost frame is its own program *)
Inductive thread := Stack (w : bool) (fs : list frame) | Awake | Sleep.
Record state := State { next : nat; queue : list task; finished : list nat; threads : list thread }.
Definition at_ (s : state) (i : nat) (t : thread) : Prop := nth_error (threads s) i = Some t.
Definition with_thread (s : state) (i : nat) (t : thread) : state := State (next s) (queue s) (finished s) (set_nth (threads s) i t).
(** threadpool.cpp:18-21, 57: running a task pops its frame at the end; the worker goes back to Pop *)
Definition resume (w : bool) (fs : list frame) : thread := match fs with [] => if w then Awake else Stack w [] | _ => Stack w fs end.

Inductive step : state -> state -> Prop :=
(* the packaged_task returns: its future becomes ready *)
| finish i w n fu fs s : at_ s i (Stack w (Frame n fu End Go :: fs)) ->
    step s (State (next s) (queue s) (n :: finished s) (set_nth (threads s) i (resume w fs)))
(* threadpool.hpp:57-62: SpawnTask; the push *)
| spawn_ i w n fu c k fs s : at_ s i (Stack w (Frame n fu (Spawn c k) Go :: fs)) ->
    step s (State (S (next s)) (queue s ++ [Task (next s) fu c]) (finished s) (set_nth (threads s) i (Stack w (Frame n (fu ++ [next s]) k Notify :: fs))))
(* concurrentqueue.hpp:50: notify_one wakes a sleeping worker if there is one *)
| notify_wakes i j w n fu k fs s : at_ s i (Stack w (Frame n fu k Notify :: fs)) -> at_ s j Sleep ->
    step s (State (next s) (queue s) (finished s) (set_nth (set_nth (threads s) i (Stack w (Frame n fu k Go :: fs))) j Awake))
| notify_nobody i w n fu k fs s : at_ s i (Stack w (Frame n fu k Notify :: fs)) -> (forall j, ~ at_ s j Sleep) ->
    step s (with_thread s i (Stack w (Frame n fu k Go :: fs)))
(* threadpool.cpp:52-63: ActiveWait *)
| ready i w n fu f x k fs s : at_ s i (Stack w (Frame n fu (Wait f k) Go :: fs)) -> nth_error fu f = Some x -> In x (finished s) ->
    step s (with_thread s i (Stack w (Frame n fu k Go :: fs)))
| not_ready i w n fu f x k fs s : at_ s i (Stack w (Frame n fu (Wait f k) Go :: fs)) -> nth_error fu f = Some x -> ~ In x (finished s) ->
    step s (with_thread s i (Stack w (Frame n fu (Wait f k) Pop_ :: fs)))
| help i w n fu k fs t r s : at_ s i (Stack w (Frame n fu k Pop_ :: fs)) -> queue s = t :: r ->
    step s (State (next s) r (finished s) (set_nth (threads s) i (Stack w (Frame (tnum t) (tfuts t) (tbody t) Go :: Frame n fu k Go :: fs))))
| nothing_to_do i w n fu k fs s : at_ s i (Stack w (Frame n fu k Pop_ :: fs)) -> queue s = [] ->
    step s (with_thread s i (Stack w (Frame n fu k Block :: fs)))
| unblock i w n fu f x k fs s : at_ s i (Stack w (Frame n fu (Wait f k) Block :: fs)) -> nth_error fu f = Some x -> In x (finished s) ->
    step s (with_thread s i (Stack w (Frame n fu k Go :: fs)))
(* threadpool.cpp:15-22: ThreadFunc, concurrentqueue.hpp:53-62: Pop *)
| take i t r s : at_ s i Awake -> queue s = t :: r ->
    step s (State (next s) r (finished s) (set_nth (threads s) i (Stack true [Frame (tnum t) (tfuts t) (tbody t) Go])))
| sleep i s : at_ s i Awake -> queue s = [] -> step s (with_thread s i Sleep).

Inductive steps : state -> state -> Prop := done s : steps s s | more s t u : steps s t -> step t u -> steps s u.
(** threadpool.cpp:24-37: Start with n threads gives n - 1 workers; the user's program has number 0 *)
Definition start (n : nat) (program : body) : state := State 1 [] [] (Stack false [Frame 0 [] program Go] :: repeat Awake (n - 1)).
