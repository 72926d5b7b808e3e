(** Model of fly::task::TaskManager, SequencedTaskRunner and ParallelTaskRunner (fly/task/task_manager.cpp,
    task_runner.cpp) with any number of client threads, runners and worker threads.  Steps of the threads
    interleave arbitrarily.  Granularity: the operations of m_tasks are single steps (justified by
    Concurrent_Props.histories_linearizable); maybe_post_task, which runs under the runner's mutex, is two
    steps, up to and including its push to the manager, and the rest; the timer's loop over the delayed
    tasks, which runs under m_delayed_tasks_mutex, is one step per element and call.
    Simplifications: tasks and runners are numbers (one per call of a post function); what a task does,
    including posting other tasks (post_task_with_reply among them), is covered by the client steps, which
    may happen at any time; start() and stop() are not called concurrently with each other (that is a data
    race on m_futures in the code); the time points of delayed tasks do not overflow; exceptions thrown by
    tasks are not modelled. *)
From Verif Require Import Common Concurrent_Model. (* Concurrent_Model: only [upd] *)

Inductive runner_kind := Sequenced | Parallel.
Inductive actor := AClient | AWorker (w : nat) | ATimer.
(** A runner's mutex is held: by whom, the value still to be stored in m_has_running_task, and the task still
    to be added to m_pending_tasks. *)
Record held := Held { holder : actor; new_flag : option bool; queue_up : option nat }.
(** task_runner.hpp: SequencedTaskRunner (a ParallelTaskRunner has no state).  [expired]: no strong
    reference to the runner is left. *)
Record runner := Runner { kind_of : runner_kind; pending : list nat; has_running : bool; hold : option held; expired : bool }.

(** Worker thread, task_manager.cpp:117-134; entries of m_tasks are pairs of runner and task. *)
Inductive worker_pc :=
| WLoop (* line 121 *)
| WPop (* line 123, m_tasks.pop(task_holder, s_delay) *)
| WGot (e : nat * nat) (* line 123, m_keep_running.load() *)
| WLock (e : nat * nat) (* line 125 *)
| WRun (e : nat * nat) (* task_runner.cpp:48, the task is executing *)
| WDone (r : nat) (* task_runner.cpp:49, task_complete *)
| WHold (r : nat) (* in maybe_post_task, holding the runner's mutex *)
| WExit.
(** Timer thread, task_manager.cpp:137-168.  From [TScan] on it holds m_delayed_tasks_mutex. *)
Inductive timer_pc :=
| TLoop (* line 139 *)
| TNow (* line 141 *)
| TLock (now : Z) (* line 143 *)
| TScan (now : Z) (i : nat) (* line 145: at element i *)
| TPosting (r : nat) (now : Z) (i : nat) (* line 154, holding the runner's mutex *)
| TSleep (* line 166 *)
| TExit.
Inductive manager_phase := Running | Stopping | Stopped.

Record state := State {
  runners : list runner;
  tasks : list (nat * nat); (* m_tasks *)
  delayed : list (nat * nat * Z); (* m_delayed_tasks: runner, task, m_schedule *)
  limbo : list (nat * nat * Z); (* delayed tasks whose poster has still to lock m_delayed_tasks_mutex *)
  keep : bool; (* m_keep_running *)
  mexpired : bool; (* no strong reference to the manager is left *)
  phase : manager_phase; (* where start() and stop() are *)
  workers : list worker_pc;
  timer : timer_pc;
  clock : Z; (* std::chrono::steady_clock *)
  (* ghost state: what can be observed *)
  next : nat; (* number of the next task *)
  ever_stopped : bool; (* stop() has been called *)
  accepted : list (nat * nat); (* posts that return true, in the order of their effects *)
  started : list (nat * nat * Z); (* tasks whose execution began, and when *)
  finished : list (nat * nat); (* tasks whose execution ended *)
  deadlines : list (nat * Z * Z); (* delayed posts: task, time of the call, delay *)
  delay_log : list (nat * nat) (* delayed posts that were taken: runner, task *) }.

Definition with_runners (s : state) (x : list runner) : state :=
  State x (tasks s) (delayed s) (limbo s) (keep s) (mexpired s) (phase s) (workers s) (timer s) (clock s) (next s) (ever_stopped s) (accepted s) (started s) (finished s) (deadlines s) (delay_log s).
Definition with_tasks (s : state) (x : list (nat * nat)) : state :=
  State (runners s) x (delayed s) (limbo s) (keep s) (mexpired s) (phase s) (workers s) (timer s) (clock s) (next s) (ever_stopped s) (accepted s) (started s) (finished s) (deadlines s) (delay_log s).
Definition with_delayed (s : state) (x y : list (nat * nat * Z)) : state :=
  State (runners s) (tasks s) x y (keep s) (mexpired s) (phase s) (workers s) (timer s) (clock s) (next s) (ever_stopped s) (accepted s) (started s) (finished s) (deadlines s) (delay_log s).
Definition with_workers (s : state) (x : list worker_pc) : state :=
  State (runners s) (tasks s) (delayed s) (limbo s) (keep s) (mexpired s) (phase s) x (timer s) (clock s) (next s) (ever_stopped s) (accepted s) (started s) (finished s) (deadlines s) (delay_log s).
Definition with_timer (s : state) (x : timer_pc) : state :=
  State (runners s) (tasks s) (delayed s) (limbo s) (keep s) (mexpired s) (phase s) (workers s) x (clock s) (next s) (ever_stopped s) (accepted s) (started s) (finished s) (deadlines s) (delay_log s).
Definition with_clock (s : state) (x : Z) : state :=
  State (runners s) (tasks s) (delayed s) (limbo s) (keep s) (mexpired s) (phase s) (workers s) (timer s) x (next s) (ever_stopped s) (accepted s) (started s) (finished s) (deadlines s) (delay_log s).
Definition with_next (s : state) (x : nat) : state :=
  State (runners s) (tasks s) (delayed s) (limbo s) (keep s) (mexpired s) (phase s) (workers s) (timer s) (clock s) x (ever_stopped s) (accepted s) (started s) (finished s) (deadlines s) (delay_log s).
Definition with_accepted (s : state) (x : list (nat * nat)) : state :=
  State (runners s) (tasks s) (delayed s) (limbo s) (keep s) (mexpired s) (phase s) (workers s) (timer s) (clock s) (next s) (ever_stopped s) x (started s) (finished s) (deadlines s) (delay_log s).
Definition with_started (s : state) (x : list (nat * nat * Z)) : state :=
  State (runners s) (tasks s) (delayed s) (limbo s) (keep s) (mexpired s) (phase s) (workers s) (timer s) (clock s) (next s) (ever_stopped s) (accepted s) x (finished s) (deadlines s) (delay_log s).
Definition with_finished (s : state) (x : list (nat * nat)) : state :=
  State (runners s) (tasks s) (delayed s) (limbo s) (keep s) (mexpired s) (phase s) (workers s) (timer s) (clock s) (next s) (ever_stopped s) (accepted s) (started s) x (deadlines s) (delay_log s).
Definition with_deadlines (s : state) (x : list (nat * Z * Z)) : state :=
  State (runners s) (tasks s) (delayed s) (limbo s) (keep s) (mexpired s) (phase s) (workers s) (timer s) (clock s) (next s) (ever_stopped s) (accepted s) (started s) (finished s) x (delay_log s).
Definition with_delay_log (s : state) (x : list (nat * nat)) : state :=
  State (runners s) (tasks s) (delayed s) (limbo s) (keep s) (mexpired s) (phase s) (workers s) (timer s) (clock s) (next s) (ever_stopped s) (accepted s) (started s) (finished s) (deadlines s) x.
(** keep, phase, expiry of the manager, stop() called *)
Definition with_control (s : state) (k : bool) (p : manager_phase) (e : bool) (st : bool) : state :=
  State (runners s) (tasks s) (delayed s) (limbo s) k e p (workers s) (timer s) (clock s) (next s) st (accepted s) (started s) (finished s) (deadlines s) (delay_log s).
Definition with_runner (s : state) (r : nat) (x : runner) : state := with_runners s (upd (runners s) r x).
Definition with_worker (s : state) (w : nat) (p : worker_pc) : state := with_workers s (upd (workers s) w p).

(** task_runner.cpp:14-23 post_task_to_task_manager, task_manager.cpp:85-97 post_task *)
Definition post_to_manager (s : state) (r i : nat) : state :=
  if mexpired s then s else with_accepted (with_tasks s (tasks s ++ [(r, i)])) (accepted s ++ [(r, i)]).

(** task_runner.cpp:122-155 maybe_post_task up to the push to the manager.  [task]: None is nullptr.  A task
    taken from m_pending_tasks was accepted when it was put there. *)
Definition begin_post (s : state) (r : nat) (x : runner) (who : actor) (task : option nat) : state :=
  let hold_with pend flag rest := Runner (kind_of x) pend (has_running x) (Some (Held who flag rest)) (expired x) in
  if (match task with None => true | Some _ => false end) || negb (has_running x) then
    match pending x with
    | p :: q =>
        let s' := with_runner s r (hold_with q (Some (negb (mexpired s))) task) in
        if mexpired s then s' else with_tasks s' (tasks s' ++ [(r, p)])
    | [] =>
        match task with
        | Some i => post_to_manager (with_runner s r (hold_with [] (Some (negb (mexpired s))) None)) r i
        | None => with_runner s r (hold_with [] (Some false) None)
        end
    end
  else with_runner s r (hold_with (pending x) None task).
(** The rest of maybe_post_task: m_has_running_task, m_pending_tasks.push, unlock. *)
Definition end_post (s : state) (r : nat) (x : runner) (h : held) : state :=
  let flag := match new_flag h with Some b => b | None => has_running x end in
  match queue_up h with
  | Some i => with_accepted (with_runner s r (Runner (kind_of x) (pending x ++ [i]) flag None (expired x))) (accepted s ++ [(r, i)])
  | None => with_runner s r (Runner (kind_of x) (pending x) flag None (expired x))
  end.

Fixpoint remove_nth {A} (i : nat) (l : list A) : list A :=
  match i, l with
  | _, [] => []
  | O, _ :: r => r
  | S i', x :: r => x :: remove_nth i' r
  end.
Definition timer_holds (t : timer_pc) : bool := match t with TScan _ _ | TPosting _ _ _ => true | _ => false end.
(** A worker that has a strong reference to runner [r]. *)
Definition refers (r : nat) (p : worker_pc) : bool :=
  match p with WRun (r', _) => (r' =? r)%nat | WDone r' | WHold r' => (r' =? r)%nat | _ => false end.

Section Steps.
Variable thread_count : nat. (* m_thread_count *)
Inductive step (s : state) : state -> Prop :=
(* Clients: task_runner.hpp post_task, task_runner.cpp:76-79 and 110-113 post_task_internal *)
| c_post_parallel r x : nth_error (runners s) r = Some x -> kind_of x = Parallel -> expired x = false ->
    step s (post_to_manager (with_next s (S (next s))) r (next s))
| c_post_sequenced r x : nth_error (runners s) r = Some x -> kind_of x = Sequenced -> expired x = false -> hold x = None ->
    step s (begin_post (with_next s (S (next s))) r x AClient (Some (next s)))
| c_post_end r x h : nth_error (runners s) r = Some x -> hold x = Some h -> holder h = AClient ->
    step s (end_post s r x h)
(* post_task_with_delay, task_runner.cpp:26-43, task_manager.cpp:100-114 *)
| c_delay r x d : nth_error (runners s) r = Some x -> expired x = false -> mexpired s = false ->
    step s (with_delay_log (with_deadlines (with_delayed (with_next s (S (next s))) (delayed s) (limbo s ++ [(r, next s, clock s + d)])) (deadlines s ++ [(next s, clock s, d)])) (delay_log s ++ [(r, next s)]))
| c_delay_push i e : nth_error (limbo s) i = Some e -> timer_holds (timer s) = false ->
    step s (with_delayed s (delayed s ++ [e]) (remove_nth i (limbo s)))
(* Worker threads *)
| w_loop w : nth_error (workers s) w = Some WLoop ->
    step s (with_worker s w (if keep s then WPop else WExit))
| w_pop w e q : nth_error (workers s) w = Some WPop -> tasks s = e :: q ->
    step s (with_worker (with_tasks s q) w (WGot e))
| w_pop_nothing w : nth_error (workers s) w = Some WPop -> tasks s = [] ->
    step s (with_worker s w WLoop)
| w_check w e : nth_error (workers s) w = Some (WGot e) ->
    step s (with_worker s w (if keep s then WLock e else WLoop))
| w_start w r i x : nth_error (workers s) w = Some (WLock (r, i)) -> nth_error (runners s) r = Some x -> expired x = false ->
    step s (with_started (with_worker s w (WRun (r, i))) (started s ++ [(r, i, clock s)]))
| w_expired w r i x : nth_error (workers s) w = Some (WLock (r, i)) -> nth_error (runners s) r = Some x -> expired x = true ->
    step s (with_worker s w WLoop)
| w_finish w r i : nth_error (workers s) w = Some (WRun (r, i)) ->
    step s (with_finished (with_worker s w (WDone r)) (finished s ++ [(r, i)]))
(* task_complete, task_runner.cpp:82-84 and 116-119 *)
| w_complete_parallel w r x : nth_error (workers s) w = Some (WDone r) -> nth_error (runners s) r = Some x -> kind_of x = Parallel ->
    step s (with_worker s w WLoop)
| w_complete_sequenced w r x : nth_error (workers s) w = Some (WDone r) -> nth_error (runners s) r = Some x -> kind_of x = Sequenced -> hold x = None ->
    step s (begin_post (with_worker s w (WHold r)) r x (AWorker w) None)
| w_complete_end w r x h : nth_error (workers s) w = Some (WHold r) -> nth_error (runners s) r = Some x -> hold x = Some h -> holder h = AWorker w ->
    step s (end_post (with_worker s w WLoop) r x h)
(* Timer thread *)
| t_loop : timer s = TLoop -> step s (with_timer s (if keep s then TNow else TExit))
| t_now : timer s = TNow -> step s (with_timer s (TLock (clock s)))
| t_lock now : timer s = TLock now -> step s (with_timer s (TScan now 0))
| t_next now i r k t : timer s = TScan now i -> nth_error (delayed s) i = Some (r, k, t) -> now < t ->
    step s (with_timer s (TScan now (S i)))
| t_expired now i r k t x : timer s = TScan now i -> nth_error (delayed s) i = Some (r, k, t) -> t <= now ->
    nth_error (runners s) r = Some x -> expired x = true ->
    step s (with_delayed s (remove_nth i (delayed s)) (limbo s))
| t_post_parallel now i r k t x : timer s = TScan now i -> nth_error (delayed s) i = Some (r, k, t) -> t <= now ->
    nth_error (runners s) r = Some x -> expired x = false -> kind_of x = Parallel ->
    step s (post_to_manager (with_delayed s (remove_nth i (delayed s)) (limbo s)) r k)
| t_post_sequenced now i r k t x : timer s = TScan now i -> nth_error (delayed s) i = Some (r, k, t) -> t <= now ->
    nth_error (runners s) r = Some x -> expired x = false -> kind_of x = Sequenced -> hold x = None ->
    step s (begin_post (with_timer (with_delayed s (remove_nth i (delayed s)) (limbo s)) (TPosting r now i)) r x ATimer (Some k))
| t_post_end now i r x h : timer s = TPosting r now i -> nth_error (runners s) r = Some x -> hold x = Some h -> holder h = ATimer ->
    step s (end_post (with_timer s (TScan now i)) r x h)
| t_end now i : timer s = TScan now i -> (length (delayed s) <= i)%nat -> step s (with_timer s TSleep)
| t_sleep : timer s = TSleep -> step s (with_timer s TLoop)
(* start() and stop(), task_manager.cpp:40-82 *)
| k_stop : phase s = Running -> step s (with_control s false Stopping (mexpired s) true)
| k_stopped : phase s = Stopping -> Forall (eq WExit) (workers s) -> timer s = TExit ->
    step s (with_control s (keep s) Stopped (mexpired s) (ever_stopped s))
| k_start : phase s = Stopped -> mexpired s = false ->
    step s (with_control (with_timer (with_workers s (repeat WLoop thread_count)) TLoop) true Running false (ever_stopped s))
(* The last reference to the manager (the threads started by start() have references) or a runner goes. *)
| k_expire : phase s = Stopped -> limbo s = [] -> step s (with_control s (keep s) Stopped true (ever_stopped s))
| r_expire r x : nth_error (runners s) r = Some x -> hold x = None -> forallb (fun p => negb (refers r p)) (workers s) = true ->
    step s (with_runner s r (Runner (kind_of x) (pending x) (has_running x) None true))
(* Time passes. *)
| tick d : 0 <= d -> step s (with_clock s (clock s + d)).

(** After TaskManager::create and the creation of the runners. *)
Definition initial (kinds : list runner_kind) : state :=
  State (map (fun k => Runner k [] false None false) kinds) [] [] [] true false Running (repeat WLoop thread_count) TLoop 0 0 false [] [] [] [] [].
Inductive reaches (kinds : list runner_kind) : state -> Prop :=
| r_initial : reaches kinds (initial kinds)
| r_step s s' : reaches kinds s -> step s s' -> reaches kinds s'.
End Steps.
