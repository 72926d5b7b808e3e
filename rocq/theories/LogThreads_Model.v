(** Model of one fly::logger::Logger (fly/logger/logger.cpp) called by any number of threads, with an arbitrary sink (fly/logger/sink.hpp), with a
    sequenced task runner ([async] = true) or without one.  Every access to shared memory is one step; m_index, which is not atomic, is read and
    written in two.  The calls of the sink are steps at their begin and at their end.
    Simplifications: a message is a number; the sequenced task runner is the queue of posted tasks and one agent that executes them one after the
    other in the order posted (Task_Props: sequenced_one_at_a_time, sequenced_in_order), for as long as the task manager is neither stopped nor
    destroyed; tasks hold a weak pointer to the logger, which is locked when the task starts (Reply_Model); a thread that calls the logger owns it
    or uses it as the default logger that somebody owns, so it is destroyed between calls only. *)
From Verif Require Import Common.

(** A call of Logger::log: the thread, the level (a std::uint8_t, fly/logger/log.hpp), the message. *)
Record call := Call { who : nat; level : Z; message : nat }.
(** Who executes code of the logger: a thread that called it, or the task runner. *)
Inductive agent := Client (t : nat) | Worker.
Definition agent_eqb (a b : agent) : bool :=
  match a, b with Client t, Client u => (t =? u)%nat | Worker, Worker => true | _, _ => false end.
(** Where it is. *)
Inductive pc :=
| Outside
| Passed (c : call) (* logger.cpp:178-181 or 189: the check of m_last_task_failed is passed *)
| Counted (c : call) (i : Z) (* logger.cpp:214, log.m_index = m_index++: read ... *)
| Ready (c : call) (i : Z) (* ... and written *)
| Sinking (c : call) (i : Z) (* logger.cpp:218, in m_sink->stream() *)
| Leaving (c : call) (accepted : bool). (* logger.cpp:219, m_last_task_failed.store(!accepted) *)
Inductive event :=
| ECall (c : call) (* Logger::log is called ... *)
| EReturn (c : call) (* ... and returns *)
| EDiscard (c : call) (* logger.cpp:180 *)
| EPost (c : call) (* logger.cpp:196 *)
| ERefuse (c : call) (* logger.cpp:196: post_task returned false, which nobody looks at *)
| ESkip (c : call) (* the task ran after the logger was destroyed, or after a failure (189) *)
| EBegin (c : call) (i : Z) (* the sink is given the record number [i] *)
| EEnd (c : call) (i : Z) (accepted : bool) (* the sink returns *)
| EDestroy (* ~Logger *)
| EStop. (* the task manager stops *)
Record state := State {
  failed : bool; (* m_last_task_failed *)
  index : Z; (* m_index *)
  queue : list call; (* tasks posted, not yet started *)
  at_ : agent -> pc;
  alive : bool;
  running : bool; (* the task manager *)
  hist : list event }.
Definition move (s : state) (a : agent) (p : pc) : agent -> pc := fun b => if agent_eqb b a then p else at_ s b.

(** logger.cpp:178 *)
Definition rejects (s : state) (c : call) : bool := failed s || (level c <? 0) || (4 <=? level c).
(** Code after the checks is executed by the task runner, or by the calling thread if there is none (logger.cpp:185-201). *)
Definition executes (async : bool) (a : agent) : Prop := match a with Worker => async = true | Client _ => async = false end.

Inductive step (async : bool) (s : state) : state -> Prop :=
| s_discard c : (* logger.cpp:176-181 *)
    alive s = true -> at_ s (Client (who c)) = Outside -> rejects s c = true ->
    step async s (State (failed s) (index s) (queue s) (at_ s) (alive s) (running s) (hist s ++ [ECall c; EDiscard c; EReturn c]))
| s_call c :
    alive s = true -> at_ s (Client (who c)) = Outside -> rejects s c = false ->
    step async s (State (failed s) (index s) (queue s) (move s (Client (who c)) (Passed c)) (alive s) (running s) (hist s ++ [ECall c]))
| s_post c t : (* logger.cpp:185-197 *)
    async = true -> at_ s (Client t) = Passed c -> running s = true ->
    step async s (State (failed s) (index s) (queue s ++ [c]) (move s (Client t) Outside) (alive s) (running s) (hist s ++ [EPost c; EReturn c]))
| s_refuse c t :
    async = true -> at_ s (Client t) = Passed c -> running s = false ->
    step async s (State (failed s) (index s) (queue s) (move s (Client t) Outside) (alive s) (running s) (hist s ++ [ERefuse c; EReturn c]))
| s_skip c q : (* task_runner.hpp wrap_task and logger.cpp:187-193 *)
    async = true -> running s = true -> at_ s Worker = Outside -> queue s = c :: q -> alive s = false \/ failed s = true ->
    step async s (State (failed s) (index s) q (at_ s) (alive s) (running s) (hist s ++ [ESkip c]))
| s_start c q :
    async = true -> running s = true -> at_ s Worker = Outside -> queue s = c :: q -> alive s = true -> failed s = false ->
    step async s (State (failed s) (index s) q (move s Worker (Passed c)) (alive s) (running s) (hist s))
(* log_to_sink, logger.cpp:205-220 *)
| s_load a c :
    executes async a -> at_ s a = Passed c ->
    step async s (State (failed s) (index s) (queue s) (move s a (Counted c (index s))) (alive s) (running s) (hist s))
| s_store a c i :
    at_ s a = Counted c i ->
    step async s (State (failed s) (u64 (i + 1)) (queue s) (move s a (Ready c i)) (alive s) (running s) (hist s))
| s_begin a c i :
    at_ s a = Ready c i ->
    step async s (State (failed s) (index s) (queue s) (move s a (Sinking c i)) (alive s) (running s) (hist s ++ [EBegin c i]))
| s_end a c i b :
    at_ s a = Sinking c i ->
    step async s (State (failed s) (index s) (queue s) (move s a (Leaving c b)) (alive s) (running s) (hist s ++ [EEnd c i b]))
| s_leave a c b :
    at_ s a = Leaving c b ->
    step async s (State (negb b) (index s) (queue s) (move s a Outside) (alive s) (running s)
                        (hist s ++ match a with Client _ => [EReturn c] | Worker => [] end))
| s_destroy : (* ~Logger, logger.cpp:86-89; a task that executes owns the logger *)
    alive s = true -> (forall a, at_ s a = Outside) ->
    step async s (State (failed s) (index s) (queue s) (at_ s) false (running s) (hist s ++ [EDestroy]))
| s_stop : step async s (State (failed s) (index s) (queue s) (at_ s) (alive s) false (hist s ++ [EStop])).

(** logger.cpp:164-173: the sink was initialized *)
Definition initial : state := State false 0 [] (fun _ => Outside) true true [].
Inductive reaches (async : bool) : state -> Prop :=
| reaches_initial : reaches async initial
| reaches_step s s' : reaches async s -> step async s s' -> reaches async s'.
