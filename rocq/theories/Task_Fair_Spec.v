(** Specification vocabulary for the liveness part of C36 and C37: infinite executions under a fair scheduler. *)
From Verif Require Import Common Task_Model Task_Spec.
Local Open Scope nat_scope.

(** The threads of the program that the scheduler has to be fair to: a worker; the timer; the caller that is inside
    post_task of runner [r] and holds its mutex; the caller of post_task_with_delay that has still to hand over
    task [i]; the caller of stop() that waits for the threads. *)
Inductive thread := ThWorker (w : nat) | ThTimer | ThCaller (r : nat) | ThPoster (i : nat) | ThStopper.
(** The step from [s] to [s'] is one of thread [a] (told from what it changes). *)
Definition acts (a : thread) (s s' : state) : Prop :=
  match a with
  | ThWorker w => nth_error (workers s) w <> Some WExit /\ nth_error (workers s') w <> nth_error (workers s) w
  | ThTimer => timer s <> TExit /\ (timer s' <> timer s \/ length (delayed s') < length (delayed s))
  | ThCaller r => exists x h x', nth_error (runners s) r = Some x /\ hold x = Some h /\ holder h = AClient /\ nth_error (runners s') r = Some x' /\ hold x' = None
  | ThPoster i => (exists r t, In (r, i, t) (limbo s)) /\ forall r t, ~ In (r, i, t) (limbo s')
  | ThStopper => phase s = Stopping /\ phase s' = Stopped
  end.
Definition can_act (n : nat) (a : thread) (s : state) : Prop := exists s', step n s s' /\ acts a s s'.
(** An infinite execution (which may pause), of [n] workers. *)
Definition execution (n : nat) (f : nat -> state) : Prop := forall k, f (S k) = f k \/ step n (f k) (f (S k)).
(** The scheduler, the mutexes and the tasks are fair: at any time, every thread will act, or there is a time from
    which on it never can (it is not the case that it can act again and again and does not).  For a worker that is
    executing a task, to act is to come to the end of the task. *)
Definition fair (n : nat) (f : nat -> state) : Prop :=
  forall a k, exists j, k <= j /\ (acts a (f j) (f (S j)) \/ forall j', j <= j' -> ~ can_act n a (f j')).
(** Time passes every bound. *)
Definition time_passes (f : nat -> state) : Prop := forall z, exists k, (z <= clock (f k))%Z.
