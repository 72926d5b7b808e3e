(** Model of fly::ConcurrentQueue and fly::ConcurrentStack
    (fly/types/concurrency/detail/concurrent_container.hpp, concurrent_queue.hpp, concurrent_stack.hpp)
    shared by any number of threads.  Each access to shared state (the mutex, the container, the
    condition variable) is one step of one thread; steps of different threads interleave arbitrarily.
    The mutex makes its critical sections data-race free (Concurrent_Props.mutual_exclusion), so
    sequential consistency is all the C++ memory model allows for.  Items are integers.
    Not modelled: exceptions of the item type's move operations, destruction of the container. *)
From Verif Require Import Common.

Inductive kind := Queue | Stack.
(** concurrent_queue.hpp:26-29, concurrent_stack.hpp:26-29: push_internal.  Head = front() / top(). *)
Definition push_internal (k : kind) (v : Z) (c : list Z) : list Z :=
  match k with Queue => c ++ [v] | Stack => v :: c end.
(** concurrent_queue.hpp:33-37, concurrent_stack.hpp:33-37: pop_internal; undefined on an empty container. *)
Definition pop_internal (c : list Z) : res (Z * list Z) :=
  match c with v :: r => Ok (v, r) | [] => UB end.

(** The public operations and what they return ([RNone]: a timed pop that returns false). *)
Inductive op := OPush (v : Z) | OPop | OTimedPop | OEmpty | OSize.
Inductive result := RUnit | RItem (v : Z) | RNone | RBool (b : bool) | RSize (n : nat).

(** Where a thread is.  [timed]: pop with a duration. *)
Inductive pc :=
| Idle
| PushStart (v : Z) (* line 91, about to lock *)
| PushLocked (v : Z) (* line 92, holds the mutex *)
| PushDone (* line 93, holds the mutex, about to unlock *)
| PushNotify (* line 95 *)
| PopStart (timed : bool) (* lines 102, 117 *)
| PopTest (timed timed_out : bool) (* lines 104, 119-123: holds the mutex, about to call empty() *)
| PopBlocked (timed : bool) (* in wait: does not hold the mutex *)
| PopWoken (timed timed_out : bool) (* about to lock again, still in wait *)
| PopTake (timed : bool) (* lines 109, 127: holds the mutex *)
| PopDone (r : result) (* lines 110, 130: holds the mutex, about to unlock *)
| EmptyStart | EmptyLocked | EmptyDone (b : bool) (* lines 137-138 *)
| SizeStart | SizeLocked | SizeDone (n : nat) (* lines 145-146 *)
| Broken. (* undefined behaviour *)

Record state := State { container : list Z; owner : option nat; threads : list pc }.
Fixpoint upd {A} (l : list A) (t : nat) (x : A) : list A :=
  match l, t with
  | [], _ => []
  | _ :: r, O => x :: r
  | y :: r, S t' => y :: upd r t' x
  end.
Definition set (s : state) (c : list Z) (o : option nat) (t : nat) (p : pc) : state := State c o (upd (threads s) t p).

(** What can be seen from outside: calls and returns.  [Internal]: a step of the library's code or of the
    scheduler; [Spurious] and [Timeout] are the wake-ups of the condition variable without notification. *)
Inductive event := Call (t : nat) (o : op) | Ret (t : nat) (r : result).
Inductive label := Visible (e : event) | Internal | Spurious | Timeout.

Definition start (o : op) : pc :=
  match o with OPush v => PushStart v | OPop => PopStart false | OTimedPop => PopStart true | OEmpty => EmptyStart | OSize => SizeStart end.

(** One step of thread [t], which is at [p]. *)
Inductive step (k : kind) (s : state) : label -> state -> Prop :=
| s_call t o : nth_error (threads s) t = Some Idle ->
    step k s (Visible (Call t o)) (set s (container s) (owner s) t (start o))
(* push, lines 88-96 *)
| s_push_lock t v : nth_error (threads s) t = Some (PushStart v) -> owner s = None ->
    step k s Internal (set s (container s) (Some t) t (PushLocked v))
| s_push t v : nth_error (threads s) t = Some (PushLocked v) ->
    step k s Internal (set s (push_internal k v (container s)) (owner s) t PushDone)
| s_push_unlock t : nth_error (threads s) t = Some PushDone ->
    step k s Internal (set s (container s) None t PushNotify)
| s_notify t t' timed : nth_error (threads s) t = Some PushNotify -> nth_error (threads s) t' = Some (PopBlocked timed) ->
    step k s (Visible (Ret t RUnit)) (State (container s) (owner s) (upd (upd (threads s) t Idle) t' (PopWoken timed false)))
| s_notify_none t : nth_error (threads s) t = Some PushNotify -> (forall t' timed, nth_error (threads s) t' <> Some (PopBlocked timed)) ->
    step k s (Visible (Ret t RUnit)) (set s (container s) (owner s) t Idle)
(* pop, lines 100-110 and 113-131; wait_for with a predicate: while (!pred()) if (wait_until(...) == timeout) return pred(); *)
| s_pop_lock t timed : nth_error (threads s) t = Some (PopStart timed) -> owner s = None ->
    step k s Internal (set s (container s) (Some t) t (PopTest timed false))
| s_pop_some t timed o : nth_error (threads s) t = Some (PopTest timed o) -> container s <> [] ->
    step k s Internal (set s (container s) (owner s) t (PopTake timed))
| s_pop_wait t timed : nth_error (threads s) t = Some (PopTest timed false) -> container s = [] ->
    step k s Internal (set s (container s) None t (PopBlocked timed))
| s_pop_timed_out t : nth_error (threads s) t = Some (PopTest true true) -> container s = [] ->
    step k s Internal (set s (container s) (owner s) t (PopDone RNone))
| s_spurious t timed : nth_error (threads s) t = Some (PopBlocked timed) ->
    step k s Spurious (set s (container s) (owner s) t (PopWoken timed false))
| s_timeout t : nth_error (threads s) t = Some (PopBlocked true) ->
    step k s Timeout (set s (container s) (owner s) t (PopWoken true true))
| s_relock t timed o : nth_error (threads s) t = Some (PopWoken timed o) -> owner s = None ->
    step k s Internal (set s (container s) (Some t) t (PopTest timed o))
| s_take t timed v c : nth_error (threads s) t = Some (PopTake timed) -> pop_internal (container s) = Ok (v, c) ->
    step k s Internal (set s c (owner s) t (PopDone (RItem v)))
| s_take_broken t timed : nth_error (threads s) t = Some (PopTake timed) -> pop_internal (container s) = UB ->
    step k s Internal (set s (container s) (owner s) t Broken)
| s_pop_return t r : nth_error (threads s) t = Some (PopDone r) ->
    step k s (Visible (Ret t r)) (set s (container s) None t Idle)
(* empty and size, lines 135-147 *)
| s_empty_lock t : nth_error (threads s) t = Some EmptyStart -> owner s = None ->
    step k s Internal (set s (container s) (Some t) t EmptyLocked)
| s_empty t : nth_error (threads s) t = Some EmptyLocked ->
    step k s Internal (set s (container s) (owner s) t (EmptyDone (match container s with [] => true | _ :: _ => false end)))
| s_empty_return t b : nth_error (threads s) t = Some (EmptyDone b) ->
    step k s (Visible (Ret t (RBool b))) (set s (container s) None t Idle)
| s_size_lock t : nth_error (threads s) t = Some SizeStart -> owner s = None ->
    step k s Internal (set s (container s) (Some t) t SizeLocked)
| s_size t : nth_error (threads s) t = Some SizeLocked ->
    step k s Internal (set s (container s) (owner s) t (SizeDone (length (container s))))
| s_size_return t n : nth_error (threads s) t = Some (SizeDone n) ->
    step k s (Visible (Ret t (RSize n))) (set s (container s) None t Idle).

(** Executions of [n] threads from an empty container, and their histories of calls and returns. *)
Definition initial (n : nat) : state := State [] None (repeat Idle n).
Inductive reaches (k : kind) (n : nat) : list event -> state -> Prop :=
| r_initial : reaches k n [] (initial n)
| r_step h s l s' : reaches k n h s -> step k s l s' ->
    reaches k n (match l with Visible e => h ++ [e] | _ => h end) s'.
