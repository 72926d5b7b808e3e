(** Model of what TaskRunner puts around a callable: replies, weak owners, and where the callable is stored (fly/task/task_runner.hpp).
    One runner, [sequenced] or parallel; any number of threads post to it and run its tasks.  What the runner and the task manager do
    with a posted task is the subject of C36 and C37 and appears here as its specification: a sequenced runner starts its tasks one at a
    time in the order in which they were queued, a parallel runner in any order; a delayed task is queued at some later moment.
    [closed]: the manager was stopped or is gone, or the users have let go of the runner; from then on tasks may be dropped.
    A task's owner is a number; [refs] lists the strong references that exist outside of the wrappers, one entry each.
    A result of type void is the value 0.  Exceptions of tasks are not modelled. *)
From Verif Require Import Common.
Open Scope nat_scope.

(** task_runner.hpp:351-355 TaskHolder<TaskType>: [TaskType] is the type deduced for a forwarding reference, so that a callable given as
    an lvalue is kept as a reference to the caller's variable, and one given as an rvalue as a value. *)
Inductive storage := Value | Reference (variable : nat).
Record item := Item {
  i_task : nat; (* the number of the call that posted it *)
  i_result : option Z; (* None: the task; Some v: the reply, bound to the result v *)
  i_owner : option nat; (* weak_owner *)
  i_code : storage;
  i_reply : option storage }.
(** The wrapper: the callable is running; it has returned and a copy of the owner's reference is left in the wrapper or not (the callable
    took it by value); the reply is posted. *)
Inductive phase := Invoked | Returned (v : Z) (holds : bool) | Posted (holds : bool).
Inductive event :=
| EPost (i : item) (* a post function is called *)
| EQueue (i : item) (* handed to the runner *)
| EStart (i : item) (* the callable is invoked *)
| EReturn (i : item) (v : Z) (* it returns *)
| ESkip (i : item) (* the owner is gone *)
| EDrop (i : item) (* the runner or manager is closed *)
| EDead (o : nat). (* the last reference to an owner is gone *)
Record state := State {
  next : nat;
  delayed : list item;
  queue : list item;
  running : list (item * phase);
  refs : list nat;
  gone : list nat; (* variables that do not exist any more *)
  closed : bool;
  undefined : bool;
  hist : list event }.

(** The reference in the wrapper's [owner]. *)
Definition held (r : item * phase) : list nat :=
  match i_owner (fst r) with
  | Some o => match snd r with Invoked => [o] | Returned _ h | Posted h => if h then [o] else [] end
  | None => []
  end.
Definition strong (s : state) : list nat := refs s ++ flat_map held (running s).
(** weak_owner.lock() *)
Definition locked (s : state) (i : item) : bool :=
  match i_owner i with Some o => existsb (Nat.eqb o) (strong s) | None => true end.
Definition dangling (s : state) (c : storage) : bool := match c with Value => false | Reference x => existsb (Nat.eqb x) (gone s) end.
(** The owners that [before] had references to and [after] has not. *)
Definition died (before after : list nat) (o : option nat) : list event :=
  match o with Some o => if existsb (Nat.eqb o) before && negb (existsb (Nat.eqb o) after) then [EDead o] else [] | None => [] end.

(** task_runner.hpp:548-646 post_task, post_task_with_reply, post_task_with_delay, post_task_with_delay_and_reply: the item made by
    wrap_task.  The last one with an owner moves the reply out of its argument (645), the others forward it. *)
Definition wrapped (n : nat) (delay : bool) (owner : option nat) (task : storage) (reply : option storage) : item :=
  Item n None owner task (match owner, delay, reply with Some _, true, Some _ => Some Value | _, _, r => r end).
(** task_runner.hpp:704-716, 749-769: the reply that is posted, an rvalue made from what was stored *)
Definition reply_of (i : item) (v : Z) : item := Item (i_task i) (Some v) (i_owner i) Value None.

Section Runner.
Variable sequenced : bool.
Inductive step (s : state) : state -> Prop :=
| s_post delay owner task reply : undefined s = false ->
    let i := wrapped (next s) delay owner task reply in
    step s (State (S (next s)) (if delay then delayed s ++ [i] else delayed s) (if delay then queue s else queue s ++ [i]) (running s) (refs s) (gone s) (closed s) false
      (hist s ++ EPost i :: (if delay then [] else [EQueue i])))
| s_post_closed delay owner task reply : undefined s = false -> closed s = true ->
    let i := wrapped (next s) delay owner task reply in
    step s (State (S (next s)) (delayed s) (queue s) (running s) (refs s) (gone s) true false (hist s ++ [EPost i; EDrop i]))
| s_due l i r : undefined s = false -> delayed s = l ++ i :: r -> (* task_manager.cpp:145-157 *)
    step s (State (next s) (l ++ r) (queue s ++ [i]) (running s) (refs s) (gone s) (closed s) false (hist s ++ [EQueue i]))
| s_start l i r : undefined s = false -> queue s = l ++ i :: r -> (sequenced = true -> l = [] /\ running s = []) -> locked s i = true ->
    dangling s (i_code i) = false ->
    step s (State (next s) (delayed s) (l ++ r) (running s ++ [(i, Invoked)]) (refs s) (gone s) (closed s) false (hist s ++ [EStart i]))
| s_start_dangling l i r : undefined s = false -> queue s = l ++ i :: r -> (sequenced = true -> l = [] /\ running s = []) -> locked s i = true ->
    dangling s (i_code i) = true ->
    step s (State (next s) (delayed s) (l ++ r) (running s) (refs s) (gone s) (closed s) true (hist s))
| s_skip l i r : undefined s = false -> queue s = l ++ i :: r -> (sequenced = true -> l = [] /\ running s = []) -> locked s i = false ->
    step s (State (next s) (delayed s) (l ++ r) (running s) (refs s) (gone s) (closed s) false (hist s ++ [ESkip i]))
| s_drop l i r : undefined s = false -> closed s = true -> queue s = l ++ i :: r -> (sequenced = true -> l = []) ->
    step s (State (next s) (delayed s) (l ++ r) (running s) (refs s) (gone s) (closed s) false (hist s ++ [EDrop i]))
| s_drop_delayed l i r : undefined s = false -> closed s = true -> delayed s = l ++ i :: r ->
    step s (State (next s) (l ++ r) (queue s) (running s) (refs s) (gone s) (closed s) false (hist s ++ [EDrop i]))
| s_return l i r v h : undefined s = false -> running s = l ++ (i, Invoked) :: r ->
    step s (State (next s) (delayed s) (queue s) (l ++ (i, Returned v h) :: r) (refs s) (gone s) (closed s) false
      (hist s ++ EReturn i v :: died (strong s) (refs s ++ flat_map held (l ++ (i, Returned v h) :: r)) (i_owner i)))
| s_reply l i r v h c : undefined s = false -> running s = l ++ (i, Returned v h) :: r -> i_reply i = Some c -> dangling s c = false ->
    step s (State (next s) (delayed s) (queue s ++ [reply_of i v]) (l ++ (i, Posted h) :: r) (refs s) (gone s) (closed s) false
      (hist s ++ [EQueue (reply_of i v)]))
| s_reply_closed l i r v h c : undefined s = false -> running s = l ++ (i, Returned v h) :: r -> i_reply i = Some c -> dangling s c = false -> closed s = true ->
    step s (State (next s) (delayed s) (queue s) (l ++ (i, Posted h) :: r) (refs s) (gone s) (closed s) false (hist s ++ [EDrop (reply_of i v)]))
| s_reply_dangling l i r v h c : undefined s = false -> running s = l ++ (i, Returned v h) :: r -> i_reply i = Some c -> dangling s c = true ->
    step s (State (next s) (delayed s) (queue s) (l ++ (i, Posted h) :: r) (refs s) (gone s) (closed s) true (hist s))
| s_end l i r p : undefined s = false -> running s = l ++ (i, p) :: r ->
    (match p with Invoked => False | Returned _ _ => i_reply i = None | Posted _ => True end) ->
    step s (State (next s) (delayed s) (queue s) (l ++ r) (refs s) (gone s) (closed s) false
      (hist s ++ died (strong s) (refs s ++ flat_map held (l ++ r)) (i_owner i)))
| s_acquire o : undefined s = false -> In o (strong s) ->
    step s (State (next s) (delayed s) (queue s) (running s) (o :: refs s) (gone s) (closed s) false (hist s))
| s_release l o r : undefined s = false -> refs s = l ++ o :: r ->
    step s (State (next s) (delayed s) (queue s) (running s) (l ++ r) (gone s) (closed s) false
      (hist s ++ died (strong s) ((l ++ r) ++ flat_map held (running s)) (Some o)))
| s_scope_end x : undefined s = false ->
    step s (State (next s) (delayed s) (queue s) (running s) (refs s) (x :: gone s) (closed s) false (hist s))
| s_close : undefined s = false ->
    step s (State (next s) (delayed s) (queue s) (running s) (refs s) (gone s) true false (hist s)).

Definition initial (owners : list nat) : state := State 0 [] [] [] owners [] false false [].
Inductive reachable (owners : list nat) : state -> Prop :=
| r_initial : reachable owners (initial owners)
| r_step s s' : reachable owners s -> step s s' -> reachable owners s'.
End Runner.
