(** Specification vocabulary for C36 and C37. *)
From Verif Require Import Common Task_Model. (* only for the type of states and the fields that can be observed *)

(** The tasks of runner [r] in a log. *)
Definition tasks_of (r : nat) (l : list (nat * nat)) : list nat := map snd (filter (fun e => Nat.eqb (fst e) r) l).
Definition start_log (s : state) : list (nat * nat) := map fst (started s).
(** [subsequence a b]: [a] is [b] with some elements left out. *)
Inductive subsequence {A} : list A -> list A -> Prop :=
| sub_nil : subsequence [] []
| sub_keep x a b : subsequence a b -> subsequence (x :: a) (x :: b)
| sub_skip x a b : subsequence a b -> subsequence a (x :: b).
(** Worker [w] is executing task [i] of runner [r]. *)
Definition executing (s : state) (w r i : nat) : Prop := nth_error (workers s) w = Some (WRun (r, i)).
Definition is_sequenced (s : state) (r : nat) : Prop := exists x, nth_error (runners s) r = Some x /\ kind_of x = Sequenced.
(** The runner exists and is referred to. *)
Definition alive (s : state) (r : nat) : Prop := exists x, nth_error (runners s) r = Some x /\ expired x = false.
(** A task that was posted with post_task, not post_task_with_delay. *)
Definition immediate (s : state) (i : nat) : Prop := forall T d, ~ In (i, T, d) (deadlines s).
(** Some steps. *)
Inductive steps (n : nat) : state -> state -> Prop :=
| steps_none s : steps n s s
| steps_more s s' s'' : steps n s s' -> step n s' s'' -> steps n s s''.
(** Some steps, through states where stop() has returned and start() has not been called since. *)
Inductive steps_stopped (n : nat) : state -> state -> Prop :=
| stopped_none s : phase s = Stopped -> steps_stopped n s s
| stopped_more s s' s'' : steps_stopped n s s' -> step n s' s'' -> phase s'' = Stopped -> steps_stopped n s s''.
