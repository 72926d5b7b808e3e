(** Specification vocabulary for C57: what happens to a task and its reply. *)
From Verif Require Import Common Reply_Model. (* only for items, events, states and [reachable] *)
Open Scope nat_scope.

(** The two are runs of the same callable: of the task, or of the reply, of one call of a post function. *)
Definition same_run (i j : item) : Prop := i_task i = i_task j /\ (i_result i = None <-> i_result j = None).
Definition is_task (i : item) : Prop := i_result i = None.
(** [r] is the reply of the task [t] that returned [v]. *)
Definition reply_for (t : item) (v : Z) (r : item) : Prop :=
  i_task r = i_task t /\ i_result r = Some v /\ i_owner r = i_owner t /\ is_task t /\ i_reply t <> None.
(** Event [e] happens, after the events [a] and before [b]. *)
Definition at_ (h a : list event) (e : event) (b : list event) : Prop := h = a ++ e :: b.
(** The order in which items were handed to the runner, and in which it took them. *)
Definition handed (h : list event) : list item := flat_map (fun e => match e with EQueue i => [i] | _ => [] end) h.
Definition taken (h : list event) : list item := flat_map (fun e => match e with EStart i | ESkip i => [i] | _ => [] end) h.
(** Nothing is left to do. *)
Definition idle (s : state) : Prop := delayed s = [] /\ queue s = [] /\ running s = [].
(** Everything was given as an rvalue. *)
Definition no_references (h : list event) : Prop :=
  forall i, In (EPost i) h -> i_code i = Value /\ (forall c, i_reply i = Some c -> c = Value).
(** The steps of the runner and its workers, without any further call. *)
Inductive own (sequenced : bool) (s s' : state) : Prop :=
| own_step : step sequenced s s' -> next s' = next s -> closed s' = closed s -> refs s' = refs s -> gone s' = gone s -> own sequenced s s'.
