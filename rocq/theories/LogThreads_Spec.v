(** What the records of a logger that several threads call should look like, in terms of the history of calls, returns and sink calls. *)
From Verif Require Import Common LogThreads_Model.

(** The records the sink was given: call and number. *)
Fixpoint records (h : list event) : list (call * Z) :=
  match h with [] => [] | EBegin c i :: r => (c, i) :: records r | _ :: r => records r end.
(** The calls of Logger::log, in the order they were made. *)
Fixpoint calls (h : list event) : list call :=
  match h with [] => [] | ECall c :: r => c :: calls r | _ :: r => calls r end.
(** The calls whose task was posted, in that order. *)
Fixpoint posts (h : list event) : list call :=
  match h with [] => [] | EPost c :: r => c :: posts r | _ :: r => posts r end.
Definition of_thread (t : nat) (l : list call) : list call := filter (fun c => (who c =? t)%nat) l.
(** Debug, Info, Warn, Error *)
Definition a_level (c : call) : bool := (0 <=? level c)%Z && (level c <? 4)%Z.

(** Numbered from 0, without gaps (m_index has 64 bits). *)
Definition numbered (l : list (call * Z)) : Prop := map snd l = map (fun n => Z.of_nat n mod 2 ^ 64) (seq 0 (length l)).
(** The sink is not called again before it has returned. *)
Definition one_at_a_time (h : list event) : Prop :=
  forall a c i m d j z, h = a ++ EBegin c i :: m ++ EBegin d j :: z -> exists b, In (EEnd c i b) m.
(** Once the sink has refused a record it is given no other. *)
Definition failure_is_final (h : list event) : Prop := forall a c i m d j, h = a ++ EEnd c i false :: m -> ~ In (EBegin d j) m.
(** [a] is [b] with elements left out. *)
Inductive subsequence {A} : list A -> list A -> Prop :=
| sub_nil : subsequence [] []
| sub_keep x a b : subsequence a b -> subsequence (x :: a) (x :: b)
| sub_drop x a b : subsequence a b -> subsequence a (x :: b).
(** The calls do not overlap, as if they were all made by one thread or under a mutex. *)
Definition no_overlap (h : list event) : Prop :=
  forall a c m d z, h = a ++ ECall c :: m ++ ECall d :: z -> In (EReturn c) m.

(** A data race: two agents are in log_to_sink between the read of m_index and the return of the sink. *)
Definition touching (async : bool) (s : state) (a : agent) : Prop :=
  match at_ s a with Outside | Leaving _ _ => False | Passed _ => executes async a | _ => True end.
Definition race (async : bool) (s : state) : Prop := exists a b, a <> b /\ touching async s a /\ touching async s b.
(** Nothing is under way. *)
Definition settled (s : state) : Prop := (forall a, at_ s a = Outside) /\ queue s = [].
Definition refused (h : list event) : Prop := exists c i, In (EEnd c i false) h.
