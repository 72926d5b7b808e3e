(** Specification vocabulary for C34 and C35: linearizability (Herlihy and Wing) of a container. *)
From Verif Require Import Common Concurrent_Model. (* only for the types of operations, results, events and states *)

(** * The sequential container: what each operation does when nothing else runs. *)
Inductive sequential (k : kind) : list Z -> op * result -> list Z -> Prop :=
| q_push c v : k = Queue -> sequential k c (OPush v, RUnit) (c ++ [v])
| st_push c v : k = Stack -> sequential k c (OPush v, RUnit) (v :: c)
| pop_first c v : sequential k (v :: c) (OPop, RItem v) c
| timed_pop_first c v : sequential k (v :: c) (OTimedPop, RItem v) c
| timed_pop_none : sequential k [] (OTimedPop, RNone) []
| empty_yes : sequential k [] (OEmpty, RBool true) []
| empty_no v c : sequential k (v :: c) (OEmpty, RBool false) (v :: c)
| size_is c : sequential k c (OSize, RSize (length c)) c.
(** [legal k c ops c']: the operations in this order, from contents [c], give these results and end with
    contents [c']. *)
Inductive legal (k : kind) : list Z -> list (op * result) -> list Z -> Prop :=
| legal_nil c : legal k c [] c
| legal_cons c o c' ops c'' : sequential k c o c' -> legal k c' ops c'' -> legal k c (o :: ops) c''.

(** * Histories with the instants at which the operations take effect *)
Inductive timed_event := Event (e : event) | Effect (t : nat) (o : op) (r : result).
Definition visible (a : list timed_event) : list event :=
  flat_map (fun x => match x with Event e => [e] | Effect _ _ _ => [] end) a.
Definition effects (a : list timed_event) : list (op * result) :=
  flat_map (fun x => match x with Event _ => [] | Effect _ o r => [(o, r)] end) a.
(** What thread [t] does: repeatedly a call, the effect of that call, and its return with the result of
    the effect; the last of these may be incomplete. *)
Definition thread_of (x : timed_event) : nat := match x with Event (Call t _) => t | Event (Ret t _) => t | Effect t _ _ => t end.
Inductive phase := Outside | Called (o : op) | Effected (r : result).
Inductive advance : phase -> timed_event -> phase -> Prop :=
| a_call t o : advance Outside (Event (Call t o)) (Called o)
| a_effect t o r : advance (Called o) (Effect t o r) (Effected r)
| a_ret t r : advance (Effected r) (Event (Ret t r)) Outside.
Inductive behaves (t : nat) : list timed_event -> phase -> Prop :=
| b_nil : behaves t [] Outside
| b_other a x p : behaves t a p -> thread_of x <> t -> behaves t (a ++ [x]) p
| b_own a x p p' : behaves t a p -> thread_of x = t -> advance p x p' -> behaves t (a ++ [x]) p'.
(** A history is linearizable, with final contents [c]: every operation that returned took effect once,
    between its call and its return, an operation that has not returned took effect at most once after its
    call, and the effects in their order are legal for the sequential container. *)
Definition linearizable (k : kind) (h : list event) (c : list Z) : Prop :=
  exists a, visible a = h /\ (forall t, exists p, behaves t a p) /\ legal k [] (effects a) c.

(** Items given to push and returned by pop, in the order of the effects. *)
Definition pushed (ops : list (op * result)) : list Z := flat_map (fun x => match x with (OPush v, _) => [v] | _ => [] end) ops.
Definition popped (ops : list (op * result)) : list Z := flat_map (fun x => match x with (_, RItem v) => [v] | _ => [] end) ops.
(** Operations that leave a stack as it was, without touching what was below. *)
Inductive balanced : list (op * result) -> Prop :=
| bal_nil : balanced []
| bal_skip o r l : (forall v, o <> OPush v) -> (forall v, r <> RItem v) -> balanced l -> balanced ((o, r) :: l)
| bal_pair v o l l' : balanced l -> balanced l' -> balanced ((OPush v, RUnit) :: l ++ (o, RItem v) :: l').
(** In a history: how often an item was given to a call of push, and returned by a pop. *)
Definition push_calls (h : list event) (v : Z) : nat :=
  length (filter (fun e => match e with Call _ (OPush w) => w =? v | _ => false end) h).
Definition pop_returns (h : list event) (v : Z) : nat :=
  length (filter (fun e => match e with Ret _ (RItem w) => w =? v | _ => false end) h).

(** * Waiting *)
Definition blocked (s : state) (t : nat) : Prop := exists timed, nth_error (threads s) t = Some (PopBlocked timed).
(** A producer that has added its item and has still to notify. *)
Definition will_notify (p : pc) : bool := match p with PushDone | PushNotify => true | _ => false end.
(** A consumer that is not blocked and will look at the container, or has just seen an item. *)
Definition will_look (p : pc) : bool := match p with PopTest _ _ | PopWoken _ _ | PopTake _ => true | _ => false end.
Definition count (f : pc -> bool) (s : state) : nat := length (filter f (threads s)).

(** Program points at which a thread holds the mutex. *)
Definition holds (p : pc) : bool :=
  match p with
  | PushLocked _ | PushDone | PopTest _ _ | PopTake _ | PopDone _ | EmptyLocked | EmptyDone _ | SizeLocked | SizeDone _ => true
  | _ => false
  end.

(** Steps other than new calls, spurious wake-ups and time-outs. *)
Definition productive (l : label) : bool := match l with Internal | Visible (Ret _ _) => true | _ => false end.
(** [j] such steps. *)
Inductive run (k : kind) : state -> nat -> state -> Prop :=
| run_nil s : run k s 0 s
| run_cons s l s' j s'' : step k s l s' -> productive l = true -> run k s' j s'' -> run k s (S j) s''.
(** Nothing more happens unless a thread makes a new call or wakes up without notification. *)
Definition quiescent (k : kind) (s : state) : Prop := forall l s', step k s l s' -> productive l = false.

(** Threads that hold item [v]: inside push before adding it, or inside pop after taking it. *)
Definition pushing (v : Z) (p : pc) : bool := match p with PushStart w | PushLocked w => w =? v | _ => false end.
Definition returning (v : Z) (p : pc) : bool := match p with PopDone (RItem w) => w =? v | _ => false end.
Definition held (v : Z) (s : state) : nat := count (fun p => pushing v p || returning v p) s.
