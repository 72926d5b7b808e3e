(** Model of signal handling (fly/system/system.cpp:13-22, 36-54, not Windows), every assembly of steps of the thread that calls
    set_signal_handler and of signals that arrive in between.
    Simplifications: calls of set_signal_handler do not overlap, except from within a handler; functions are numbered; the
    move assignment of std::function is a step in which the variable is not valid (libstdc++ swaps its members one after the
    other), then the step that ends it, which destroys the function held before; the operating system keeps a handler
    installed (std::signal of glibc); nobody else calls std::signal. *)
From Verif Require Import Common.

(** What the operating system does when a signal arrives. *)
Inductive action := Default | Handle.
(** s_signal_handler (15): a function or none; or the middle of an assignment. *)
Inductive held := Whole (f : option nat) | Torn.
(** Where set_signal_handler is. *)
Inductive phase := Idle | Assigning (f : option nat) | Registering (f : option nat) (rest : list Z).
(** [m_running]: handlers that have been invoked and have not returned. *)
Record state := State { m_handler : held; m_action : Z -> action; m_phase : phase; m_running : list nat }.

(** SIGINT, SIGTERM, SIGILL, SIGFPE, SIGABRT, SIGSEGV, SIGSYS, SIGBUS (43-44), with Linux' numbers. *)
Definition s_signals : list Z := [2; 15; 4; 8; 6; 11; 31; 7].

Definition set_action (actions : Z -> action) (signal : Z) (a : action) : Z -> action := fun s => if s =? signal then a else actions s.
(** What a signal leads to. *)
Inductive outcome :=
| DefaultAction
| Invoked (f : nat) (signal : Z)
| BadFunctionCall (* std::invoke of an empty function throws *)
| Undefined.
(** handle_signal, 17-20 *)
Definition deliver (s : state) (signal : Z) : outcome :=
  match m_action s signal with
  | Default => DefaultAction
  | Handle => match m_handler s with Whole (Some f) => Invoked f signal | Whole None => BadFunctionCall | Torn => Undefined end
  end.

(** Is a function destroyed by the assignment that is still running? *)
Definition destroys_running (old : held) (running : list nat) : bool :=
  match old with Whole (Some f) => existsb (Nat.eqb f) running | _ => false end.

Inductive event :=
| SetBegins (f : option nat)      (* 36-47 *)
| SetTears                        (* 48: the assignment has begun *)
| UseAfterDestruction             (* 48: the same, but the function held before, which the assignment destroys, is running *)
| SetAssigned                     (* 48: it has ended *)
| SetRegistered                   (* 50-53: one iteration *)
| SetReturns
| Arrives (signal : Z) (what : outcome)
| HandlerReturns (f : nat).

Fixpoint remove_one (f : nat) (l : list nat) : list nat :=
  match l with [] => [] | g :: r => if (f =? g)%nat then r else g :: remove_one f r end.

Inductive step : state -> event -> state -> Prop :=
| st_begins h a run f : step (State h a Idle run) (SetBegins f) (State h a (Assigning f) run)
| st_tears h a run f : h <> Torn -> destroys_running h run = false -> step (State h a (Assigning f) run) SetTears (State Torn a (Assigning f) run)
| st_destroyed h a f run : destroys_running h run = true -> step (State h a (Assigning f) run) UseAfterDestruction (State Torn a (Assigning f) run)
| st_assigned a f run : step (State Torn a (Assigning f) run) SetAssigned (State (Whole f) a (Registering f s_signals) run)
| st_registered h a f n rest run : step (State h a (Registering f (n :: rest)) run) SetRegistered
    (State h (set_action a n (match f with Some _ => Handle | None => Default end)) (Registering f rest) run)
| st_returns h a f run : step (State h a (Registering f []) run) SetReturns (State h a Idle run)
| st_arrives s n : step s (Arrives n (deliver s n))
    (match deliver s n with Invoked f _ => State (m_handler s) (m_action s) (m_phase s) (f :: m_running s) | _ => s end)
| st_handler_returns h a p run f : In f run -> step (State h a p run) (HandlerReturns f) (State h a p (remove_one f run)).

(** No handler, default actions. *)
Definition initial : state := State (Whole None) (fun _ => Default) Idle [].
(** [run s log t]: from [s] to [t], [log] in order of time. *)
Inductive run (s : state) : list event -> state -> Prop :=
| run_nil : run s [] s
| run_step log t e u : run s log t -> step t e u -> run s (log ++ [e]) u.
