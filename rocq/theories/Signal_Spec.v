(** Specification vocabulary for C64. *)
From Verif Require Import Common Signal_Model.

(** The signals documented as handled. *)
Definition handled (n : Z) : Prop := n = 2 \/ n = 15 \/ n = 4 \/ n = 8 \/ n = 6 \/ n = 11 \/ n = 31 \/ n = 7.
(** The function given to the last call that began; none at first. *)
Definition last_set (log : list event) : option nat := fold_left (fun f e => match e with SetBegins g => g | _ => f end) log None.
(** Is a call going on? *)
Definition during_call (log : list event) : bool := fold_left (fun b e => match e with SetBegins _ => true | SetReturns => false | _ => b end) log false.
(** Handlers that run. *)
Definition in_handler (log : list event) : Z := fold_left (fun k e => match e with Arrives _ (Invoked _ _) => k + 1 | HandlerReturns _ => k - 1 | _ => k end) log 0.
(** What a signal leads to, once a function is set (or none). *)
Definition wanted (f : option nat) (n : Z) : outcome := match f with Some g => Invoked g n | None => DefaultAction end.
(** The functions given to the last two calls that began. *)
Definition last_two (log : list event) : option nat * option nat :=
  fold_left (fun p e => match e with SetBegins g => (snd p, g) | _ => p end) log (None, None).
