(** Model of the logger registry: fly/logger/detail/registry.cpp with Logger::create and Logger::~Logger
    (fly/logger/logger.cpp:86-137) as any number of threads call them.  Every access to the registry is made under
    its mutex and is one step; a logger whose last reference is gone is [dying] until its destructor has run.
    Names and loggers are numbers.  Not modelled: the default logger (set_default_logger is not synchronized),
    the registry's own destruction, Logger::get of a logger between its registration and the initialization of its sink. *)
From Verif Require Import Common.
Open Scope nat_scope.

(** registry.cpp:11 s_default_logger_name *)
Definition default_name : nat := 0.
Inductive event :=
| ECreate (n : nat) (id : nat) (sink : bool) (result : bool) (* Logger::create; [sink]: the sink can be initialized; [result]: not nullptr *)
| EDrop (n : nat) (id : nat) (* the last reference to the logger was released *)
| EGone (n : nat) (id : nat) (* the logger's destructor has run *)
| EGet (n : nat) (result : option nat). (* Logger::get *)
Record state := State {
  entries : list (nat * nat); (* m_registry: name, logger (a std::weak_ptr) *)
  live : list (nat * nat); (* loggers in use: name, logger *)
  dying : list (nat * nat); (* destructor to be run *)
  next : nat; (* number of the next logger *)
  log : list event }.

(** std::unordered_map::find / erase *)
Fixpoint find (n : nat) (l : list (nat * nat)) : option nat :=
  match l with [] => None | (m, id) :: r => if m =? n then Some id else find n r end.
Definition erase (n : nat) (l : list (nat * nat)) : list (nat * nat) := filter (fun x => negb (fst x =? n)) l.
(** weak_ptr::lock *)
Definition lock (s : state) (id : nat) : option nat := if existsb (fun x => snd x =? id) (live s) then Some id else None.
(** registry.cpp:78-87 unregister_logger *)
Definition unregister (n : nat) (l : list (nat * nat)) : list (nat * nat) := if n =? default_name then l else erase n l.
(** registry.cpp:90-100 get_logger *)
Definition get (s : state) (n : nat) : option nat := match find n (entries s) with Some id => lock s id | None => None end.

Inductive step (s : state) : state -> Prop :=
(* logger.cpp:125-136 create, registry.cpp:64-75 register_logger *)
| s_create n : find n (entries s) = None -> (* registered, and the sink is initialized *)
    step s (State ((n, next s) :: entries s) ((n, next s) :: live s) (dying s) (S (next s)) (log s ++ [ECreate n (next s) true true]))
| s_create_fails n : find n (entries s) = None -> (* registered, but the sink cannot be initialized *)
    step s (State ((n, next s) :: entries s) (live s) ((n, next s) :: dying s) (S (next s)) (log s ++ [ECreate n (next s) false false]))
| s_create_taken n id sink : find n (entries s) = Some id ->
    step s (State (entries s) (live s) ((n, next s) :: dying s) (S (next s)) (log s ++ [ECreate n (next s) sink false]))
| s_drop n id : In (n, id) (live s) ->
    step s (State (entries s) (filter (fun x => negb (snd x =? id)) (live s)) ((n, id) :: dying s) (next s) (log s ++ [EDrop n id]))
(* logger.cpp:86-89 ~Logger *)
| s_destroy a n id b : dying s = a ++ (n, id) :: b -> step s (State (unregister n (entries s)) (live s) (a ++ b) (next s) (log s ++ [EGone n id]))
| s_get n : step s (State (entries s) (live s) (dying s) (next s) (log s ++ [EGet n (get s n)])).
Definition initial : state := State [] [] [] 0 [].
Inductive reaches : state -> Prop :=
| reaches_initial : reaches initial
| reaches_step s s' : reaches s -> step s s' -> reaches s'.
