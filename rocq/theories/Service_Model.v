(** Model of fly::net::SocketService (fly/net/socket/socket_service.cpp, socket_service.hpp) and of
    fly::net::detail::select (fly/net/socket/detail/nix/socket_operations.cpp).  All of the service's state is
    accessed on its SequencedTaskRunner only, so its tasks run one at a time in the order in which they were
    posted (Task_Props: sequenced_one_at_a_time, sequenced_in_order); the calls that post them may happen at
    any moment, also from the callbacks.  The runner's manager is not stopped.
    What a callback does is covered by those calls.  What ::select returns is chosen freely at each call. *)
From Verif Require Import Common.

(** socket_service.hpp:107-113 struct Request.  The callback is represented by a number (one per call) and the
    socket object whose weak pointer it holds (wrap_callback, socket_service.hpp:204-223). *)
Record request := Request { handle_of : Z; id_of : nat; socket_of : nat }.
Inductive direction := Write | Read.
Inductive task :=
| TNotify (d : direction) (q : request)
| TRemove (h : Z)
| TPoll.
(** What the sequence is doing. *)
Inductive activity :=
| Idle
| Polling (* in poll(), before detail::select *)
| Firing (ws rs : list Z) (* in poll(), ready handles whose callbacks are still to be invoked *)
| Undefined. (* undefined behaviour has occurred *)
(** What can be observed. *)
Inductive event :=
| ERegister (d : direction) (i : nat) (h : Z) (k : nat) (* the task of notify_when_* has stored request i of socket object k *)
| EGone (k : nat) (* socket object k was destroyed *)
| ESelect (ws rs : list Z) (* ::select has reported these handles as ready *)
| ENotify (d : direction) (i : nat) (h : Z) (* a request's callback is invoked ... *)
| EDrop (d : direction) (i : nat) (h : Z) (* ... or dropped, because its socket object is gone *)
| ERemove (h : Z). (* the task of remove_socket has run *)

Record state := State {
  queue : list task; (* tasks posted on the sequence *)
  writes : list request; (* m_write_requests *)
  reads : list request; (* m_read_requests *)
  doing : activity;
  gone : list nat; (* sockets that were destroyed *)
  service_alive : bool;
  next_id : nat;
  log : list event }.

(** std::set<socket_type>::insert *)
Fixpoint set_insert (h : Z) (l : list Z) : list Z :=
  match l with
  | [] => [h]
  | x :: r => if h <? x then h :: l else if h =? x then l else x :: set_insert h r
  end.
(** socket_service.cpp:103-110 *)
Definition handles (l : list request) : list Z := fold_left (fun s q => set_insert (handle_of q) s) l [].
Definition is_set (l : list Z) (h : Z) : bool := existsb (Z.eqb h) l.
(** FD_SET (sys/select.h) is defined for 0 <= fd < FD_SETSIZE = 1024. *)
Definition fd_ok (h : Z) : bool := (0 <=? h) && (h <? 1024).
(** nix/socket_operations.cpp:529-578, with the result of ::select: its status and the handles set in the sets
    of handles on return.  None: undefined behaviour (FD_SET on a handle that does not fit). *)
Definition select_model (status : Z) (wset rset ws rs : list Z) : option (list Z * list Z) :=
  if forallb fd_ok ws && forallb fd_ok rs then
    if 0 <? status then Some (filter (is_set wset) ws, filter (is_set rset) rs) else Some ([], [])
  else None.

(** std::find_if and pending.erase, socket_service.cpp:117-123 *)
Fixpoint take_first (h : Z) (l : list request) : option (request * list request) :=
  match l with
  | [] => None
  | q :: r => if h =? handle_of q then Some (q, r)
              else match take_first h r with Some (x, r') => Some (x, q :: r') | None => None end
  end.
Definition gone_socket (s : state) (k : nat) : bool := existsb (Nat.eqb k) (gone s).
(** socket_service.hpp:217-222: the callback runs if the weak pointer can be locked. *)
Definition outcome (s : state) (d : direction) (q : request) : event :=
  if gone_socket s (socket_of q) then EDrop d (id_of q) (handle_of q) else ENotify d (id_of q) (handle_of q).
Definition nil_reqs (s : state) : bool := match writes s, reads s with [], [] => true | _, _ => false end.

Inductive step (s : state) : state -> Prop :=
(* Calls, from any thread.  socket_service.hpp:186-201, socket_service.cpp:64-95 and 48-61 *)
| s_notify d h k : service_alive s = true -> ~ In k (gone s) ->
    step s (State (queue s ++ [TNotify d (Request h (next_id s) k)]) (writes s) (reads s) (doing s) (gone s) (service_alive s) (S (next_id s)) (log s))
| s_remove h : service_alive s = true ->
    step s (State (queue s ++ [TRemove h]) (writes s) (reads s) (doing s) (gone s) (service_alive s) (next_id s) (log s))
(* The last reference to a socket object, or to the service, goes (a running task has a reference to the
   service). *)
| s_socket_gone k : step s (State (queue s) (writes s) (reads s) (doing s) (k :: gone s) (service_alive s) (next_id s) (log s ++ [EGone k]))
| s_service_gone : doing s = Idle -> step s (State (queue s) (writes s) (reads s) (doing s) (gone s) false (next_id s) (log s))
(* The sequence runs the next task.  If the service is gone the task does nothing (task_types.hpp: tasks
   protected by a weak pointer). *)
| s_skip t r : doing s = Idle -> queue s = t :: r -> service_alive s = false ->
    step s (State r (writes s) (reads s) Idle (gone s) (service_alive s) (next_id s) (log s))
(* socket_service.cpp:66-74 and 83-91 *)
| s_run_notify d q r : doing s = Idle -> queue s = TNotify d q :: r -> service_alive s = true ->
    step s (State r (match d with Write => writes s ++ [q] | Read => writes s end) (match d with Write => reads s | Read => reads s ++ [q] end)
      (if nil_reqs s then Polling else Idle) (gone s) (service_alive s) (next_id s) (log s ++ [ERegister d (id_of q) (handle_of q) (socket_of q)]))
(* socket_service.cpp:50-57 *)
| s_run_remove h r : doing s = Idle -> queue s = TRemove h :: r -> service_alive s = true ->
    step s (State r (filter (fun q => negb (h =? handle_of q)) (writes s)) (filter (fun q => negb (h =? handle_of q)) (reads s))
      Idle (gone s) (service_alive s) (next_id s) (log s ++ [ERemove h]))
(* socket_service.cpp:132-134 *)
| s_run_poll r : doing s = Idle -> queue s = TPoll :: r -> service_alive s = true ->
    step s (State r (writes s) (reads s) Polling (gone s) (service_alive s) (next_id s) (log s))
(* poll(), socket_service.cpp:98-112 *)
| s_select status wset rset ws rs : doing s = Polling -> select_model status wset rset (handles (writes s)) (handles (reads s)) = Some (ws, rs) ->
    step s (State (queue s) (writes s) (reads s) (Firing ws rs) (gone s) (service_alive s) (next_id s)
      (log s ++ [if 0 <? status then ESelect wset rset else ESelect [] []]))
| s_select_undefined status wset rset : doing s = Polling -> select_model status wset rset (handles (writes s)) (handles (reads s)) = None ->
    step s (State (queue s) (writes s) (reads s) Undefined (gone s) (service_alive s) (next_id s) (log s))
(* poll(), socket_service.cpp:114-128: the invocation lambda; it == pending.end() would be undefined behaviour *)
| s_fire_write h ws rs q r : doing s = Firing (h :: ws) rs -> take_first h (writes s) = Some (q, r) ->
    step s (State (queue s) r (reads s) (Firing ws rs) (gone s) (service_alive s) (next_id s) (log s ++ [outcome s Write q]))
| s_fire_write_undefined h ws rs : doing s = Firing (h :: ws) rs -> take_first h (writes s) = None ->
    step s (State (queue s) (writes s) (reads s) Undefined (gone s) (service_alive s) (next_id s) (log s))
| s_fire_read h rs q r : doing s = Firing [] (h :: rs) -> take_first h (reads s) = Some (q, r) ->
    step s (State (queue s) (writes s) r (Firing [] rs) (gone s) (service_alive s) (next_id s) (log s ++ [outcome s Read q]))
| s_fire_read_undefined h rs : doing s = Firing [] (h :: rs) -> take_first h (reads s) = None ->
    step s (State (queue s) (writes s) (reads s) Undefined (gone s) (service_alive s) (next_id s) (log s))
(* poll(), socket_service.cpp:130-138 *)
| s_poll_end : doing s = Firing [] [] ->
    step s (State (if nil_reqs s then queue s else queue s ++ [TPoll]) (writes s) (reads s) Idle (gone s) (service_alive s) (next_id s) (log s)).

(** After SocketService::create. *)
Definition initial : state := State [] [] [] Idle [] true 0 [].
Inductive reaches : state -> Prop :=
| r_initial : reaches initial
| r_step s s' : reaches s -> step s s' -> reaches s'.
