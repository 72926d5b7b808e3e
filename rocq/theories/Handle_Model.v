(** Model of who owns the operating system's sockets: BaseSocket (fly/net/socket/detail/base_socket.cpp), the constructors, destructors and
    move operations of TcpSocket, UdpSocket and ListenSocket, listen(), accept() and accept_async() (fly/net/socket/listen_socket.cpp), and the
    system-call wrappers socket, close, set_io_mode, listen and accept of fly/net/socket/detail/nix/socket_operations.cpp.
    The operating system has sockets, numbered in the order in which they were made, each with a descriptor while it is open; descriptors are
    used again once they are closed, and other parts of the program open and close descriptors of their own.  What a system call answers is
    chosen freely within what POSIX allows.
    The socket service is represented by the pending requests of accept_async; it fires each at most once, while it exists, and forgets the
    requests of a descriptor some time after remove_socket (Service_Props: notified_at_most_once, not_notified_after_removal).
    Simplifications: the methods of one object are not called concurrently (m_socket_handle is not atomic); sending, receiving and connecting
    are C40-C43 and appear here only by the state they leave; the configuration and the endpoints are left out. *)
From Verif Require Import Common.
Open Scope nat_scope.

(** A socket of the operating system.  [k_own]: made by a socket object, and not by another part of the program. *)
Record ksock := Ksock { k_fd : Z; k_open : bool; k_own : bool; k_nonblock : bool; k_listening : bool }.
Inductive kind := Tcp | Udp | Listen.
Inductive conn_state := Disconnected | Connecting | Connected.
(** base_socket.hpp:163-169, listen_socket.hpp m_is_listening, tcp_socket.hpp m_connected_state.  [o_service]: m_weak_socket_service is not
    empty. *)
Record obj := Obj {
  o_alive : bool;
  o_kind : kind;
  o_handle : Z;
  o_service : bool;
  o_id : nat;
  o_async : bool; (* m_mode *)
  o_listening : bool;
  o_conn : conn_state }.
(** A request of accept_async that the service has: the call, the object, the descriptor; remove_socket was called for the descriptor. *)
Record pending := Pending { q_call : nat; q_obj : nat; q_handle : Z; q_removed : bool }.
(** What can be observed.  Objects are numbered in the order of their construction, calls of accept_async likewise. *)
Inductive event :=
| EOpen (k i : nat) (* the operating system made socket k for object i *)
| EClose (i k : nat) (* object i closes the descriptor of socket k *)
| ECloseBad (i : nat) (* object i closes a descriptor that is not open *)
| EMove (i j : nat) (* object i was moved into object j, by construction or assignment *)
| EDestroy (i : nat)
| EListen (i : nat) (ok : bool)
| EAccept (i : nat) (r : option nat) (* accept() of object i returned *)
| EAsync (c i : nat) (ok : bool) (* call c, accept_async of object i, returned ok *)
| ECall (c i : nat) (r : option nat) (* the callback of call c is invoked, object i is the listener *)
| ELost (c : nat). (* the callback was destroyed *)
Record state := State {
  n_ks : nat; ks : nat -> ksock;
  n_objs : nat; objs : nat -> obj;
  next_id : nat; (* s_num_sockets *)
  requests : list pending;
  service : bool; (* the service exists *)
  next_call : nat;
  hist : list event }.

Definition upd {A} (f : nat -> A) (i : nat) (v : A) : nat -> A := fun j => if Nat.eqb j i then v else f j.
Definition invalid : Z := (-1)%Z. (* nix/socket_operations.cpp:107-110 *)
Definition log (s : state) (l : list event) : state :=
  State (n_ks s) (ks s) (n_objs s) (objs s) (next_id s) (requests s) (service s) (next_call s) (hist s ++ l).
Definition set_obj (s : state) (i : nat) (o : obj) : state :=
  State (n_ks s) (ks s) (n_objs s) (upd (objs s) i o) (next_id s) (requests s) (service s) (next_call s) (hist s).
Definition set_ks (s : state) (k : nat) (x : ksock) : state :=
  State (n_ks s) (upd (ks s) k x) (n_objs s) (objs s) (next_id s) (requests s) (service s) (next_call s) (hist s).
Definition set_requests (s : state) (l : list pending) : state :=
  State (n_ks s) (ks s) (n_objs s) (objs s) (next_id s) l (service s) (next_call s) (hist s).
(** The socket that a descriptor refers to. *)
Definition resolve (s : state) (h : Z) : option nat := find (fun k => k_open (ks s k) && (k_fd (ks s k) =? h)%Z) (seq 0 (n_ks s)).
(** The operating system makes a socket; [h] is not in use. *)
Definition unused (s : state) (h : Z) : Prop := (0 <= h)%Z /\ resolve s h = None.
Definition kernel_socket (s : state) (h : Z) (own : bool) : state :=
  State (S (n_ks s)) (upd (ks s) (n_ks s) (Ksock h true own false false)) (n_objs s) (objs s) (next_id s) (requests s) (service s) (next_call s) (hist s).
Definition kernel_close (s : state) (k : nat) : state :=
  let x := ks s k in set_ks s k (Ksock (k_fd x) false (k_own x) (k_nonblock x) (k_listening x)).
(** base_socket.cpp:186-189 m_weak_socket_service.lock() *)
Definition has_service (s : state) (i : nat) : bool := o_service (objs s i) && service s.
Definition with_handle (o : obj) (h : Z) : obj := Obj (o_alive o) (o_kind o) h (o_service o) (o_id o) (o_async o) (o_listening o) (o_conn o).
(** nix/socket_operations.cpp:165-168 ::close *)
Definition os_close (s : state) (i : nat) (h : Z) : state :=
  match resolve s h with Some k => log (kernel_close s k) [EClose i k] | None => log s [ECloseBad i] end.
(** socket_service.cpp:48-61 remove_socket, for the requests that were posted before *)
Definition remove_socket (s : state) (h : Z) : state :=
  set_requests s (map (fun q => if (q_handle q =? h)%Z then Pending (q_call q) (q_obj q) (q_handle q) true else q) (requests s)).
(** base_socket.cpp:146-158 *)
Definition close (s : state) (i : nat) : state :=
  let h := o_handle (objs s i) in
  if (h =? invalid)%Z then s
  else
    let s := if has_service s i then remove_socket s h else s in
    let s := os_close s i h in
    set_obj s i (with_handle (objs s i) invalid).
(** base_socket.cpp:123-136 with nix/socket_operations.cpp:185-205; [ok]: both ::fcntl succeed (they cannot for a bad descriptor). *)
Definition set_io_mode (s : state) (i : nat) (async ok : bool) : state :=
  let o := objs s i in
  match resolve s (o_handle o), ok with
  | Some k, true =>
      let x := ks s k in
      let s := set_ks s k (Ksock (k_fd x) (k_open x) (k_own x) async (k_listening x)) in
      set_obj s i (Obj (o_alive o) (o_kind o) (o_handle o) (o_service o) (o_id o) async (o_listening o) (o_conn o))
  | _, _ => close s i
  end.
(** base_socket.cpp:22-46: the object is made around the descriptor [h]; a service is attached after the IO mode was set.
    tcp_socket.cpp:37-55: [conn] is Connected for accepted sockets. *)
Definition construct (s : state) (kd : kind) (h : Z) (svc async ok : bool) (conn : conn_state) : state :=
  let i := n_objs s in
  let s := State (n_ks s) (ks s) (S i) (upd (objs s) i (Obj true kd h false (next_id s) async false conn)) (S (next_id s)) (requests s) (service s) (next_call s)
    (hist s ++ match resolve s h with Some k => [EOpen k i] | None => [] end) in
  let s := set_io_mode s i async ok in
  let o := objs s i in
  set_obj s i (Obj (o_alive o) (o_kind o) (o_handle o) svc (o_id o) (o_async o) (o_listening o) (o_conn o)).
(** base_socket.cpp:47-55, listen_socket.cpp:40-45, tcp_socket.cpp:59-64, udp_socket.cpp:37-40: what the new object gets ... *)
Definition moved_into (o : obj) : obj := Obj true (o_kind o) (o_handle o) (o_service o) (o_id o) (o_async o) (o_listening o) (o_conn o).
(** ... and what is left in the old one. *)
Definition moved_from (o : obj) : obj := Obj (o_alive o) (o_kind o) invalid false (o_id o) (o_async o) false Disconnected.
Definition move_construct (s : state) (i : nat) : state :=
  let j := n_objs s in
  let o := objs s i in
  State (n_ks s) (ks s) (S j) (upd (upd (objs s) j (moved_into o)) i (moved_from o)) (next_id s) (requests s) (service s) (next_call s) (hist s ++ [EMove i j]).
(** base_socket.cpp:66-77, listen_socket.cpp:70-76, tcp_socket.cpp:111-116, udp_socket.cpp:65-68 *)
Definition move_assign (s : state) (i j : nat) : state :=
  let o := objs s i in
  let s := set_obj s j (moved_into o) in
  log (set_obj s i (moved_from o)) [EMove i j].
(** The same with the object itself on both sides; [svc]: what a std::weak_ptr is after it was moved into itself. *)
Definition self_assign (s : state) (i : nat) (svc : bool) : state :=
  let o := objs s i in
  log (set_obj s i (Obj (o_alive o) (o_kind o) invalid svc (o_id o) (o_async o) false (o_conn o))) [EMove i i].
(** base_socket.cpp:59-62 *)
Definition destroy (s : state) (i : nat) : state :=
  let s := close s i in
  let o := objs s i in
  log (set_obj s i (Obj false (o_kind o) (o_handle o) (o_service o) (o_id o) (o_async o) (o_listening o) (o_conn o))) [EDestroy i].
(** listen_socket.cpp:81-85 with nix/socket_operations.cpp:290-299 *)
Definition listen (s : state) (i : nat) (ok : bool) : state :=
  let o := objs s i in
  let set s b := set_obj s i (Obj (o_alive o) (o_kind o) (o_handle o) (o_service o) (o_id o) (o_async o) b (o_conn o)) in
  match resolve s (o_handle o), ok with
  | Some k, true =>
      let x := ks s k in
      log (set (set_ks s k (Ksock (k_fd x) (k_open x) (k_own x) (k_nonblock x) true)) true) [EListen i true]
  | _, _ => log (set s false) [EListen i false]
  end.
(** tcp_socket.cpp:127-149, and what other functions do that close the socket on an error; [st]: what ::connect says. *)
Definition connect (s : state) (i : nat) (st : conn_state) : state :=
  let s := match st with Disconnected => close s i | _ => s end in
  let o := objs s i in
  set_obj s i (Obj (o_alive o) (o_kind o) (o_handle o) (o_service o) (o_id o) (o_async o) (o_listening o) st).
(** What ::accept answers: a new descriptor; -1 with EWOULDBLOCK; -1 with another error. *)
Inductive accept_answer := Accepted (h : Z) | WouldBlock | Failed.
(** ::accept gives a descriptor only for a listening socket; it fails with EBADF for a descriptor that is not open. *)
Definition may_answer (s : state) (i : nat) (a : accept_answer) : Prop :=
  match a with
  | Accepted h => unused s h /\ exists k, resolve s (o_handle (objs s i)) = Some k /\ k_listening (ks s k) = true
  | WouldBlock => resolve s (o_handle (objs s i)) <> None
  | Failed => True
  end.
(** listen_socket.cpp:96-112.  [ok]: the IO mode of the new socket can be set. *)
Definition accept (s : state) (i : nat) (a : accept_answer) (ok : bool) : state :=
  match a with
  | Accepted h =>
      let j := n_objs s in
      log (construct (kernel_socket s h true) Tcp h false (o_async (objs s i)) ok Connected) [EAccept i (Some j)]
  | _ => log (close s i) [EAccept i None]
  end.
(** listen_socket.cpp:114-128 for call [c] *)
Definition accept_async (s : state) (i c : nat) : state :=
  if has_service s i then set_requests s (requests s ++ [Pending c i (o_handle (objs s i)) false]) else log s [ELost c].
(** listen_socket.cpp:132-157; the request is not pending any more. *)
Definition ready_to_accept (s : state) (i c : nat) (a : accept_answer) (ok : bool) : state :=
  match a with
  | Accepted h =>
      let j := n_objs s in
      log (construct (kernel_socket s h true) Tcp h (has_service s i) true ok Connected) [ECall c i (Some j)]
  | WouldBlock => accept_async s i c
  | Failed => log (close s i) [ECall c i None]
  end.

Definition alive (s : state) (i : nat) : Prop := o_alive (objs s i) = true.
Inductive step (s : state) : state -> Prop :=
(* tcp_socket.cpp:13-33, udp_socket.cpp:13-33, listen_socket.cpp:14-39: ::socket fails, or makes a socket *)
| s_new_failed kd svc async : (svc = true -> async = true) ->
    step s (construct s kd invalid svc async false Disconnected)
| s_new kd svc async h ok : (svc = true -> async = true) -> unused s h ->
    step s (construct (kernel_socket s h true) kd h svc async ok Disconnected)
| s_move i : alive s i -> step s (move_construct s i)
| s_assign i j : alive s i -> alive s j -> i <> j -> o_kind (objs s i) = o_kind (objs s j) -> step s (move_assign s i j)
| s_self_assign i svc : alive s i -> step s (self_assign s i svc)
| s_destroy i : alive s i -> step s (destroy s i)
| s_close i : alive s i -> step s (close s i)
| s_io_mode i async ok : alive s i -> step s (set_io_mode s i async ok)
| s_listen i ok : alive s i -> o_kind (objs s i) = Listen -> step s (listen s i ok)
| s_connect i st : alive s i -> o_kind (objs s i) = Tcp -> (st <> Disconnected -> resolve s (o_handle (objs s i)) <> None) -> step s (connect s i st)
| s_accept i a ok : alive s i -> o_kind (objs s i) = Listen -> may_answer s i a -> step s (accept s i a ok)
(* accept_async, with a callback; returns true or, without a service, false *)
| s_async i : alive s i -> o_kind (objs s i) = Listen ->
    let c := next_call s in
    let s1 := State (n_ks s) (ks s) (n_objs s) (objs s) (next_id s) (requests s) (service s) (S c) (hist s ++ [EAsync c i (has_service s i)]) in
    step s (accept_async s1 i c)
(* the service fires a request *)
| s_fire l q r a ok : service s = true -> requests s = l ++ q :: r -> alive s (q_obj q) ->
    may_answer s (q_obj q) a -> step s (ready_to_accept (set_requests s (l ++ r)) (q_obj q) (q_call q) a ok)
(* the object is gone (socket_service.hpp:217-222); remove_socket was called; the service is gone *)
| s_forget l q r : requests s = l ++ q :: r -> ~ alive s (q_obj q) \/ q_removed q = true \/ service s = false ->
    step s (log (set_requests s (l ++ r)) [ELost (q_call q)])
| s_service_gone :
    step s (State (n_ks s) (ks s) (n_objs s) (objs s) (next_id s) (requests s) false (next_call s) (hist s))
(* other parts of the program *)
| s_other_open h : unused s h -> step s (kernel_socket s h false)
| s_other_close k : k < n_ks s -> k_open (ks s k) = true -> k_own (ks s k) = false -> step s (kernel_close s k).

Definition no_ksock : ksock := Ksock invalid false false false false.
Definition no_obj : obj := Obj false Tcp invalid false 0 false false Disconnected.
Definition initial : state := State 0 (fun _ => no_ksock) 0 (fun _ => no_obj) 0 [] true 0 [].
Inductive reachable : state -> Prop :=
| r_initial : reachable initial
| r_step s s' : reachable s -> step s s' -> reachable s'.
