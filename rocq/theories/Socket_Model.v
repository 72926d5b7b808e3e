(** Model of one socket: TcpSocket, UdpSocket (fly/net/socket/tcp_socket.cpp, udp_socket.cpp), their base
    (fly/net/socket/detail/base_socket.cpp) and the system-call wrappers of
    fly/net/socket/detail/nix/socket_operations.cpp.
    What the operating system answers is chosen freely at each call (the arguments of the steps), within what
    POSIX allows: ::send takes between 1 and the offered number of bytes, ::sendto all of them (a datagram), ::recv returns between 1 and the
    offered number of the bytes that have arrived, or they fail.
    The socket service is represented by the queues of the requests for this socket, in the order in which
    they were posted: it fires the oldest one of a direction, each at most once, and forgets all of them some
    time after the socket was closed (Service_Props: notified_in_order, notified_at_most_once,
    not_notified_after_removal).
    Simplifications: the methods of one socket are not called concurrently (m_socket_handle is not atomic);
    the memory of the std::string_view given to send_async stays alive; log output, endpoints and host names are
    left out (one remote endpoint); registering a request for a closed socket makes the service's next
    ::select undefined (Service_Props.service_undefined), which is represented by [undefined] at the call. *)
From Verif Require Import Common.
Open Scope nat_scope.

Inductive proto := Tcp | Udp.
(** types.hpp ConnectedState *)
Inductive conn_state := Disconnected | Connecting | Connected.
(** What ::send or ::sendto answers: it took n > 0 bytes; or -1 with EWOULDBLOCK ([Refused true]); or 0, or -1 with
    another error ([Refused false]). *)
Inductive send_answer := Took (n : nat) | Refused (blocked : bool).
(** ::recv and ::recvfrom: n bytes (0: end of the stream, or an empty datagram, or packet_size is 0); -1 with
    EWOULDBLOCK ([NoData true]) or another error. *)
Inductive recv_answer := Got (n : nat) | NoData (blocked : bool).

(** Requests waiting for the socket to become writable: tcp_socket.cpp:258-273 and 333-342 (udp_socket.cpp:107-126,
    208-223), the message still to send, bytes_sent and total_bytes; tcp_socket.cpp:165-185. *)
Inductive write_request :=
| WSend (i : nat) (message : list Z) (bytes_sent total_bytes : nat)
| WConnect (i : nat).
(** ... readable: tcp_socket.cpp:296-310 and 366-376 (udp_socket.cpp:170-185, 248-258) *)
Inductive read_request := RReceive (i : nat) (received : list Z).

(** What can be observed; operations are numbered. *)
Inductive event :=
| ESend (i : nat) (async : bool) (message : list Z) (* send or send_async was called *)
| ETook (i : nat) (chunk : list Z) (* the operating system has taken these bytes *)
| ESent (i : nat) (n : nat) (* send returned n, or the callback of send_async was invoked with n *)
| EReceive (i : nat) (async : bool) (* receive or receive_async was called *)
| EArrived (bytes : list Z) (* Tcp: more bytes have arrived; Udp: a datagram has *)
| EReceived (i : nat) (bytes : list Z) (* receive returned, or its callback was invoked *)
| EConnect (i : nat) (st : conn_state) (* connect or connect_async returned *)
| EFinished (i : nat) (st : conn_state) (* the callback of connect_async was invoked *)
| EClosed (* the handle was closed *)
| EConfig (n : nat). (* from now on packet_size() is n *)

Record state := State {
  protocol : proto;
  packet_size : nat; (* network_config.cpp:15-18 *)
  is_open : bool; (* base_socket.cpp:96-99 *)
  connected_state : conn_state; (* m_connected_state *)
  write_queue : list write_request;
  read_queue : list read_request;
  incoming : list (list Z); (* what has arrived and was not received yet *)
  service_alive : bool;
  undefined : bool;
  next_op : nat;
  log : list event }.

Definition with_log (s : state) (l : list event) : state :=
  State (protocol s) (packet_size s) (is_open s) (connected_state s) (write_queue s) (read_queue s) (incoming s) (service_alive s) (undefined s) (next_op s) (log s ++ l).
Definition with_conn (s : state) (c : conn_state) : state :=
  State (protocol s) (packet_size s) (is_open s) c (write_queue s) (read_queue s) (incoming s) (service_alive s) (undefined s) (next_op s) (log s).
Definition with_write (s : state) (q : list write_request) : state :=
  State (protocol s) (packet_size s) (is_open s) (connected_state s) q (read_queue s) (incoming s) (service_alive s) (undefined s) (next_op s) (log s).
Definition with_read (s : state) (q : list read_request) : state :=
  State (protocol s) (packet_size s) (is_open s) (connected_state s) (write_queue s) q (incoming s) (service_alive s) (undefined s) (next_op s) (log s).
Definition with_incoming (s : state) (l : list (list Z)) : state :=
  State (protocol s) (packet_size s) (is_open s) (connected_state s) (write_queue s) (read_queue s) l (service_alive s) (undefined s) (next_op s) (log s).
Definition with_packet (s : state) (n : nat) : state :=
  State (protocol s) n (is_open s) (connected_state s) (write_queue s) (read_queue s) (incoming s) (service_alive s) (undefined s) (next_op s) (log s).
Definition numbered (s : state) : state :=
  State (protocol s) (packet_size s) (is_open s) (connected_state s) (write_queue s) (read_queue s) (incoming s) (service_alive s) (undefined s) (S (next_op s)) (log s).
Definition make_undefined (s : state) : state :=
  State (protocol s) (packet_size s) (is_open s) (connected_state s) (write_queue s) (read_queue s) (incoming s) (service_alive s) true (next_op s) (log s).
Definition without_service (s : state) : state :=
  State (protocol s) (packet_size s) (is_open s) (connected_state s) [] [] (incoming s) false (undefined s) (next_op s) (log s).

(** base_socket.cpp:145-158 close.  The requests stay until the service has processed remove_socket. *)
Definition close (s : state) : state :=
  if is_open s then
    State (protocol s) (packet_size s) false (connected_state s) (write_queue s) (read_queue s) (incoming s) (service_alive s) (undefined s) (next_op s) (log s ++ [EClosed])
  else s.

(** socket_operations.cpp:361-391 send and 396-437 send_to: the number of bytes sent, would_block, and the
    chunks that the operating system has taken, given its answers to the successive calls.  None: no such answers. *)
Fixpoint send_loop (p : proto) (packet : nat) (open : bool) (answers : list send_answer) (message : list Z) : option (nat * bool * list (list Z)) :=
  match message with
  | [] => match answers with [] => Some (0, false, []) | _ => None end
  | _ =>
      match answers with
      | [] => None
      | Refused blocked :: rest => match rest with [] => if open then Some (0, blocked, []) else Some (0, false, []) | _ => None end
      | Took n :: rest =>
          let size := match p with Tcp => length message | Udp => Nat.min packet (length message) end in
          if open && (1 <=? n) && match p with Tcp => n <=? size | Udp => n =? size end then
            match send_loop p packet open rest (skipn n message) with
            | Some (bytes, blocked, chunks) => Some (n + bytes, blocked, firstn n message :: chunks)
            | None => None
            end
          else None
      end
  end.

(** socket_operations.cpp:455-479 recv and 481-516 recv_from: the received bytes, would_block, and what is left.
    Tcp: a stream; Udp: one datagram, cut at packet_size. *)
Definition recv_model (p : proto) (packet : nat) (open : bool) (answer : recv_answer) (arrived : list (list Z)) : option (list Z * bool * list (list Z)) :=
  match answer with
  | NoData blocked => Some ([], open && blocked, arrived)
  | Got n =>
      if open then
        match p with
        | Tcp =>
            if n <=? Nat.min packet (length (concat arrived)) then
              Some (firstn n (concat arrived), false, [skipn n (concat arrived)])
            else None
        | Udp =>
            match arrived with
            | datagram :: rest => if n =? Nat.min packet (length datagram) then Some (firstn n datagram, false, rest) else None
            | [] => None
            end
        end
      else None
  end.

Definition took (i : nat) (chunks : list (list Z)) : list event := map (ETook i) chunks.

(** tcp_socket.cpp:238-255 send, udp_socket.cpp:71-90 *)
Definition send (s : state) (message : list Z) (answers : list send_answer) : option state :=
  match send_loop (protocol s) (packet_size s) (is_open s) answers message with
  | Some (bytes_sent, _, chunks) =>
      let i := next_op s in
      let s := with_log (numbered s) (ESend i false message :: took i chunks) in
      Some (with_log (if bytes_sent =? 0 then close s else s) [ESent i bytes_sent])
  | None => None
  end.
(** tcp_socket.cpp:258-273 send_async, udp_socket.cpp:107-126 (returning true) *)
Definition send_async (s : state) (message : list Z) : state :=
  let i := next_op s in
  let s := with_log (numbered s) [ESend i true message] in
  if is_open s then with_write s (write_queue s ++ [WSend i message 0 (length message)]) else make_undefined s.
(** tcp_socket.cpp:314-350 ready_to_send, udp_socket.cpp:188-231; [q]: the other requests *)
Definition ready_to_send (s : state) (q : list write_request) (i : nat) (message : list Z) (bytes_sent total_bytes : nat) (answers : list send_answer) : option state :=
  match send_loop (protocol s) (packet_size s) (is_open s) answers message with
  | Some (current_sent, would_block, chunks) =>
      let bytes_sent := bytes_sent + current_sent in
      let s := with_log (with_write s q) (took i chunks) in
      if current_sent =? length message then Some (with_log s [ESent i bytes_sent])
      else if would_block then Some (with_write s (q ++ [WSend i (skipn current_sent message) bytes_sent total_bytes]))
      else Some (with_log (close s) [ESent i bytes_sent])
  | None => None
  end.

(** tcp_socket.cpp:276-292 receive, udp_socket.cpp:148-167 *)
Definition receive (s : state) (answer : recv_answer) : option state :=
  match recv_model (protocol s) (packet_size s) (is_open s) answer (incoming s) with
  | Some (received, _, remaining) =>
      let i := next_op s in
      let s := with_log (with_incoming (numbered s) remaining) [EReceive i false] in
      Some (with_log (if length received =? 0 then close s else s) [EReceived i received])
  | None => None
  end.
(** tcp_socket.cpp:296-310 receive_async, udp_socket.cpp:170-185 *)
Definition receive_async (s : state) : state :=
  let i := next_op s in
  let s := with_log (numbered s) [EReceive i true] in
  if is_open s then with_read s (read_queue s ++ [RReceive i []]) else make_undefined s.
(** tcp_socket.cpp:353-384 ready_to_receive, udp_socket.cpp:234-266 *)
Definition ready_to_receive (s : state) (q : list read_request) (i : nat) (received : list Z) (answer : recv_answer) : option state :=
  match recv_model (protocol s) (packet_size s) (is_open s) answer (incoming s) with
  | Some (current_received, would_block, remaining) =>
      let s := with_incoming (with_read s q) remaining in
      let received := received ++ current_received in
      match current_received with
      | _ :: _ => Some (with_log s [EReceived i received])
      | [] => if would_block then Some (with_read s (q ++ [RReceive i received]))
              else Some (with_log (close s) [EReceived i received])
      end
  | None => None
  end.

(** tcp_socket.cpp:126-149 connect; [st]: what detail::connect (socket_operations.cpp:333-352) made of the result of
    ::connect, which fails (not with EINTR or EINPROGRESS) for a closed socket *)
Definition connect (s : state) (st : conn_state) : option state :=
  if match st with Disconnected => true | _ => is_open s end then
    Some (with_conn (match st with Disconnected => close s | _ => s end) st)
  else None.
(** tcp_socket.cpp:164-185 connect_async *)
Definition connect_async (s : state) (st : conn_state) : option state :=
  let i := next_op s in
  match connect (numbered s) st with
  | Some s => let s := with_log s [EConnect i st] in
              Some (match st with Connecting => with_write s (write_queue s ++ [WConnect i]) | _ => s end)
  | None => None
  end.
(** tcp_socket.cpp:203-222 finish_connect; [error_free]: socket_operations.cpp:185-196, false for a closed socket *)
Definition finish_connect (s : state) (error_free : bool) : state * conn_state :=
  if is_open s && (match connected_state s with Connecting => true | _ => false end) && error_free
  then (with_conn s Connected, Connected)
  else (with_conn (close s) Disconnected, Disconnected).

Inductive step : state -> state -> Prop :=
| SSend s m a s' : send s m a = Some s' -> step s s'
| SSendAsync s m : service_alive s = true -> step s (send_async s m)
| SWritable s i m b t q a s' : write_queue s = WSend i m b t :: q -> ready_to_send s q i m b t a = Some s' -> step s s'
| SReceive s a s' : receive s a = Some s' -> step s s'
| SReceiveAsync s : service_alive s = true -> step s (receive_async s)
| SReadable s i r q a s' : read_queue s = RReceive i r :: q -> ready_to_receive s q i r a = Some s' -> step s s'
| SConnect s st s' : protocol s = Tcp -> connect (numbered s) st = Some s' -> step s (with_log s' [EConnect (next_op s) st])
| SConnectAsync s st s' : protocol s = Tcp -> service_alive s = true -> connect_async s st = Some s' -> step s s'
| SConnectable s i q e s' st : write_queue s = WConnect i :: q -> finish_connect (with_write s q) e = (s', st) -> step s (with_log s' [EFinished i st])
| SFinish s e s' st : protocol s = Tcp -> finish_connect s e = (s', st) -> step s s' (* called by the user *)
| SClose s : step s (close s)
| SForget s : is_open s = false -> step s (with_read (with_write s []) []) (* the service has processed remove_socket *)
| SArrive s b : step s (with_log (with_incoming s (incoming s ++ [b])) [EArrived b])
| SConfig s n : step s (with_log (with_packet s n) [EConfig n]) (* the configuration has changed *)
| SServiceGone s : step s (without_service s).

(** tcp_socket.cpp:13-55, udp_socket.cpp:13-33: a new socket, of a service or accepted by a ListenSocket *)
Definition initial (s : state) : Prop :=
  is_open s = true /\ (connected_state s = Disconnected \/ (protocol s = Tcp /\ connected_state s = Connected)) /\
  write_queue s = [] /\ read_queue s = [] /\ incoming s = [] /\ undefined s = false /\ next_op s = 0 /\ log s = [EConfig (packet_size s)].
Inductive reaches : state -> Prop :=
| reaches_initial s : initial s -> reaches s
| reaches_step s s' : reaches s -> undefined s = false -> step s s' -> reaches s'.
