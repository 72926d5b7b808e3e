(** Model of how endpoints are handed to and taken from the operating system: fly/net/socket/detail/nix/socket_operations.cpp:39-89 (conversions),
    119-145 (hostname_to_address), 221-253 (local_endpoint, remote_endpoint), 259-284 (bind), 304-324 (accept), 333-352 (connect), 396-438 (send_to),
    481-514 (recv_from), and the overloads with a host name (base_socket.cpp:80-92, 168-178; tcp_socket.cpp:152-161; udp_socket.cpp:94-104).
    A structure sockaddr_in or sockaddr_in6 is the list of its bytes, in the layout of Linux; an IPv4 address is m_address (Net_Model), an IPv6
    address its 16 bytes.  What the operating system answers is a parameter of each function.
    Simplified: descriptors and log output are left out; the operating system fills in a complete address of the socket's family. *)
From Verif Require Import Common BitStream_Model Net_Model.
Open Scope Z_scope.

Definition af_inet : Z := 2.
Definition af_inet6 : Z := 10.
(** in.h: htons and ntohs *)
Definition htons (host_big : bool) (p : Z) : Z := to_big_endian host_big 2 p.
Definition ntohs (host_big : bool) (p : Z) : Z := to_big_endian host_big 2 p.

(** in.h: struct sockaddr_in and sockaddr_in6, their members as integers *)
Record sockaddr_in := SockaddrIn { sin_family : Z; sin_port : Z; s_addr : Z; sin_zero : list Z }.
Record sockaddr_in6 := SockaddrIn6 { sin6_family : Z; sin6_port : Z; sin6_flowinfo : Z; s6_addr : list Z; sin6_scope_id : Z }.
(** base(address), socket_operations.cpp:88-99: the bytes of the structure; and the structure the bytes make. *)
Definition bytes_in (hb : bool) (a : sockaddr_in) : list Z :=
  mem_store hb 2 (sin_family a) ++ mem_store hb 2 (sin_port a) ++ mem_store hb 4 (s_addr a) ++ sin_zero a.
Definition bytes_in6 (hb : bool) (a : sockaddr_in6) : list Z :=
  mem_store hb 2 (sin6_family a) ++ mem_store hb 2 (sin6_port a) ++ mem_store hb 4 (sin6_flowinfo a) ++ s6_addr a ++ mem_store hb 4 (sin6_scope_id a).
Definition slice (l : list Z) (from n : nat) : list Z := firstn n (skipn from l).
Definition load_in (hb : bool) (b : list Z) : sockaddr_in :=
  SockaddrIn (mem_load hb (slice b 0 2)) (mem_load hb (slice b 2 2)) (mem_load hb (slice b 4 4)) (slice b 8 8).
Definition load_in6 (hb : bool) (b : list Z) : sockaddr_in6 :=
  SockaddrIn6 (mem_load hb (slice b 0 2)) (mem_load hb (slice b 2 2)) (mem_load hb (slice b 4 4)) (slice b 8 16) (mem_load hb (slice b 24 4)).

(** socket_operations.cpp:39-47 create_address *)
Definition create_address4 (a : sockaddr_in) : Z := s_addr a.
Definition create_address6 (a : sockaddr_in6) : list Z := s6_addr a.
(** 49-69 endpoint_to_address *)
Definition endpoint_to_address4 (hb : bool) (e : Z * Z) : sockaddr_in :=
  SockaddrIn af_inet (htons hb (snd e)) (network_order (fst e)) (repeat 0 8).
Definition endpoint_to_address6 (hb : bool) (e : list Z * Z) : sockaddr_in6 :=
  SockaddrIn6 af_inet6 (htons hb (snd e)) 0 (fst e) 0.
(** 71-86 address_to_endpoint *)
Definition address_to_endpoint4 (hb : bool) (a : sockaddr_in) : Z * Z := (create_address4 a, ntohs hb (sin_port a)).
Definition address_to_endpoint6 (hb : bool) (a : sockaddr_in6) : list Z * Z := (create_address6 a, ntohs hb (sin6_port a)).

(** What is asked of the operating system: setsockopt SO_REUSEADDR, bind, connect, sendto. *)
Inductive call := CReuse | CBind (address : list Z) | CConnect (address : list Z) | CSendTo (message : list Z) (address : list Z).
(** types.hpp BindMode, ConnectedState *)
Inductive bind_mode := SingleUse | AllowReuse.
Inductive state := Disconnected | Connecting | Connected.
Definition eintr : Z := 4.
Definition einprogress : Z := 115.
(** c_str(): up to the first NUL *)
Fixpoint c_str (s : list Z) : list Z := match s with [] => [] | c :: r => if c =? 0 then [] else c :: c_str r end.

Section Family.
Context {A : Type}.
Variable to_address : A * Z -> list Z.   (* endpoint_to_address, the bytes *)
Variable to_endpoint : list Z -> A * Z.  (* address_to_endpoint *)
Variable address_of : list Z -> A.       (* create_address *)

(** socket_operations.cpp:259-284; [reuse_ok], [bind_ok]: whether setsockopt and bind succeed. *)
Definition bind (e : A * Z) (mode : bind_mode) (reuse_ok bind_ok : bool) : list call * bool :=
  match mode with
  | AllowReuse => if reuse_ok then ([CReuse; CBind (to_address e)], bind_ok) else ([CReuse], false)
  | SingleUse => ([CBind (to_address e)], bind_ok)
  end.
(** 333-352; [error]: errno if ::connect fails *)
Definition connect (e : A * Z) (error : option Z) : list call * state :=
  ([CConnect (to_address e)],
   match error with
   | Some n => if (n =? eintr) || (n =? einprogress) then Connecting else Disconnected
   | None => Connected
   end).
(** 396-438; [os rest]: how many bytes ::sendto takes when [rest] is left (0: none, or it fails). *)
Fixpoint send_loop (fuel : nat) (packet_size : nat) (e : A * Z) (os : list Z -> nat) (message : list Z) (bytes_sent : nat) : list call * nat :=
  match fuel with
  | O => ([], bytes_sent)
  | S fuel =>
      match message with
      | [] => ([], bytes_sent)
      | _ =>
          let size := Nat.min packet_size (length message) in
          let c := CSendTo (firstn size message) (to_address e) in
          match os message with
          | O => ([c], bytes_sent)
          | S _ as bytes => let (cs, n) := send_loop fuel packet_size e os (skipn bytes message) (bytes_sent + bytes) in (c :: cs, n)
          end
      end
  end.
Definition send_to (packet_size : nat) (e : A * Z) (os : list Z -> nat) (message : list Z) : list call * nat :=
  send_loop (S (length message)) packet_size e os message 0.
(** 221-234, 240-253: [answer]: what getsockname or getpeername fill in *)
Definition local_endpoint (answer : option (list Z)) : option (A * Z) := option_map to_endpoint answer.
Definition remote_endpoint (answer : option (list Z)) : option (A * Z) := option_map to_endpoint answer.
(** 304-324: the new descriptor and the address of the client, or nothing; [endpoint] is the caller's variable. *)
Definition accept (answer : option (Z * list Z)) (endpoint : A * Z) : option Z * (A * Z) :=
  match answer with
  | Some (client, address) => (Some client, to_endpoint address)
  | None => (None, endpoint)
  end.
(** 481-514: the bytes received and the address of the sender; nothing, if there are none or recvfrom fails *)
Definition recv_from (answer : option (list Z * list Z)) (endpoint : A * Z) : list Z * (A * Z) :=
  match answer with
  | Some ((_ :: _) as bytes, address) => (bytes, to_endpoint address)
  | _ => ([], endpoint)
  end.
(** 119-145; [resolve]: the addresses getaddrinfo gives for a name; at least one if it succeeds *)
Variable resolve : list Z -> option (list Z * list (list Z)).
Definition hostname_to_address (hostname : list Z) : option A :=
  match resolve (c_str hostname) with
  | Some (first, _) => Some (address_of first)
  | None => None
  end.
(** base_socket.cpp:168-178 *)
Definition bind_name (hostname : list Z) (port : Z) (mode : bind_mode) (reuse_ok bind_ok : bool) : list call * bool :=
  match hostname_to_address hostname with Some a => bind (a, port) mode reuse_ok bind_ok | None => ([], false) end.
(** tcp_socket.cpp:152-161 *)
Definition connect_name (hostname : list Z) (port : Z) (error : option Z) : list call * state :=
  match hostname_to_address hostname with Some a => connect (a, port) error | None => ([], Disconnected) end.
(** udp_socket.cpp:94-104 *)
Definition send_name (packet_size : nat) (hostname : list Z) (port : Z) (os : list Z -> nat) (message : list Z) : list call * nat :=
  match hostname_to_address hostname with Some a => send_to packet_size (a, port) os message | None => ([], 0%nat) end.
End Family.

(** The two families. *)
Definition to_address4 (hb : bool) (e : Z * Z) : list Z := bytes_in hb (endpoint_to_address4 hb e).
Definition to_address6 (hb : bool) (e : list Z * Z) : list Z := bytes_in6 hb (endpoint_to_address6 hb e).
Definition to_endpoint4 (hb : bool) (b : list Z) : Z * Z := address_to_endpoint4 hb (load_in hb b).
Definition to_endpoint6 (hb : bool) (b : list Z) : list Z * Z := address_to_endpoint6 hb (load_in6 hb b).
Definition address_of4 (hb : bool) (b : list Z) : Z := create_address4 (load_in hb b).
Definition address_of6 (hb : bool) (b : list Z) : list Z := create_address6 (load_in6 hb b).
