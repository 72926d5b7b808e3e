(** Specification vocabulary for C77: socket addresses as the operating system sees them (ip(7), ipv6(7)). *)
From Verif Require Import Common Net_Spec.
Open Scope Z_scope.

(** The address family, in the byte order of the host. *)
Definition family (host_big : bool) (n : Z) : list Z := if host_big then [0; n] else [n; 0].
(** The port, in network order: the high byte first. *)
Definition network_port (p : Z) : list Z := [p / 256; p mod 256].
(** IPv4: family 2, port, the four octets of the address as they are written, eight unused bytes. *)
Definition wire4 (host_big : bool) (four : list Z) (port : Z) (unused : list Z) : list Z := family host_big 2 ++ network_port port ++ four ++ unused.
(** IPv6: family 10, port, flow information, the sixteen bytes of the address, scope. *)
Definition wire6 (host_big : bool) (flow sixteen : list Z) (port : Z) (scope : list Z) : list Z := family host_big 10 ++ network_port port ++ flow ++ sixteen ++ scope.
Definition bytes (n : nat) (l : list Z) : Prop := length l = n /\ Forall (fun b => 0 <= b < 256) l.
Definition a_port (p : Z) : Prop := 0 <= p < 2 ^ 16.

(** The history of one send: what is handed to the system, while [os rest] bytes are taken of the [rest] each time (0: refused), and the number of bytes taken in all. *)
Inductive sending (packet : nat) (os : list Z -> nat) : list Z -> list (list Z) -> nat -> Prop :=
| all_sent : sending packet os [] [] 0
| refused rest : rest <> [] -> os rest = 0%nat -> sending packet os rest [firstn packet rest] 0
| taken rest ds k : rest <> [] -> os rest <> 0%nat -> sending packet os (skipn (os rest) rest) ds k -> sending packet os rest (firstn packet rest :: ds) (os rest + k).
