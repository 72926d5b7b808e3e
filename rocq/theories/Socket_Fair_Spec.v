(** Specification vocabulary for the liveness part of C43-C45: infinite executions of one socket. *)
From Verif Require Import Common Socket_Model Socket_Spec.
Open Scope nat_scope.

(** An infinite execution (which may pause). *)
Definition execution (f : nat -> state) : Prop := forall k, f (S k) = f k \/ (undefined (f k) = false /\ step (f k) (f (S k))).
(** The socket was closed, or its service is gone. *)
Definition over (s : state) : Prop := is_open s = false \/ service_alive s = false.

(** In the step from [s] to [s'], the service tells the oldest request for writing that the socket is writable: that of
    send_async [i], or that of connect_async [i]. *)
Definition told_send (i : nat) (s s' : state) : Prop :=
  exists m b t q a, write_queue s = WSend i m b t :: q /\ ready_to_send s q i m b t a = Some s'.
Definition told_connect (i : nat) (s s' : state) : Prop :=
  exists q e t st, write_queue s = WConnect i :: q /\ finish_connect (with_write s q) e = (t, st) /\ s' = with_log t [EFinished i st].
Definition told_write (s s' : state) : Prop := exists i, told_send i s s' \/ told_connect i s s'.
(** ... the oldest request for reading, that of receive_async [i], that it is readable. *)
Definition told_receive (i : nat) (s s' : state) : Prop :=
  exists r q a, read_queue s = RReceive i r :: q /\ ready_to_receive s q i r a = Some s'.
Definition told_read (s s' : state) : Prop := exists i, told_receive i s s'.

(** As long as requests for writing (reading) are waiting, the socket becomes writable (readable) again and again, and
    the service tells the oldest one so. *)
Definition serves_writes (f : nat -> state) : Prop :=
  forall k, write_queue (f k) <> [] -> exists j, k <= j /\ (told_write (f j) (f (S j)) \/ over (f j)).
Definition serves_reads (f : nat -> state) : Prop :=
  forall k, read_queue (f k) <> [] -> exists j, k <= j /\ (told_read (f j) (f (S j)) \/ over (f j)).
(** The operating system does not answer EWOULDBLOCK forever: of a message whose send is told again and again, it takes
    some bytes at some time (or the send completes) ... *)
Definition takes_bytes (f : nat -> state) : Prop :=
  forall i k, exists j, k <= j /\
    ((length (took_from i (log (f j))) < length (took_from i (log (f (S j)))) \/ In i (sent_ids (log (f (S j))))) \/
     forall j', j <= j' -> ~ told_send i (f j') (f (S j'))).
(** ... and a receive that is told again and again gets an answer. *)
Definition gives_answers (f : nat -> state) : Prop :=
  forall i k, exists j, k <= j /\ (In i (received_ids (log (f (S j)))) \/ forall j', j <= j' -> ~ told_receive i (f j') (f (S j'))).
