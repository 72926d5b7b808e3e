(** Specification vocabulary for C43-C45, on the log of what can be observed. *)
From Verif Require Import Common Socket_Model. (* only for the types of events *)
Open Scope nat_scope.

(** The calls of send and send_async, with their messages, in order. *)
Definition sends (l : list event) : list (nat * list Z) := flat_map (fun e => match e with ESend i _ m => [(i, m)] | _ => [] end) l.
(** Operations that have completed: send (returned, or callback invoked), receive, connect. *)
Definition sent_ids (l : list event) : list nat := flat_map (fun e => match e with ESent i _ => [i] | _ => [] end) l.
Definition received_ids (l : list event) : list nat := flat_map (fun e => match e with EReceived i _ => [i] | _ => [] end) l.
Definition finished_ids (l : list event) : list nat := flat_map (fun e => match e with EFinished i _ => [i] | _ => [] end) l.
(** What the operating system has taken: from everything, and from send [i]. *)
Definition datagrams (l : list event) : list (list Z) := flat_map (fun e => match e with ETook _ c => [c] | _ => [] end) l.
Definition wire (l : list event) : list Z := concat (datagrams l).
Definition datagrams_of (i : nat) (l : list event) : list (list Z) := flat_map (fun e => match e with ETook j c => if j =? i then [c] else [] | _ => [] end) l.
Definition took_from (i : nat) (l : list event) : list Z := concat (datagrams_of i l).
(** What has arrived, and what the user was given. *)
Definition arrivals (l : list event) : list (list Z) := flat_map (fun e => match e with EArrived b => [b] | _ => [] end) l.
Definition deliveries (l : list event) : list (list Z) := flat_map (fun e => match e with EReceived _ b => [b] | _ => [] end) l.
(** No send is called while another one has not completed. *)
Definition no_overlap (l : list event) : Prop :=
  forall a i x m b j y n, l = a ++ ESend i x m :: b -> In (ESend j y n) a -> In j (sent_ids a).
(** The configured packet size. *)
Definition packet_after (l : list event) : nat := fold_left (fun p e => match e with EConfig n => n | _ => p end) l 0.
Definition constant_packet (p : nat) (l : list event) : Prop := forall n, In (EConfig n) l -> n = p.
Definition nonempty (b : list Z) : bool := match b with [] => false | _ => true end.
(** [l] cut into pieces of [p] elements, the last one possibly shorter. *)
Inductive pieces (p : nat) : list Z -> list (list Z) -> Prop :=
| pieces_nil : pieces p [] []
| pieces_last l : l <> [] -> length l <= p -> pieces p l [l]
| pieces_more x l ps : length x = p -> l <> [] -> pieces p l ps -> pieces p (x ++ l) (x :: ps).
