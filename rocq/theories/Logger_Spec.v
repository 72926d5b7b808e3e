(** Specification vocabulary for C46-C48, on the history of a file logger and the files it leaves. *)
From Verif Require Import Common Format_Spec Huffman_Model Huffman_Spec Logger_Model. (* only for the types of calls, events and states, and the decoder *)
Open Scope nat_scope.

(** The calls that were taken, those that were logged (with their index and the message size limit then in force), the faults. *)
Definition taken (l : list event) : list call := flat_map (fun e => match e with ECall c true => [c] | _ => [] end) l.
Definition logged (l : list event) : list (nat * nat * call) := flat_map (fun e => match e with ELogged i m c => [(i, m, c)] | _ => [] end) l.
Definition faults (l : list event) : list fault := flat_map (fun e => match e with EFault f => [f] | _ => [] end) l.
(** A valid level: Debug, Info, Warn, Error. *)
Definition valid_level (c : call) : Prop := (0 <= c_level c < 4)%Z.

(** The text of a number, and of a trace. *)
Definition number_text (v : Z) (s : list Z) : Prop := positional 10 false v s.
Definition trace_shown (t : trace) (s : list Z) : Prop :=
  ((t_file t = [] \/ t_function t = []) /\ s = []) \/
  (t_file t <> [] /\ t_function t <> [] /\ exists line, number_text (t_line t) line /\ s = t_file t ++ [58%Z] ++ t_function t ++ [58%Z] ++ line).
(** [r] is the record of a call: index, level, time, trace and (cut) message, each ended by 0x1f but the last, which is
    ended by 0x1e. *)
Definition record_of (x : nat * nat * call) (r : list Z) : Prop :=
  let '(i, m, c) := x in
  exists number shown, number_text (Z.of_nat i mod 2 ^ 64)%Z number /\ trace_shown (c_trace c) shown /\
    r = number ++ [31%Z] ++ [c_level c] ++ [31%Z] ++ c_time c ++ [31%Z] ++ shown ++ [31%Z] ++ firstn m (c_message c) ++ [30%Z].

(** What a user finds of log file [n]: the file itself or, if it does not exist, what its compressed file decodes to. *)
Definition holds (s : state) (n : nat) (content : list Z) : Prop :=
  plain s n = Some content \/
  (plain s n = None /\ exists file, packed s n = Some file /\ forall big_endian_host, decode_string big_endian_host file = Ok (Some content)).
(** [content] is the records [g], except that the end of the last one may be missing. *)
Definition all_but_end (g : list (list Z)) (content : list Z) : Prop :=
  exists missing, content ++ missing = concat g /\ length missing <= length (last g []).

(** Conditions on the history. *)
Definition bytes_call (c : call) : Prop :=
  (0 <= c_level c < 256)%Z /\ (0 <= t_line (c_trace c) < 2 ^ 32)%Z /\
  Forall byte (t_file (c_trace c)) /\ Forall byte (t_function (c_trace c)) /\ Forall byte (c_message c) /\ Forall byte (c_time c).
Definition good_calls (l : list event) : Prop := forall c b, In (ECall c b) l -> bytes_call c.
Definition good_configs (l : list event) : Prop := forall k, In (EConfig k) l -> (1 <= chunk_kb k < 65536 /\ 8 <= code_length k < 256)%Z.
Definition constant_limit (m : nat) (l : list event) : Prop := forall k, In (EConfig k) l -> max_size k = m.
Definition tolerable (f : fault) : Prop := f <> LostFault /\ f <> RemovedFault.
(** The bytes of the log point being written that have not reached the file. *)
Definition unwritten (s : state) : list Z := match pc s with Writing rest => rest | _ => [] end.

(** Reading the records of a log back: up to each 0x1e, cut at each 0x1f. *)
Fixpoint split (sep : Z) (text : list Z) : list (list Z) :=
  match text with
  | [] => [[]]
  | b :: r => if (b =? sep)%Z then [] :: split sep r else match split sep r with f :: fs => (b :: f) :: fs | [] => [[b]] end
  end.
Definition read_log (text : list Z) : list (list (list Z)) := map (split 31) (removelast (split 30 text)).
Definition plain_text (t : list Z) : Prop := ~ In 30%Z t /\ ~ In 31%Z t.
Definition plain_call (c : call) : Prop :=
  plain_text (t_file (c_trace c)) /\ plain_text (t_function (c_trace c)) /\ plain_text (c_message c) /\ plain_text (c_time c).
(** The fields of a record. *)
Definition fields_of (x : nat * nat * call) (f : list (list Z)) : Prop :=
  let '(i, m, c) := x in
  exists number shown, number_text (Z.of_nat i mod 2 ^ 64)%Z number /\ trace_shown (c_trace c) shown /\
    f = [number; [c_level c]; c_time c; shown; firstn m (c_message c)].
(** A step of the logger itself, without a fault. *)
Definition own (hb : bool) (s s' : state) : Prop := step hb s s' /\ exists l, hist s' = hist s ++ l /\ forall e, In e l -> exists i m c, e = ELogged i m c.
