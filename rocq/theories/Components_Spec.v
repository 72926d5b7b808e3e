(** Specification vocabulary for C75: the settings of libfly's components. *)
From Coq Require Import Ascii String.
From Verif Require Import Common Format_Spec Json_Model JsonApi_Spec Config_Model Config_Spec JsonConv_Props.
Open Scope Z_scope.

(** A text, by its character codes. *)
Definition letters (s : string) : list Z := map (fun c => Z.of_nat (nat_of_ascii c)) (list_ascii_of_string s).

(** The documented settings: in which section of the configuration file and under which name, the type (bits, signedness), the
    default, and what one unit of it is. *)
Inductive setting := EncoderChunkSize | EncoderCodeLength | LogFileSize | LogMessageSize | SocketWaitTime | PacketSize | PathPollInterval | SystemPollInterval.
Record entry := Entry { owner : list Z; key : list Z; bits : Z; is_signed : bool; fallback : Z; scale : Z }.
Definition documented (t : setting) : entry :=
  match t with
  | EncoderChunkSize => Entry (letters "coder") (letters "encoder_chunk_size_kb") 16 false 256 1024 (* in bytes *)
  | EncoderCodeLength => Entry (letters "coder") (letters "encoder_max_code_length") 8 false 11 1 (* bits *)
  | LogFileSize => Entry (letters "logger") (letters "max_log_file_size") 64 false (20 * 1024 * 1024) 1 (* bytes *)
  | LogMessageSize => Entry (letters "logger") (letters "max_message_size") 32 false 256 1 (* bytes *)
  | SocketWaitTime => Entry (letters "network") (letters "socket_io_wait_time") 64 true 10000 1 (* microseconds *)
  | PacketSize => Entry (letters "network") (letters "packet_size") 64 false 4096 1 (* bytes *)
  | PathPollInterval => Entry (letters "path") (letters "poll_interval") 64 true 1000 1 (* milliseconds *)
  | SystemPollInterval => Entry (letters "system") (letters "poll_interval") 64 true 1000 1 (* milliseconds *)
  end.
Definition compress_key : list Z := letters "compress_log_files".

(** The value [x] of the file says the integer [v]: a number, a number with a fraction (which is dropped), or the decimal text of a
    number of the type. *)
Definition says (e : entry) (x : json) (v : Z) : Prop :=
  is_number x v \/ (exists g, x = JFloat g /\ truncates g v) \/ (exists s, x = JString s /\ decimal_text (is_signed e) s v).
Definition in_range (e : entry) (v : Z) : Prop := int_ok (bits e) (is_signed e) v.
(** The config holds the value [x] under a name. *)
Definition holds (c : config) (name : list Z) (x : json) : Prop := exists m, c_values c = JObject m /\ bound m name = Some x.
(** The value [x] cannot be an integer of the type: null, a boolean, an array, an object, or a text that is not the decimal text of a
    number in range. *)
Definition no_integer (e : entry) (x : json) : Prop :=
  match x with
  | JSigned _ | JUnsigned _ | JFloat _ => False
  | JString s => forall v, in_range e v -> ~ decimal_text (is_signed e) s v
  | _ => True
  end.
(** A floating-point value that is out of range of the type, or no number. *)
Definition unfit (e : entry) (x : json) : Prop := exists g, x = JFloat g /\ forall v, in_range e v -> ~ truncates g v.
