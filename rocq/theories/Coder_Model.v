(** Model of the coders' public calls (fly/coders/coder.cpp:14-15, 53-167) on strings and on files.
    Simplifications: a file system is a map from files to contents, paths name files (several paths may name one); what the
    input stream delivers is the file's content after both streams were opened (nothing is read before), up to a read fault;
    the output stream keeps at most [m_buffer] bytes, of which the destructor may fail to write some; statistics are logged
    after the streams are closed and std::filesystem::file_size does not throw. *)
From Verif Require Import Common.
From Verif Require Base64_Model Huffman_Model.

(** What encode_internal or decode_internal does with the data the input stream delivers: UB, failure, or the bytes written.
    [checks_read]: whether it fails when the stream ended because of a read fault instead of its end. *)
Record coder := Coder { core : list Z -> res (option (list Z)) -> Prop; checks_read : bool }.

(** base64_coder.cpp:127-162; 161 checks decoded.eof(). *)
Definition base64_encoder (stale : Z) : coder :=
  Coder (fun data r => r = (let! s := Base64_Model.encode_string true Base64_Model.chunks stale data in Ok (Some s))) true.
(** base64_coder.cpp:165-223; 222 checks encoded.eof(). *)
Definition base64_decoder : coder := Coder (fun data r => r = Base64_Model.decode_string Base64_Model.chunks data) true.
(** huffman_encoder.cpp:33-66: the loop ends when nothing was read, for whatever reason. *)
Definition huffman_encoder (hb : bool) (kb max : Z) : coder := Coder (Huffman_Model.encode_string hb kb max) false.
(** huffman_decoder.cpp:33-67 and bit_stream_reader.cpp: bytes that cannot be read are missing bytes. *)
Definition huffman_decoder (hb : bool) : coder := Coder (fun data r => r = Huffman_Model.decode_string hb data) false.

(** ** encode_string, decode_string: coder.cpp:53-74, 112-134; [result] is the string given for the result. *)
Definition string_call (c : coder) (input result : list Z) (outcome : res (bool * list Z)) : Prop :=
  exists r, core c input r /\ outcome = (let! w := r in Ok (match w with Some w => (true, w) | None => (false, result) end)).

(** ** Files *)
Definition contents := Z -> option (list Z). (* None: there is no such file *)
Definition update (fs : contents) (file : Z) (c : option (list Z)) : contents := fun f => if f =? file then c else fs f.

(** What the operating system does during one call. *)
Record environment := Environment {
  m_can_read : bool;
  m_can_write : bool;
  m_read_fault : option nat; (* reading fails after so many bytes *)
  m_room : nat;              (* so many bytes can be written *)
  m_buffer : nat }.          (* so many bytes the output stream may still hold when it is destroyed *)

(** The data read: std::istream::read up to the end or the fault. *)
Definition delivered (env : environment) (data : list Z) : list Z :=
  match m_read_fault env with Some k => firstn k data | None => data end.
(** Is the fault before the end? *)
Definition fault_met (env : environment) (data : list Z) : bool :=
  match m_read_fault env with Some k => (k <=? length data)%nat | None => false end.

(** Writing [w]: what is in the file after the stream was destroyed and whether the stream was good before. *)
Inductive written (env : environment) (w : list Z) : list Z -> bool -> Prop :=
| w_all : (length w <= m_room env)%nat -> written env w w true
| w_noticed c : (m_room env < length w)%nat -> written env w c false
| w_unnoticed c : (m_room env < length w <= m_room env + m_buffer env)%nat -> written env w c true.

(** encode_file, decode_file: coder.cpp:77-102, 137-160.  [input] and [output] are the files the paths name. *)
Inductive file_call (c : coder) (env : environment) (fs : contents) (input output : Z) : contents -> res bool -> Prop :=
| f_not_open : (* 84-87: the output is opened, and so emptied, whether or not the input could be opened *)
    m_can_read env && match fs input with Some _ => true | None => false end && m_can_write env = false ->
    file_call c env fs input output (if m_can_write env then update fs output (Some []) else fs) (Ok false)
| f_undefined data :
    m_can_read env = true -> m_can_write env = true -> fs input <> None -> update fs output (Some []) input = Some data ->
    core c (delivered env data) UB -> file_call c env fs input output (update fs output (Some [])) UB
| f_failed data rest :
    m_can_read env = true -> m_can_write env = true -> fs input <> None -> update fs output (Some []) input = Some data ->
    (core c (delivered env data) (Ok None) \/ checks_read c && fault_met env data = true) ->
    file_call c env fs input output (update fs output (Some rest)) (Ok false)
| f_coded data w content result :
    m_can_read env = true -> m_can_write env = true -> fs input <> None -> update fs output (Some []) input = Some data ->
    core c (delivered env data) (Ok (Some w)) -> checks_read c && fault_met env data = false -> written env w content result ->
    file_call c env fs input output (update fs output (Some content)) (Ok result).
