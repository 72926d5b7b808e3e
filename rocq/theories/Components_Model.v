(** Model of the configs of libfly's components (fly/coders/coder_config.{hpp,cpp}, fly/logger/logger_config.{hpp,cpp},
    fly/net/network_config.{hpp,cpp}, fly/path/path_config.{hpp,cpp}, fly/system/system_config.{hpp,cpp}) and of the Huffman encoder
    that is constructed with one (fly/coders/huffman/huffman_encoder.cpp:24-31).
    Simplified: durations are their counts; std::uintmax_t, std::size_t and the reps of std::chrono::milliseconds and microseconds
    have 64 bits.  [sg]: char is signed. *)
From Coq Require Import Ascii String.
From Verif Require Import Common BitStream_Model Json_Model JsonApi_Model JsonConv_Model Config_Model Huffman_Model.
Open Scope Z_scope.

(** A string literal *)
Definition text (s : string) : list Z := map (fun c => Z.of_nat (nat_of_ascii c)) (list_ascii_of_string s).

(** coder_config.hpp:20, logger_config.hpp, network_config.hpp, path_config.hpp, system_config.hpp: identifier *)
Definition coder_identifier := text "coder".
Definition logger_identifier := text "logger".
Definition network_identifier := text "network".
Definition path_identifier := text "path".
Definition system_identifier := text "system".

Section Getters.
Variable sg : bool.

(** coder_config.cpp:8-9 (default: coder_config.hpp:33) *)
Definition chunk_size_kb (c : config) : outcome Z := get_value sg (to_integer 16 false) c (text "encoder_chunk_size_kb") 256.
(** coder_config.cpp:6-12 huffman_encoder_chunk_size *)
Definition huffman_encoder_chunk_size (c : config) : outcome Z :=
  match chunk_size_kb c with Return kb => Return (u32 (Z.shiftl kb 10)) | x => x end.
(** coder_config.cpp:15-20 huffman_encoder_max_code_length (default: coder_config.hpp:34) *)
Definition huffman_encoder_max_code_length (c : config) : outcome Z := get_value sg (to_integer 8 false) c (text "encoder_max_code_length") 11.
(** logger_config.cpp:6-9 (default: logger_config.hpp:37) *)
Definition compress_log_files (c : config) : outcome bool := get_value sg (fun j => Return (to_bool j)) c (text "compress_log_files") true.
(** logger_config.cpp:12-15 (default: logger_config.hpp:38) *)
Definition max_log_file_size (c : config) : outcome Z := get_value sg (to_integer 64 false) c (text "max_log_file_size") (Z.shiftl 20 20).
(** logger_config.cpp:18-21 (default: logger_config.hpp:39) *)
Definition max_message_size (c : config) : outcome Z := get_value sg (to_integer 32 false) c (text "max_message_size") 256.
(** network_config.cpp:6-11 (default: network_config.hpp:32) *)
Definition socket_io_wait_time (c : config) : outcome Z := get_value sg (to_integer 64 true) c (text "socket_io_wait_time") 10000.
(** network_config.cpp:14-17 (default: network_config.hpp:33) *)
Definition packet_size (c : config) : outcome Z := get_value sg (to_integer 64 false) c (text "packet_size") 4096.
(** path_config.cpp:6-10 (default: path_config.hpp:26) *)
Definition path_poll_interval (c : config) : outcome Z := get_value sg (to_integer 64 true) c (text "poll_interval") 1000.
(** system_config.cpp:6-10 (default: system_config.hpp:26) *)
Definition system_poll_interval (c : config) : outcome Z := get_value sg (to_integer 64 true) c (text "poll_interval") 1000.

(** huffman_encoder.cpp:24-31 HuffmanEncoder::HuffmanEncoder, and encode_string of the encoder.  [encode_string] takes the number of
    kilobytes and shifts it itself, as coder_config.cpp:11 does. *)
Definition encode_configured (hb : bool) (c : config) (input : list Z) (result : res (option (list Z))) : Prop :=
  exists kb max, chunk_size_kb c = Return kb /\ huffman_encoder_max_code_length c = Return max /\ encode_string hb kb max input result.
End Getters.
