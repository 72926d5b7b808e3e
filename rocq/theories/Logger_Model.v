(** Model of a file logger: fly::logger::Logger (fly/logger/logger.cpp) with a FileSink (fly/logger/detail/file_sink.cpp),
    the stream operator of a log point (fly/logger/log.cpp) and Encoder::encode_file (fly/coders/coder.cpp) as FileSink
    calls it.  Every state is a point at which the process may be killed: the bytes of a log point, and those of a
    compressed file, reach the file system in steps.
    An asynchronous logger's posted tasks are [queue], run one after the other in the order posted (Task_Props); a
    synchronous logger's call is the schedule in which each call's steps are taken before the next call is made, on one
    thread (calls of a synchronous logger from several threads race on m_index and m_log_stream).
    Simplifications: log files are numbers (FileSink::m_log_index, file_sink.cpp:79; the time and the random text in the
    names are not modelled, no two names are equal); the time of a log point is an arbitrary text; file contents are byte
    lists; bytes the operating system refused are not written again by a later close(); exceptions of
    std::filesystem are not modelled; the sink's own compression does not log to this logger synchronously, see
    [Logger_Props.default_logger_refuted] for that case. *)
From Verif Require Import Common Format_Model Huffman_Model.
Open Scope nat_scope.

(** log.hpp:29-34 Trace *)
Record trace := Trace { t_file : list Z; t_function : list Z; t_line : Z }.
(** A call of Logger::log (logger.cpp:176): level, trace, message; and the text of the elapsed time. *)
Record call := Call { c_level : Z; c_trace : trace; c_message : list Z; c_time : list Z }.

(** operator<< of an unsigned integer (decimal; the same digits as std::to_chars). *)
Definition decimal (v : Z) : list Z := match to_chars 64 v 10 [] with Some s => s | None => [] end.
(** log.hpp:86-110 Formatter<Trace>: 58 is ':' *)
Definition trace_text (t : trace) : list Z :=
  match t_file t, t_function t with
  | [], _ | _, [] => []
  | f, g => f ++ [58%Z] ++ g ++ [58%Z] ++ decimal (t_line t)
  end.
(** log.cpp:7-8 *)
Definition record_separator : Z := 30. (* 0x1e *)
Definition unit_separator : Z := 31. (* 0x1f *)
(** log.cpp:13-17 Log::Log (std::string(message, 0, max)) and log.cpp:42-51 operator<<; [index] is m_index, a
    std::uintmax_t. *)
Definition render (index : nat) (max_message_size : nat) (c : call) : list Z :=
  decimal (u64 (Z.of_nat index)) ++ [unit_separator] ++ [u8 (c_level c)] ++ [unit_separator] ++ c_time c ++ [unit_separator] ++
  trace_text (c_trace c) ++ [unit_separator] ++ firstn max_message_size (c_message c) ++ [record_separator].

(** logger_config.cpp:6-21, coder_config.cpp: the values in force; they may change at any time. *)
Record config := Config { max_message : nat; max_size : nat; compress : bool; chunk_kb : Z; code_length : Z }.

(** Where the logger is. *)
Inductive phase :=
| Idle
| Writing (rest : list Z) (* file_sink.cpp:38, m_log_stream << log << std::flush: not yet in the file *)
| Sizing (* file_sink.cpp:41 *)
| Compressing (* file_sink.cpp:59-67, after close() *)
| Encoding (rest : list Z) (* coder.cpp:83-90, the encoder's output not yet in the file *)
| Removing (* file_sink.cpp:68 *)
| Opening (* file_sink.cpp:73-83 *)
| Undefined.

(** What can go wrong outside the program. *)
Inductive fault :=
| WriteFault (* writing a log point fails: the rest of it does not reach the file *)
| SizeFault (* the size of the current log file cannot be obtained *)
| EncodeFault (* the encoder's input or output cannot be opened, or it notices that a write fails *)
| LostFault (* the bytes the encoder's output stream writes when it is destroyed do not reach the file *)
| OpenFault (* a new log file cannot be created *)
| RemovedFault. (* somebody else removes the current log file *)
Inductive event :=
| ECall (c : call) (taken : bool) (* Logger::log was called; [taken]: not discarded *)
| ELogged (index : nat) (max_message_size : nat) (c : call) (* the sink began to write *)
| EConfig (k : config)
| EFault (f : fault).

Record state := State {
  cfg : config;
  plain : nat -> option (list Z); (* the contents of Log_n_....log *)
  packed : nat -> option (list Z); (* the contents of Log_n_....log.enc *)
  number : nat; (* m_log_index: the current file *)
  good : bool; (* m_log_stream.good() *)
  failed : bool; (* m_last_task_failed *)
  index : nat; (* m_index *)
  queue : list call;
  pc : phase;
  hist : list event }.
Definition put (f : nat -> option (list Z)) (n : nat) (x : option (list Z)) : nat -> option (list Z) :=
  fun m => if m =? n then x else f m.
Definition with_cfg (s : state) (k : config) : state :=
  State k (plain s) (packed s) (number s) (good s) (failed s) (index s) (queue s) (pc s) (hist s).
Definition with_plain (s : state) (x : option (list Z)) : state :=
  State (cfg s) (put (plain s) (number s) x) (packed s) (number s) (good s) (failed s) (index s) (queue s) (pc s) (hist s).
Definition with_packed (s : state) (x : option (list Z)) : state :=
  State (cfg s) (plain s) (put (packed s) (number s) x) (number s) (good s) (failed s) (index s) (queue s) (pc s) (hist s).
Definition with_number (s : state) (n : nat) : state :=
  State (cfg s) (plain s) (packed s) n (good s) (failed s) (index s) (queue s) (pc s) (hist s).
Definition with_flags (s : state) (g f : bool) : state :=
  State (cfg s) (plain s) (packed s) (number s) g f (index s) (queue s) (pc s) (hist s).
Definition with_index (s : state) (i : nat) : state :=
  State (cfg s) (plain s) (packed s) (number s) (good s) (failed s) i (queue s) (pc s) (hist s).
Definition with_queue (s : state) (q : list call) : state :=
  State (cfg s) (plain s) (packed s) (number s) (good s) (failed s) (index s) q (pc s) (hist s).
Definition at_ (s : state) (p : phase) : state :=
  State (cfg s) (plain s) (packed s) (number s) (good s) (failed s) (index s) (queue s) p (hist s).
Definition say (s : state) (e : event) : state :=
  State (cfg s) (plain s) (packed s) (number s) (good s) (failed s) (index s) (queue s) (pc s) (hist s ++ [e]).

(** logger.cpp:178: the level is a std::uint8_t; Debug = 0, NumLevels = 4. *)
Definition rejects (s : state) (c : call) : bool := failed s || (u8 (c_level c) <? 0)%Z || (4 <=? u8 (c_level c))%Z.

Section Steps.
Variable big_endian_host : bool.
Inductive step (s : state) : state -> Prop :=
(* Clients *)
| s_call c : (* logger.cpp:176-202 *)
    step s (if rejects s c then say s (ECall c false) else say (with_queue s (queue s ++ [c])) (ECall c true))
| s_config k : step s (say (with_cfg s k) (EConfig k))
(* The task, logger.cpp:187-193 and log_to_sink, 205-221, with FileSink::stream, file_sink.cpp:34-50 *)
| s_skip c q : pc s = Idle -> queue s = c :: q -> failed s = true -> step s (with_queue s q)
| s_take c q : pc s = Idle -> queue s = c :: q -> failed s = false -> good s = true ->
    step s (say (with_index (with_queue (at_ s (Writing (render (index s) (max_message (cfg s)) c))) q) (S (index s)))
                (ELogged (index s) (max_message (cfg s)) c))
| s_refuse c q : pc s = Idle -> queue s = c :: q -> failed s = false -> good s = false -> (* file_sink.cpp:49 *)
    step s (with_index (with_queue (with_flags s false true) q) (S (index s)))
| s_write n rest : pc s = Writing rest -> 0 < n <= length rest -> (* if the file was removed, to the nameless file *)
    step s (at_ (with_plain s (option_map (fun content => content ++ firstn n rest) (plain s (number s)))) (Writing (skipn n rest)))
| s_write_fails rest : pc s = Writing rest -> step s (say (at_ (with_flags s false (failed s)) Sizing) (EFault WriteFault))
| s_written : pc s = Writing [] -> step s (at_ s Sizing)
(* file_sink.cpp:41-46; std::filesystem::file_size(path, error) is uintmax_t(-1) on failure *)
| s_fits content : pc s = Sizing -> plain s (number s) = Some content -> length content <= max_size (cfg s) ->
    step s (at_ (with_flags s (good s) false) Idle)
| s_full content : pc s = Sizing -> plain s (number s) = Some content -> max_size (cfg s) < length content ->
    step s (at_ s (if compress (cfg s) then Compressing else Opening))
| s_size_fails : pc s = Sizing -> step s (say (at_ s (if compress (cfg s) then Compressing else Opening)) (EFault SizeFault))
(* create_log_file, file_sink.cpp:59-71, and encode_file, coder.cpp:76-101 *)
| s_encode content result : pc s = Compressing -> plain s (number s) = Some content ->
    encode_string big_endian_host (chunk_kb (cfg s)) (code_length (cfg s)) content result ->
    step s (match result with
            | UB => at_ s Undefined
            | Ok None => at_ (with_packed s (Some [])) Opening
            | Ok (Some file) => at_ (with_packed s (Some [])) (Encoding file)
            end)
| s_encode_fails : pc s = Compressing -> step s (say (at_ s Opening) (EFault EncodeFault)) (* a stream cannot be opened *)
| s_pack n rest out : pc s = Encoding rest -> 0 < n <= length rest -> packed s (number s) = Some out ->
    step s (at_ (with_packed s (Some (out ++ firstn n rest))) (Encoding (skipn n rest)))
| s_pack_fails rest : pc s = Encoding rest -> step s (say (at_ s Opening) (EFault EncodeFault)) (* noticed: encode_binary returns false *)
| s_pack_lost rest : pc s = Encoding rest -> (* the last bytes are flushed by ~ofstream, which reports nothing *)
    step s (say (at_ s Removing) (EFault LostFault))
| s_packed : pc s = Encoding [] -> step s (at_ s Removing)
| s_remove : pc s = Removing -> step s (at_ (with_plain s None) Opening)
(* file_sink.cpp:73-83 and logger.cpp:220 *)
| s_open : pc s = Opening ->
    step s (at_ (with_flags (with_plain (with_number s (S (number s))) (Some [])) true false) Idle)
| s_open_fails : pc s = Opening -> step s (say (at_ (with_flags (with_number s (S (number s))) false true) Idle) (EFault OpenFault))
| s_removed : step s (say (with_plain s None) (EFault RemovedFault)).
End Steps.

(** logger.cpp:164-173 initialize, file_sink.cpp:28-31: the first file is open. *)
Definition initial (k : config) : state :=
  State k (put (fun _ => None) 1 (Some [])) (fun _ => None) 1 true false 0 [] Idle [EConfig k].
Inductive reaches (hb : bool) : state -> Prop :=
| reaches_initial k : reaches hb (initial k)
| reaches_step s s' : reaches hb s -> step hb s s' -> reaches hb s'.

Inductive steps (hb : bool) (s : state) : state -> Prop :=
| steps_refl : steps hb s s
| steps_more x y : steps hb s x -> step hb x y -> steps hb s y.

(** * A synchronous file logger that is the default logger

    Encoder::encode_file reports its statistics with LOGD (coder.cpp:92-98), that is, with a call of the default
    logger, before it returns.  If the default logger is the synchronous file logger whose file is being compressed,
    this call re-enters Logger::log_to_sink and FileSink::stream from FileSink::create_log_file.  This model runs such
    calls to completion (no crash points, no failures of the device).  [stream] is m_log_stream: the file it is
    open on, and good(); a write to a stream that is not open sets badbit, open() of a stream that is open sets
    failbit, a successful open() clears them. *)
Record sync := Sync {
  y_cfg : config; y_plain : nat -> option (list Z); y_packed : nat -> option (list Z);
  y_file : nat; (* m_log_index, and with it m_log_file *)
  y_open : option nat; y_good : bool; y_failed : bool; y_index : nat }.
(** m_log_stream << text << std::flush.  A file whose name was removed takes no part any more. *)
Definition y_write (s : sync) (text : list Z) : sync :=
  match y_open s with
  | Some f =>
      Sync (y_cfg s) (put (y_plain s) f (option_map (fun c => c ++ text) (y_plain s f))) (y_packed s) (y_file s) (y_open s) (y_good s) (y_failed s) (y_index s)
  | None => Sync (y_cfg s) (y_plain s) (y_packed s) (y_file s) (y_open s) false (y_failed s) (y_index s)
  end.
(** file_sink.cpp:73-83: the next name, open *)
Definition y_next (s : sync) : sync :=
  let f := S (y_file s) in
  match y_open s with
  | Some g => Sync (y_cfg s) (y_plain s) (y_packed s) f (Some g) false (y_failed s) (y_index s)
  | None => Sync (y_cfg s) (put (y_plain s) f (Some [])) (y_packed s) f (Some f) true (y_failed s) (y_index s)
  end.
(** What LOGD logs about a compression; the text is immaterial. *)
Section Sync.
Variable pack : list Z -> list Z. (* the encoder, successful *)
Variable logd : call. (* coder.cpp:27-32 *)
Variable is_default : bool. (* this logger is the default logger *)
(** The recursion Logger::log - log_to_sink - FileSink::stream - create_log_file - encode_file - LOGD - Logger::log;
    the fuel bounds its depth, [None] when exhausted. *)
Fixpoint y_log (fuel : nat) (s : sync) (c : call) : option sync :=
  match fuel with
  | O => None
  | S fuel' =>
      if y_failed s || (4 <=? u8 (c_level c))%Z then Some s (* logger.cpp:178-181 *)
      else
        let text := render (y_index s) (max_message (y_cfg s)) c in
        let s1 := Sync (y_cfg s) (y_plain s) (y_packed s) (y_file s) (y_open s) (y_good s) (y_failed s) (S (y_index s)) in
        let fail s' (b : bool) := Some (Sync (y_cfg s') (y_plain s') (y_packed s') (y_file s') (y_open s') (y_good s') b (y_index s')) in (* 220 *)
        if negb (y_good s1) then fail s1 true (* file_sink.cpp:49 *)
        else
          let s2 := y_write s1 text in
          let over := match y_plain s2 (y_file s2) with Some content => max_size (y_cfg s2) <? length content | None => true end in
          if negb over then fail s2 false
          else
            (* create_log_file *)
            let after_pack :=
              match y_open s2 with
              | Some f =>
                  let s3 := Sync (y_cfg s2) (y_plain s2) (y_packed s2) (y_file s2) None (y_good s2) (y_failed s2) (y_index s2) in
                  if compress (y_cfg s3) then
                    match y_plain s3 (y_file s3) with
                    | None => Some s3 (* encode_file cannot open its input *)
                    | Some content =>
                        let s4 := Sync (y_cfg s3) (y_plain s3) (put (y_packed s3) (y_file s3) (Some (pack content))) (y_file s3) (y_open s3) (y_good s3) (y_failed s3) (y_index s3) in
                        match (if is_default then y_log fuel' s4 logd else Some s4) with (* coder.cpp:92-98 *)
                        | None => None
                        | Some s5 => (* file_sink.cpp:68 removes m_log_file, whatever it is by now *)
                            Some (Sync (y_cfg s5) (put (y_plain s5) (y_file s5) None) (y_packed s5) (y_file s5) (y_open s5) (y_good s5) (y_failed s5) (y_index s5))
                        end
                    end
                  else Some s3
              | None => Some s2
              end in
            match after_pack with
            | None => None
            | Some s6 => let s7 := y_next s6 in fail s7 (negb (y_good s7))
            end
  end.
End Sync.
Definition y_initial (k : config) : sync := Sync k (put (fun _ => None) 1 (Some [])) (fun _ => None) 1 (Some 1) true false 0.
