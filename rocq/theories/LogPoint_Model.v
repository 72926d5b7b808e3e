(** Model of the log macros (fly/logger/logger.hpp:23-108), the log functions of fly::logger::Logger (logger.hpp:434-516), and what becomes of
    a log point in the calling thread: Logger::log and Logger::log_to_sink (logger.cpp:176-220), Log::Log (log.cpp:13-17), and the default
    logger (fly/logger/detail/registry.cpp:14-58).
    Simplified: the loggers are synchronous and called by one thread (several threads and task runners: C72); a sink is the list of the
    records it was given, and its answers are arbitrary; loggers that were created stay alive (the registry owns the default one); the time of
    a record is not modelled; std::system_category().message is a parameter.  A format string that does not fit its arguments does not
    compile where the compiler checks it (FLY_CONSTEVAL), and otherwise formats to a text that says so; the latter is modelled. *)
From Verif Require Import Common Format_Model FormatString_Model SysText_Model Logger_Model.
Open Scope Z_scope.

(** log.hpp:15-24 enum class Level *)
Definition debug_level : Z := 0.
Definition info_level : Z := 1.
Definition warn_level : Z := 2.
Definition error_level : Z := 3.
Definition num_levels : Z := 4.

(** log.hpp:55-80 struct Log *)
Record record := Record { m_index : Z; m_level : Z; m_trace : trace; m_message : list Z }.
(** logger.hpp:423-431 the members of a Logger, with the current value of m_config->max_message_size(); the sink's records, last first *)
Record logger := Logger { last_task_failed : bool; index : Z; max_message_size : Z; sink : list record }.
(** registry.hpp: the loggers by number - 0 is m_initial_default_logger -, and m_default_logger *)
Record world := World { loggers : list logger; default_logger : nat }.

Definition update (ls : list logger) (n : nat) (l : logger) : list logger := firstn n ls ++ l :: skipn (S n) ls.

(** log.cpp:13-17 Log::Log: std::string(message, 0, max) *)
Definition make_log (t : trace) (message : list Z) (max : Z) : record := Record 0 num_levels t (firstn (Z.to_nat max) message).
(** logger.cpp:205-220 log_to_sink; [accepted]: what the sink answers *)
Definition log_to_sink (l : logger) (level : Z) (t : trace) (message : list Z) (accepted : bool) : logger :=
  let log := make_log t message (max_message_size l) in
  let log := Record (index l) (m_level log) (m_trace log) (m_message log) in
  let log := Record (m_index log) level (m_trace log) (m_message log) in
  Logger (negb accepted) (u64 (index l + 1)) (max_message_size l) (log :: sink l).
(** logger.cpp:176-202 log, without a task runner *)
Definition log (l : logger) (level : Z) (t : trace) (message : list Z) (accepted : bool) : logger :=
  if last_task_failed l || (level <? debug_level) || (level >=? num_levels) then l
  else log_to_sink l level t message accepted.

Section Char.
Variable cm : Z. (* the greatest char *)
Variable msg : list Z. (* what is wrong with a format string *)
Definition formatted (format : list Z) (args : list arg) : res (list Z) := format_to 8 cm msg format args.

(** logger.hpp:442-450, 463-471, 484-492, 505-513 debug, info, warn and error with a trace *)
Definition log_formatted (l : logger) (level : Z) (t : trace) (format : list Z) (args : list arg) (accepted : bool) : res logger :=
  let! message := formatted format args in Ok (log l level t message accepted).
Definition no_trace : trace := Trace [] [] 0.
(** logger.hpp:434-516 *)
Inductive method := Debug | Info | Warn | Error.
Definition call_method (l : logger) (m : method) (t : option trace) (format : list Z) (args : list arg) (accepted : bool) : res logger :=
  let t := match t with Some t => t | None => no_trace end in
  match m with
  | Debug => log_formatted l debug_level t format args accepted
  | Info => log_formatted l info_level t format args accepted
  | Warn => log_formatted l warn_level t format args accepted
  | Error => log_formatted l error_level t format args accepted
  end.

(** registry.cpp:43-52 set_default_logger, 55-58 get_default_logger *)
Definition set_default_logger (w : world) (l : option nat) : world :=
  World (loggers w) (match l with Some n => n | None => 0%nat end).
Definition with_default (w : world) (f : logger -> res logger) : res world :=
  match nth_error (loggers w) (default_logger w) with
  | Some l => let! l' := f l in Ok (World (update (loggers w) (default_logger w) l') (default_logger w))
  | None => UB
  end.
(** logger.hpp:23-108: the macros.  [here]: __FILE__, __FUNCTION__, __LINE__; ": {}" *)
Inductive macro := LOGD | LOGI | LOGW | LOGS | LOGE.
Definition s_system : list Z := [58; 32; 123; 125].
Definition run_macro (w : world) (k : macro) (here : trace) (format : list Z) (args : list arg) (system_message : Z -> list Z) (errno : Z) (accepted : bool) : res world :=
  match k with
  | LOGD => with_default w (fun l => call_method l Debug (Some here) format args accepted)
  | LOGI => with_default w (fun l => call_method l Info (Some here) format args accepted)
  | LOGW => with_default w (fun l => call_method l Warn (Some here) format args accepted)
  | LOGS =>
      let! e := get_error_string_now cm system_message errno in
      with_default w (fun l => call_method l Warn (Some here) (format ++ s_system) (args ++ [AString e]) accepted)
  | LOGE => with_default w (fun l => call_method l Error (Some here) format args accepted)
  end.
End Char.
