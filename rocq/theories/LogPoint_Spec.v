(** Specification vocabulary for C76: what the user of a log macro sees. *)
From Verif Require Import Common Logger_Model LogPoint_Model.
Open Scope Z_scope.

(** The severity a macro or a function stands for, as the numbers of Level. *)
Definition macro_level (k : macro) : Z := match k with LOGD => 0 | LOGI => 1 | LOGW | LOGS => 2 | LOGE => 3 end.
Definition method_level (m : method) : Z := match m with Debug => 0 | Info => 1 | Warn => 2 | Error => 3 end.
(** [after]: [before], whose sink was handed one record more, and answered [accepted]. *)
Definition handed (before after : logger) (level : Z) (where_ : trace) (text : list Z) (accepted : bool) : Prop :=
  sink after = Record (index before) level where_ (firstn (Z.to_nat (max_message_size before)) text) :: sink before /\
  index after = (index before + 1) mod 2 ^ 64 /\ max_message_size after = max_message_size before /\
  (last_task_failed after = true <-> accepted = false).
(** In [after], logger [n] is [l]; nothing else differs from [before]. *)
Definition only_logger (before after : world) (n : nat) (l : logger) : Prop :=
  default_logger after = default_logger before /\ length (loggers after) = length (loggers before) /\
  nth_error (loggers after) n = Some l /\ forall m, m <> n -> nth_error (loggers after) m = nth_error (loggers before) m.
(** The default logger, in working order or not. *)
Definition default_is (w : world) (l : logger) (failed : bool) : Prop :=
  nth_error (loggers w) (default_logger w) = Some l /\ last_task_failed l = failed.
