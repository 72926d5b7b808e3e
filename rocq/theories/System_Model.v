(** Model of the system monitor: fly/system/system_monitor.cpp and its Linux implementation
    fly/system/nix/system_monitor_impl.cpp.
    What the operating system answers (the bytes of /proc/stat and /proc/self/status, ::times, ::sysinfo) is an argument; double is
    Flocq's binary64, rounding to the nearest.
    Simplifications: log output is left out; the getters load one atomic each and are the fields of the record (a getter
    called during a poll sees the state between two updates); clock_t is an unbounded integer. *)
From Coq Require Import Reals.
From Flocq Require Import IEEE754.BinarySingleNaN.
From Verif Require Import Common.

(** * double *)
Definition double : Set := binary_float 53 1024.
Definition prec_pos : FLX.Prec_gt_0 53 := eq_refl.
Definition prec_emax : Prec_lt_emax 53 1024 := eq_refl.
#[global] Existing Instance prec_pos.
#[global] Existing Instance prec_emax.
(** conversion of an integer to double *)
Definition to_double (z : Z) : double := binary_normalize 53 1024 _ _ mode_NE z 0 false.
Definition mul (x y : double) : double := Bmult mode_NE x y.
Definition div (x y : double) : double := Bdiv mode_NE x y.

(** * Text *)
(** std::getline until the end: the lines of a file; the last one counts only if it is not empty *)
Fixpoint lines_from (line : list Z) (l : list Z) : list (list Z) :=
  match l with
  | [] => match line with [] => [] | _ => [line] end
  | c :: r => if c =? 10 then line :: lines_from [] r else lines_from (line ++ [c]) r
  end.
Definition text := option (list Z). (* a file; None: it cannot be opened *)
Definition read_lines (t : text) : list (list Z) := match t with Some l => lines_from [] l | None => [] end.
(** std::string::starts_with, and what follows *)
Fixpoint strip (prefix l : list Z) : option (list Z) :=
  match prefix, l with
  | [], _ => Some l
  | p :: ps, c :: cs => if p =? c then strip ps cs else None
  | _ :: _, [] => None
  end.
Definition s_cpu : list Z := [99; 112; 117]. (* cpu *)
Definition s_vmrss : list Z := [86; 109; 82; 83; 83; 58]. (* VmRSS: *)
(** sscanf: white space *)
Definition is_space (c : Z) : bool := (c =? 32) || ((9 <=? c) && (c <=? 13)).
Fixpoint skip_space (l : list Z) : list Z := match l with [] => [] | c :: r => if is_space c then skip_space r else l end.
Definition is_digit (c : Z) : bool := (48 <=? c) && (c <=? 57).
Fixpoint scan_digits (acc : Z) (l : list Z) : Z * list Z :=
  match l with [] => (acc, []) | c :: r => if is_digit c then scan_digits (acc * 10 + (c - 48)) r else (acc, l) end.
(** sscanf: the conversion %SCNu64: white space is skipped, there may be a sign (a negative number is converted to unsigned), and there is
    at least one digit (None: not so).  A number that does not fit is undefined (in glibc: 2^64-1). *)
Definition scan_u64 (l : list Z) : res (option (Z * list Z)) :=
  let l := skip_space l in
  let negative := match l with 45 :: _ => true | _ => false end in
  let l := match l with 43 :: r | 45 :: r => r | _ => l end in
  match l with
  | c :: _ => if is_digit c then
                let (z, r) := scan_digits 0 l in
                if z <? 2 ^ 64 then Ok (Some (if negative then u64 (- z) else z, r)) else UB
              else Ok None
  | [] => Ok None
  end.
(** sscanf: [n] conversions %SCNu64, with white space between them; None: it did not scan all of them *)
Fixpoint scan_all (n : nat) (l : list Z) : res (option (list Z)) :=
  match n with
  | O => Ok (Some [])
  | S n =>
      match scan_u64 l with
      | UB => UB
      | Ok None => Ok None
      | Ok (Some (z, r)) => let! zs := scan_all n r in Ok (option_map (cons z) zs)
      end
  end.

(** * The monitor *)
Record monitor := Monitor {
  cpu_count : Z; (* get_system_cpu_count, uint32_t *)
  system_usage : double; (* get_system_cpu_usage *)
  process_usage : double; (* get_process_cpu_usage *)
  total_memory : Z; (* get_total_system_memory, uint64_t *)
  memory_usage : Z; (* get_system_memory_usage *)
  process_memory : Z; (* get_process_memory_usage *)
  prev_user : Z; prev_nice : Z; prev_system : Z; prev_idle : Z; (* uint64_t *)
  prev_stime : Z; prev_utime : Z; prev_time : Z }. (* clock_t *)
(** system_monitor.hpp:120-126, system_monitor_impl.hpp:42-49 *)
Definition new_monitor : monitor := Monitor 0 (B754_zero false) (B754_zero false) 0 0 0 0 0 0 0 0 0 0.

(** system_monitor_impl.cpp:44-50: a line of one CPU *)
Definition cpu_line (l : list Z) : bool := match strip s_cpu l with Some (c :: _) => negb (c =? 32) | _ => false end.
(** system_monitor_impl.cpp:33-61 *)
Definition update_cpu_count (m : monitor) (stat : text) : monitor :=
  let count := u32 (Z.of_nat (length (filter cpu_line (read_lines stat)))) in
  if count =? 0 then m
  else Monitor count (system_usage m) (process_usage m) (total_memory m) (memory_usage m) (process_memory m) (prev_user m) (prev_nice m) (prev_system m) (prev_idle m) (prev_stime m) (prev_utime m) (prev_time m).

(** system_monitor_impl.cpp:66-81: the four numbers of the first line *)
Definition scan_stat (stat : text) : res (option (list Z)) :=
  match read_lines stat with
  | line :: _ => match strip s_cpu line with Some r => scan_all 4 r | None => Ok None end
  | [] => Ok None
  end.
(** system_monitor_impl.cpp:64-103 *)
Definition update_system_usage (m : monitor) (stat : text) : res monitor :=
  let! scanned := scan_stat stat in
  Ok match scanned with
     | Some [user; nice; system; idle] =>
         let usage :=
           if (prev_user m <=? user) && (prev_nice m <=? nice) && (prev_system m <=? system) && (prev_idle m <=? idle) then
             let active := u64 (u64 (u64 (user - prev_user m) + u64 (nice - prev_nice m)) + u64 (system - prev_system m)) in
             let total := u64 (active + u64 (idle - prev_idle m)) in
             div (mul (to_double 100) (to_double active)) (to_double total)
           else system_usage m in
         Monitor (cpu_count m) usage (process_usage m) (total_memory m) (memory_usage m) (process_memory m) user nice system idle (prev_stime m) (prev_utime m) (prev_time m)
     | _ => m
     end.
(** system_monitor_impl.cpp:106-130; the answer of ::times: now, tms_utime, tms_stime (None: -1) *)
Definition update_process_usage (m : monitor) (times : option (Z * Z * Z)) : monitor :=
  match times with
  | None => m
  | Some (now, utime, stime) =>
      let usage :=
        if (prev_time m <? now) && (prev_stime m <=? stime) && (prev_utime m <=? utime) then
          let cpu := (stime - prev_stime m) + (utime - prev_utime m) in
          let time := now - prev_time m in
          div (div (mul (to_double 100) (to_double cpu)) (to_double time)) (to_double (cpu_count m))
        else process_usage m in
      Monitor (cpu_count m) (system_usage m) usage (total_memory m) (memory_usage m) (process_memory m) (prev_user m) (prev_nice m) (prev_system m) (prev_idle m) stime utime now
  end.
(** system_monitor_impl.cpp:133-149; the answer of ::sysinfo: totalram, freeram, mem_unit (None: not 0) *)
Definition update_memory_usage (m : monitor) (info : option (Z * Z * Z)) : monitor :=
  match info with
  | None => m
  | Some (totalram, freeram, mem_unit) =>
      let total := u64 (totalram * mem_unit) in
      let free := u64 (freeram * mem_unit) in
      Monitor (cpu_count m) (system_usage m) (process_usage m) total (u64 (total - free)) (process_memory m) (prev_user m) (prev_nice m) (prev_system m) (prev_idle m) (prev_stime m) (prev_utime m) (prev_time m)
  end.
(** system_monitor_impl.cpp:157-164: the value of process_memory_usage after the loop *)
Fixpoint scan_status (ls : list (list Z)) : res Z :=
  match ls with
  | [] => Ok 0
  | line :: rest =>
      match strip s_vmrss line with
      | None => scan_status rest
      | Some r => let! z := scan_u64 r in match z with Some (z, _) => Ok z | None => scan_status rest end
      end
  end.
(** system_monitor_impl.cpp:152-175 *)
Definition update_process_memory (m : monitor) (status : text) : res monitor :=
  let! kb := scan_status (read_lines status) in
  Ok (if kb =? 0 then m
      else Monitor (cpu_count m) (system_usage m) (process_usage m) (total_memory m) (memory_usage m) (u64 (Z.shiftl kb 10)) (prev_user m) (prev_nice m) (prev_system m) (prev_idle m) (prev_stime m) (prev_utime m) (prev_time m)).

(** What the operating system answers during one poll: /proc/stat is read twice. *)
Record sample := Sample { stat1 : text; stat2 : text; times : option (Z * Z * Z); sysinfo : option (Z * Z * Z); status : text }.
(** system_monitor.cpp:90-96: the task, without its last line *)
Definition poll (m : monitor) (x : sample) : res monitor :=
  let m := update_cpu_count m (stat1 x) in
  let! m := update_system_usage m (stat2 x) in
  let m := update_process_usage m (times x) in
  let m := update_memory_usage m (sysinfo x) in
  update_process_memory m (status x).

(** system_monitor.cpp:83-108 poll_system_later: is there a poll to come?  [accepted]: what post_task_with_delay returns *)
Definition poll_later (m : monitor) (accepted : bool) : bool := (0 <? cpu_count m) && accepted.
(** system_monitor.cpp:15-22 and 34-38: create; None: nullptr *)
Definition create (stat : text) (accepted : bool) : option monitor :=
  let m := update_cpu_count new_monitor stat in
  if poll_later m accepted then Some m else None.
(** The life of a monitor: the polls with the answers they find, as long as each one queues the next.  [armed]: another poll is queued. *)
Fixpoint life (m : monitor) (armed : bool) (polls : list (sample * bool)) : res (monitor * bool) :=
  match polls with
  | [] => Ok (m, armed)
  | (x, accepted) :: rest =>
      if armed then let! m := poll m x in life m (poll_later m accepted) rest else Ok (m, false)
  end.
