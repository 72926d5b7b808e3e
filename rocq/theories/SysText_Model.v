(** Model of the texts of fly/system/system.cpp:25-34 (get_error_string) and fly/system/nix/system_impl.cpp:25-51 (local_time,
    get_error_code).  Simplifications: what std::system_category().message and localtime_r answer is given; strftime is
    written out for the one format string used (POSIX, the "C" locale's digits). *)
From Verif Require Import Common Format_Model FormatString_Model.

(** system.cpp:33: "({}) {}" *)
Definition error_format : list Z := [40; 123; 125; 41; 32; 123; 125].
(** system.cpp:31-34; char of 8 bits, signed or not; [cm] is its greatest value. *)
Definition get_error_string (cm : Z) (message : Z -> list Z) (code : Z) : res (list Z) :=
  format_to 8 cm [] error_format [AInteger 32 true code; AString (message code)].
(** system.cpp:25-28, system_impl.cpp:48-51: with errno. *)
Definition get_error_string_now (cm : Z) (message : Z -> list Z) (errno : Z) : res (list Z) := get_error_string cm message errno.

(** struct tm, the members used *)
Record tm := Tm { tm_mon : Z; tm_mday : Z; tm_year : Z; tm_hour : Z; tm_min : Z; tm_sec : Z }.
(** strftime %m %d %H %M %S: two digits *)
Definition two_digits (n : Z) : list Z := [48 + n / 10; 48 + n mod 10].
(** %Y *)
Definition year_text (y : Z) : list Z := (if y <? 0 then [45] else []) ++ value_or (to_chars 64 (Z.abs y) 10 []) [].
(** system_impl.cpp:37 "%m-%d-%Y %H:%M:%S" *)
Definition strftime_text (t : tm) : list Z :=
  two_digits (tm_mon t + 1) ++ [45] ++ two_digits (tm_mday t) ++ [45] ++ year_text (tm_year t + 1900) ++ [32] ++
  two_digits (tm_hour t) ++ [58] ++ two_digits (tm_min t) ++ [58] ++ two_digits (tm_sec t).
(** strftime into a buffer: 0 if the text and its terminator do not fit. *)
Definition strftime (size : Z) (t : tm) : option (list Z) :=
  if Z.of_nat (length (strftime_text t)) + 1 <=? size then Some (strftime_text t) else None.
(** system_impl.cpp:25-45; [broken_down]: what localtime_r delivers. *)
Definition local_time (broken_down : option tm) : list Z :=
  match broken_down with
  | Some t => match strftime 32 t with Some text => text | None => [] end
  | None => []
  end.
