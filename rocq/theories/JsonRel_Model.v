(** Model of the other comparison operators of fly::Json (fly/types/json/json.cpp:766-769, 808-823), over json_eq and json_lt of Json_Model. *)
From Verif Require Import Common Json_Model.
Section Format.
Variable ff : fp_format.
(** json.cpp:766-769 operator!= *)
Definition json_ne (a b : json) : bool := negb (json_eq ff a b).
(** json.cpp:808-811 operator<= *)
Definition json_le (a b : json) : bool := negb (json_lt ff b a).
(** json.cpp:814-817 operator> *)
Definition json_gt_op (a b : json) : bool := negb (json_le a b).
(** json.cpp:820-823 operator>= *)
Definition json_ge (a b : json) : bool := negb (json_lt ff a b).
End Format.
