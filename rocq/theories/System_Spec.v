(** Specification vocabulary for C59: the files of proc(5) that the monitor reads, and doubles. *)
From Coq Require Import Reals.
From Flocq Require Import Core.
From Flocq Require Import IEEE754.BinarySingleNaN.
From Verif Require Import Common.

(** A decimal number. *)
Inductive numeral : Z -> list Z -> Prop :=
| numeral_digit d : 0 <= d <= 9 -> numeral d [48 + d]
| numeral_more z l d : numeral z l -> 0 <= d <= 9 -> numeral (10 * z + d) (l ++ [48 + d]).
(** Blanks between words. *)
Definition gap (l : list Z) : Prop := l <> [] /\ Forall (fun c => c = 32 \/ c = 9) l.
(** What may follow a number. *)
Definition no_digit_first (l : list Z) : Prop := match l with [] => True | c :: _ => ~ 48 <= c <= 57 end.
Definition starts_with (p l : list Z) : Prop := exists r, l = p ++ r.
(** A file made of lines. *)
Definition one_line (l : list Z) : Prop := ~ In 10 l.
Definition file_of (ls : list (list Z)) : list Z := concat (map (fun l => l ++ [10]) ls).
(** The line feed of the last line may be missing, unless the line is empty. *)
Definition text_of (ls : list (list Z)) (content : list Z) : Prop := content = file_of ls \/ content ++ [10] = file_of ls /\ last ls [] <> [].

Definition cpu : list Z := [99; 112; 117]. (* "cpu" *)
Definition vmrss : list Z := [86; 109; 82; 83; 83; 58]. (* "VmRSS:" *)
(** "cpu  user nice system idle ..." *)
Definition counters_line (user nice system idle : Z) (line : list Z) : Prop :=
  exists g1 d1 g2 d2 g3 d3 g4 d4 rest, line = cpu ++ g1 ++ d1 ++ g2 ++ d2 ++ g3 ++ d3 ++ g4 ++ d4 ++ rest /\
    gap g1 /\ gap g2 /\ gap g3 /\ gap g4 /\ numeral user d1 /\ numeral nice d2 /\ numeral system d3 /\ numeral idle d4 /\ no_digit_first rest.
(** /proc/stat: the counters of all CPUs together, a line for every CPU ("cpu0 ..."), and other lines. *)
Definition stat_file (user nice system idle : Z) (cpus : nat) (content : list Z) : Prop :=
  exists line each others, text_of (line :: each ++ others) content /\ Forall one_line (line :: each ++ others) /\
    (exists c r, line = cpu ++ c :: r /\ c = 32) /\ counters_line user nice system idle line /\
    length each = cpus /\ Forall (fun l => exists d r, l = cpu ++ d :: r /\ 48 <= d <= 57) each /\ Forall (fun l => ~ starts_with cpu l) others.
(** /proc/self/status: "VmRSS:  kb kB" among other lines. *)
Definition status_file (kb : Z) (content : list Z) : Prop :=
  exists before g d rest after, text_of (before ++ (vmrss ++ g ++ d ++ rest) :: after) content /\ Forall one_line (before ++ (vmrss ++ g ++ d ++ rest) :: after) /\
    gap g /\ numeral kb d /\ no_digit_first rest /\ Forall (fun l => ~ starts_with vmrss l) before.
(** The file cannot be opened, or is empty. *)
Definition unreadable (t : option (list Z)) : Prop := t = None \/ t = Some [].

(** The double nearest to a real number (ties to even). *)
Definition nearest (x : R) : R := round radix2 (FLT_exp (3 - 1024 - 53) 53) ZnearestE x.
Definition is_number (d : binary_float 53 1024) (x : R) : Prop := is_finite d = true /\ B2R d = x.
