(** Specification vocabulary for C56: what a configuration should hold. *)
From Verif Require Import Common Json_Model JsonApi_Spec.
From Verif Require Import Config_Model. (* only for states and [reachable]; [create_config], [prune] and [get_value] are what is specified *)
Open Scope nat_scope.

(** The values for an identifier in a file: its entry, and nothing (so that every value is the default) if there is none or the file
    cannot be parsed. *)
Definition section (p : option json) (i : ident) : json :=
  match p with Some (JObject m) => match bound m i with Some v => v | None => JNull end | _ => JNull end.
(** A file that cannot be parsed, or that holds key-value pairs (null: an INI file without sections). *)
Definition usable (p : option json) : Prop := match p with None | Some (JObject _) | Some JNull => True | _ => False end.
(** What was parsed last; nothing at the start. *)
Definition latest (s : state) : option json := match parses s with p :: _ => p | [] => None end.
(** The config number [n] is [c] and has owners. *)
Definition live (s : state) (n : nat) (c : config) : Prop := nth_error (heap s) n = Some c /\ c_alive c = true.
(** No update is running or to come. *)
Definition quiet (s : state) : Prop := dirty s = false /\ tasks s = 0 /\ updating s = None.
(** Any number of steps. *)
Inductive steps : state -> state -> Prop :=
| steps_none s : steps s s
| steps_more s t u : steps s t -> step t u -> steps s u.
(** The numbers of the configs with owners. *)
Definition all_numbers (s : state) (l : list nat) : Prop := NoDup l /\ forall n, In n l <-> exists c, live s n c.
