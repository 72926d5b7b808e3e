(** Specification vocabulary for C62. *)
From Verif Require Import Common Coder_Model.

(** The operating system does what is asked: the input can be read to its end, the output can be written and has room. *)
Definition no_trouble (env : environment) (size : nat) : Prop :=
  m_can_read env = true /\ m_can_write env = true /\ m_read_fault env = None /\ (size <= m_room env)%nat.
(** Nothing but the file [output] differs. *)
Definition only (output : Z) (fs fs' : contents) : Prop := forall f, f <> output -> fs' f = fs f.
(** [back] undoes [forth] on [data]. *)
Definition inverts (forth back : coder) (data : list Z) : Prop :=
  forall w r, core forth data (Ok (Some w)) -> core back w r -> r = Ok (Some data).
