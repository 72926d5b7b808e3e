(** Specification vocabulary for C38, on the log of what can be observed. *)
From Verif Require Import Common Service_Model. (* only for the type of events *)

Definition side {A} (d : direction) (w r : A) : A := match d with Write => w | Read => r end.
(** Request [i] of handle [h] is consumed: its callback is invoked, or dropped. *)
Definition served (d : direction) (i : nat) (h : Z) (e : event) : Prop := e = ENotify d i h \/ e = EDrop d i h.
Definition not_select (e : event) : Prop := match e with ESelect _ _ => False | _ => True end.
(** The numbers of the requests whose callbacks were invoked or dropped. *)
Definition consumed (l : list event) : list nat := flat_map (fun e => match e with ENotify _ i _ | EDrop _ i _ => [i] | _ => [] end) l.
(** Request [i] is registered and neither consumed nor removed. *)
Definition waiting (l : list event) (d : direction) (i : nat) (h : Z) : Prop :=
  exists k a b, l = a ++ ERegister d i h k :: b /\ ~ In i (consumed b) /\ ~ In (ERemove h) b.
