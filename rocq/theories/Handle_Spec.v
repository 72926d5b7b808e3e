(** Specification vocabulary for C58: which object holds which socket of the operating system, read off the history of events. *)
From Verif Require Import Common Handle_Model. (* only for events, states and [reachable] *)
Open Scope nat_scope.

(** The object that holds socket [k]: the one for which it was made, or into which that was moved.  A socket that was closed is held by no
    object, and neither is one whose object was overwritten by another one. *)
Definition holder_after (k : nat) (o : option nat) (e : event) : option nat :=
  match e with
  | EOpen k' i => if Nat.eqb k' k then Some i else o
  | EClose _ k' => if Nat.eqb k' k then None else o
  | EMove i j =>
      match o with
      | Some x => if Nat.eqb x j then None else if Nat.eqb x i then Some j else Some x
      | None => None
      end
  | _ => o
  end.
Definition holder (h : list event) (k : nat) : option nat := fold_left (holder_after k) h None.
(** Event [e] happens, after the events [a] and before [b]. *)
Definition at_ (h a : list event) (e : event) (b : list event) : Prop := h = a ++ e :: b.
(** Another object was moved into object [j], or object [j] into itself, while [j] held the socket. *)
Definition overwritten (h : list event) (k : nat) : Prop := exists a i j b, at_ h a (EMove i j) b /\ holder a k = Some j.
(** is_open() *)
Definition is_open (s : state) (i : nat) : Prop := o_handle (objs s i) <> invalid.
(** How often call [c] of accept_async has ended: its callback was invoked, or destroyed. *)
Definition ended (c : nat) (e : event) : bool := match e with ECall c' _ _ | ELost c' => Nat.eqb c' c | _ => false end.
Definition is_pending (s : state) (c : nat) : Prop := exists q, In q (requests s) /\ q_call q = c.
