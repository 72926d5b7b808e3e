(** Specification vocabulary for C22-C25. *)
From Verif Require Import Common.

(** Pieces joined with a delimiter character. *)
Fixpoint join (d : Z) (ps : list (list Z)) : list Z :=
  match ps with
  | [] => []
  | [p] => p
  | p :: r => p ++ d :: join d r
  end.

(** [ps] are the pieces of [s] between the occurrences of [d] (empty ones included). *)
Definition pieces_of (d : Z) (s : list Z) (ps : list (list Z)) : Prop :=
  ps <> [] /\ Forall (fun p => ~ In d p) ps /\ s = join d ps.

Definition nonempty (p : list Z) : bool := match p with [] => false | _ => true end.

(** [sub] occurs in [s]. *)
Definition occurs (sub s : list Z) : Prop := exists a b, s = a ++ sub ++ b.

(** Wildcard patterns: 42 is the character '*'. *)
Inductive wild : list Z -> list Z -> Prop :=
| wild_nil : wild [] []
| wild_char c p s : c <> 42 -> wild p s -> wild (c :: p) (c :: s)
| wild_star p a s : wild p s -> wild (42 :: p) (a ++ s).

(** [seg] occurs in [s] at position [i]. *)
Definition at_pos (s seg : list Z) (i : nat) : Prop := exists a r, s = a ++ seg ++ r /\ length a = i.
(** The segments occur at non-decreasing positions, from [idx] on. *)
Inductive chain (s : list Z) : nat -> list (list Z) -> Prop :=
| chain_nil idx : chain s idx []
| chain_cons idx i seg r : (idx <= i)%nat -> at_pos s seg i -> chain s i r -> chain s idx (seg :: r).
