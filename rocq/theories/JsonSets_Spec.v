(** Specification vocabulary for C73: what a container of each kind holds after values have been put into it one after the other. *)
From Coq Require Import Permutation.
From Verif Require Import Common JsonSets_Model. (* only for the kinds of containers *)

(** Equivalent under an order: neither is less. *)
Definition like {A} (less : A -> A -> bool) (x y : A) : bool := negb (less x y) && negb (less y x).
(** No element is less than one before it; every element is greater than those before it. *)
Definition ascending {A} (less : A -> A -> bool) (l : list A) : Prop := forall a x b y c, l = a ++ x :: b ++ y :: c -> less y x = false.
Definition strictly_ascending {A} (less : A -> A -> bool) (l : list A) : Prop := forall a x b y c, l = a ++ x :: b ++ y :: c -> less x y = true.

(** What the container library requires of the order or the equality, on the values [P]. *)
Definition weak_order {A} (P : A -> Prop) (less : A -> A -> bool) : Prop :=
  forall a b c, P a -> P b -> P c ->
    less a a = false /\ (less a b = true -> less b c = true -> less a c = true) /\ (like less a b = true -> like less b c = true -> like less a c = true).
Definition equivalence {A} (P : A -> Prop) (same : A -> A -> bool) : Prop :=
  forall a b c, P a -> P b -> P c -> same a a = true /\ (same a b = true -> same b a = true) /\ (same a b = true -> same b c = true -> same a c = true).
Definition usable {A} (P : A -> Prop) (k : kind A) : Prop :=
  match k with Sorted less | SortedMulti less => weak_order P less | Hashed same => equivalence P same | _ => True end.

(** [c] holds the values [xs]: all of them in their order; or in ascending order, equivalent ones in the order they came in; or of each class of
    equivalent ones the first. *)
Definition holds {A} (P : A -> Prop) (k : kind A) (xs c : list A) : Prop :=
  match k with
  | Sequence | Forward => c = xs
  | SortedMulti less => ascending less c /\ Permutation xs c /\ forall x, P x -> filter (like less x) c = filter (like less x) xs
  | Sorted less => strictly_ascending less c /\ incl c xs /\ forall x, P x -> filter (like less x) c = firstn 1 (filter (like less x) xs)
  | Hashed same => incl c xs /\ forall x, P x -> filter (same x) c = firstn 1 (filter (same x) xs)
  | HashedMulti => Permutation xs c
  end.
Definition hashed {A} (k : kind A) : Prop := match k with Hashed _ | HashedMulti => True | _ => False end.
(** A container of its kind: what it holds when its own elements are put into it. *)
Definition valid {A} (k : kind A) (c : list A) : Prop :=
  match k with
  | Sorted less => strictly_ascending less c
  | SortedMulti less => ascending less c
  | Hashed same => forall a x b y d, c = a ++ x :: b ++ y :: d -> same y x = false
  | _ => True
  end.
