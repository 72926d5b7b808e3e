(** Model of fly/types/json/detail/array_util.hpp: the standard containers a JSON array can be converted to and from - vectors, deques, lists,
    forward lists, and ordered and unordered sets and multisets - with the conversions that use it (json.hpp:1603-1614 and 1694-1708).
    Containers are lists of their elements in iteration order; the standard library's insertions are modelled by what the C++ standard says of
    them ([associative.reqmts], [unord.req]): for unordered containers the place of a new element is left open.
    std::array has its own conversion (JsonConv_Model.to_fixed). *)
From Coq Require Import Permutation.
From Verif Require Import Common Json_Model JsonApi_Model.

(** The element type, with the comparison or equality the container was instantiated with. *)
Inductive kind (A : Type) :=
| Sequence                               (* std::vector, std::deque, std::list *)
| Forward                                (* std::forward_list *)
| Sorted (less : A -> A -> bool)         (* std::set *)
| SortedMulti (less : A -> A -> bool)    (* std::multiset *)
| Hashed (same : A -> A -> bool)         (* std::unordered_set *)
| HashedMulti.                           (* std::unordered_multiset *)
Arguments Sequence {A}. Arguments Forward {A}. Arguments Sorted {A}. Arguments SortedMulti {A}. Arguments Hashed {A}. Arguments HashedMulti {A}.

(** array_util.hpp:47-53: before_begin(), advanced once for each element *)
Fixpoint advance {A} (l : list A) (before : nat) : nat := match l with [] => before | _ :: r => advance r (S before) end.
(** std::forward_list::insert_after, [before] elements precede the new one *)
Definition insert_after {A} (l : list A) (before : nat) (v : A) : list A := firstn before l ++ v :: skipn before l.
(** std::set::insert: nothing if an equivalent element is present *)
Fixpoint set_insert {A} (less : A -> A -> bool) (l : list A) (v : A) : list A :=
  match l with
  | [] => [v]
  | x :: r => if less v x then v :: l else if less x v then x :: set_insert less r v else l
  end.
(** std::multiset::insert: after the elements equivalent to it *)
Fixpoint multi_insert {A} (less : A -> A -> bool) (l : list A) (v : A) : list A :=
  match l with
  | [] => [v]
  | x :: r => if less v x then v :: l else x :: multi_insert less r v
  end.

(** array_util.hpp:25-30, 40-56, 73-77, 87-93, 103-108, 118-124, 134-140, 150-155 json_array_append *)
Inductive appended {A} : kind A -> list A -> A -> list A -> Prop :=
| app_sequence l v : appended Sequence l v (l ++ [v])
| app_forward l v : appended Forward l v (insert_after l (advance l 0) v)
| app_sorted less l v : appended (Sorted less) l v (set_insert less l v)
| app_multi less l v : appended (SortedMulti less) l v (multi_insert less l v)
| app_hashed_present same l v : existsb (same v) l = true -> appended (Hashed same) l v l
| app_hashed same l v a b : existsb (same v) l = false -> l = a ++ b -> appended (Hashed same) l v (a ++ v :: b)
| app_hashed_multi l v a b : l = a ++ b -> appended HashedMulti l v (a ++ v :: b).

(** array_util.hpp:19-22, 33-36, 58-69, ...: json_array_size, which std::forward_list has to count *)
Fixpoint counted {A} (l : list A) (elements : nat) : nat := match l with [] => elements | _ :: r => counted r (S elements) end.
Definition array_size {A} (k : kind A) (l : list A) : nat := match k with Forward => counted l 0 | _ => length l end.

(** json.hpp:1694-1708 operator T, for a container T; [f]: the conversion to its element type *)
Inductive filled {A} (k : kind A) (f : json -> outcome A) : list json -> list A -> outcome (list A) -> Prop :=
| filled_end c : filled k f [] c (Return c)
| filled_throw v r c e : f v = Throw e -> filled k f (v :: r) c (Throw e)
| filled_undefined v r c : f v = Undefined -> filled k f (v :: r) c Undefined
| filled_more v x r c c' o : f v = Return x -> appended k c x c' -> filled k f r c' o -> filled k f (v :: r) c o.
Definition to_container {A} (k : kind A) (f : json -> outcome A) (j : json) (o : outcome (list A)) : Prop :=
  match j with JArray l => filled k f l [] o | _ => o = Throw JsonException end.

(** json.hpp:1603-1614 the constructor; [g]: the conversion from the element type, which can throw. reserve has no effect to be seen but for
    its argument: a container that announced too many elements could not be converted (std::length_error, std::bad_alloc). *)
Fixpoint push_all {A} (g : A -> outcome json) (c : list A) (l : list json) : outcome (list json) :=
  match c with
  | [] => Return l
  | x :: r => match g x with Return v => push_all g r (l ++ [v]) | Throw e => Throw e | Undefined => Undefined end
  end.
Definition of_container {A} (k : kind A) (g : A -> outcome json) (c : list A) : nat * outcome json :=
  (array_size k c, match push_all g c [] with Return l => Return (JArray l) | Throw e => Throw e | Undefined => Undefined end).
