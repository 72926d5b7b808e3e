(** Specification vocabulary for C51-C54: a Json instance as a finite map or a sequence, iteration, references. *)
From Coq Require Import SpecFloat.
From Verif Require Import Common Unicode_Spec Format_Spec Json_Spec.
From Verif Require Import Json_Model JsonApi_Model. (* only for the types of values, operations, results, iterators, references; [read], [call] and the iterator functions are what is specified *)
Open Scope nat_scope.

(** * Objects as finite maps *)
Definition same_key (a b : list Z) : {a = b} + {a <> b} := list_eq_dec Z.eq_dec a b.
Arguments same_key : simpl never.
Fixpoint bound (m : list (list Z * json)) (k : list Z) : option json :=
  match m with [] => None | (k', v) :: r => if same_key k k' then Some v else bound r k end.
(** The map [f] with [k] bound to [x] (or unbound). *)
Definition rebind (f : list Z -> option json) (k : list Z) (x : option json) : list Z -> option json :=
  fun k' => if same_key k' k then x else f k'.
(** The text given for a key (or a string), and the key it stands for: escape sequences are replaced. *)
Definition names (text k : list Z) : Prop := utf8_text text /\ literal text k.
Definition names_nothing (text : list Z) : Prop := forall k, ~ names text k.

(** * Values *)
(** What a Json instance may hold: valid strings and keys, keys in order and without duplicates, integers in range. *)
Fixpoint regular (j : json) : Prop :=
  match j with
  | JNull | JBool _ | JFloat _ => True
  | JString s => utf8_text s
  | JObject m =>
      sorted_keys m /\
      (fix go (m : list (list Z * json)) : Prop := match m with [] => True | (k, v) :: r => utf8_text k /\ regular v /\ go r end) m
  | JArray l => (fix go (l : list json) : Prop := match l with [] => True | v :: r => regular v /\ go r end) l
  | JSigned z => (- 2 ^ 63 <= z < 2 ^ 63)%Z
  | JUnsigned z => (0 <= z < 2 ^ 64)%Z
  end.
(** A std::map's entries: in order, without duplicates, at every level. *)
Fixpoint stored (j : json) : Prop :=
  match j with
  | JObject m =>
      sorted_keys m /\
      (fix go (m : list (list Z * json)) : Prop := match m with [] => True | (_, v) :: r => stored v /\ go r end) m
  | JArray l => (fix go (l : list json) : Prop := match l with [] => True | v :: r => stored v /\ go r end) l
  | _ => True
  end.
(** The values given to an operation; texts of keys are bytes, and indices have 64 bits. *)
Definition values_of (o : operation) : list json :=
  match o with
  | InsertKey _ v | InsertOrAssign _ v | EmplaceKey _ v | PushBack v | Assign v => [v]
  | InsertAt _ vs => vs
  | _ => []
  end.
Definition text_of (o : operation) : list Z :=
  match o with
  | AtKey t | SubscriptKey t | InsertKey t _ | InsertOrAssign t _ | EmplaceKey t _ | EraseKey t | Count t | Find t | Contains t => t
  | _ => []
  end.
Definition number_of (o : operation) : Z :=
  match o with AtIndex n | SubscriptIndex n | Resize n | EraseIndex n => n | _ => 0%Z end.
Definition proper (o : operation) : Prop := Forall regular (values_of o) /\ Forall (fun b => 0 <= b < 256)%Z (text_of o) /\ (0 <= number_of o < 2 ^ 64)%Z.
(** A string is not cut inside a character. *)
Definition careful (j : json) (o : operation) : Prop :=
  match o, j with Resize n, JString s => utf8_text (firstn (Z.to_nat n) s) | _, _ => True end.
(** The iterators given to an operation point into containers, ranges in the right direction.  ([at_ r]: what the instance [r] holds.) *)
Definition inside (at_ : ref -> option json) (it : iterator) : Prop :=
  forall r, owner it = Some r -> exists j, at_ r = Some j /\ position it <= size j.
Definition iterators_of (o : operation) : list iterator :=
  match o with
  | InsertRange a b | EraseRange a b => [a; b]
  | InsertAtRange p a b => [p; a; b]
  | InsertAt p _ | EraseAt p => [p]
  | _ => []
  end.
Definition ordered (o : operation) : Prop :=
  match o with
  | InsertRange a b | EraseRange a b | InsertAtRange _ a b => owner a = owner b -> position a <= position b
  | _ => True
  end.
Definition valid_iterators (at_ : ref -> option json) (o : operation) : Prop := Forall (inside at_) (iterators_of o) /\ ordered o.

(** The types an operation works on. *)
Inductive kind := Null | Text | Object | Array | Scalar.
Definition kind_of (j : json) : kind :=
  match j with JNull => Null | JString _ => Text | JObject _ => Object | JArray _ => Array | _ => Scalar end.
Definition works_on (o : operation) : list kind :=
  match o with
  | AtKey _ | InsertKey _ _ | InsertRange _ _ | InsertOrAssign _ _ | EraseKey _ | Count _ | Find _ | Contains _ => [Object]
  | SubscriptKey _ | EmplaceKey _ _ => [Object; Null]
  | AtIndex _ | InsertAt _ _ | InsertAtRange _ _ _ | PopBack | EraseIndex _ => [Array]
  | SubscriptIndex _ | PushBack _ => [Array; Null]
  | Resize _ => [Array; Text]
  | Front | Back | Begin | End | EraseAt _ | EraseRange _ _ => [Object; Array]
  | Empty | Size | Clear | Assign _ => [Null; Text; Object; Array; Scalar]
  end.
Definition keyed (o : operation) : bool :=
  match o with
  | AtKey _ | SubscriptKey _ | InsertKey _ _ | InsertOrAssign _ _ | EmplaceKey _ _ | EraseKey _ | Count _ | Find _ | Contains _ => true
  | _ => false
  end.

(** The elements of a container, in order. *)
Definition elements (j : json) : list (selector * json) :=
  match j with
  | JObject m => map (fun e => (Key (fst e), snd e)) m
  | JArray l => combine (map Index (seq 0 (length l))) l
  | _ => []
  end.
Definition container (j : json) : Prop := (exists m, j = JObject m) \/ (exists l, j = JArray l).

(** * Iterators *)
(** [it] is a valid iterator of the instance [r], which holds [j], at position [p] (the number of elements before it). *)
Definition points (w : world) (it : iterator) (r : ref) (j : json) (p : nat) : Prop :=
  owner it = Some r /\ position it = p /\ read w r = Some j /\ container j /\ p <= length (elements j).
(** The loop  for (it = first; it != last; ++it) visit( *it);  and what it visits. *)
Inductive loop (w : world) (last : iterator) : iterator -> list ref -> Prop :=
| loop_done it : equal w it last = Return true -> loop w last it []
| loop_more it x it' xs : equal w it last = Return false -> deref w it = Return x -> increment w it = Return it' -> loop w last it' xs ->
    loop w last it (x :: xs).
(** The same with reverse iterators, given by their bases. *)
Inductive reverse_loop (w : world) (last : iterator) : iterator -> list ref -> Prop :=
| reverse_done it : equal w it last = Return true -> reverse_loop w last it []
| reverse_more it x it' xs : equal w it last = Return false -> r_deref w it = Return x -> r_increment w it = Return it' -> reverse_loop w last it' xs ->
    reverse_loop w last it (x :: xs).
Definition element_ref (r : ref) (e : selector * json) : ref := (fst r, snd r ++ [fst e]).

(** * References *)
(** Neither instance contains the other. *)
Definition apart (a b : ref) : Prop :=
  fst a <> fst b \/ (forall x, snd b <> snd a ++ x) /\ (forall x, snd a <> snd b ++ x).
(** A sequence of calls with proper arguments, strings not cut inside a character. *)
Inductive calls (sg : bool) (me mb : Z) : world -> list (ref * operation) -> world -> Prop :=
| calls_nil w : calls sg me mb w [] w
| calls_cons w r o j x w' os w'' : read w r = Some j -> proper o -> careful j o -> call sg me mb w r o = Some (w', x) -> calls sg me mb w' os w'' -> calls sg me mb w ((r, o) :: os) w''.
