(** Model of fly::Json as a container (fly/types/json/json.cpp, json.hpp) and of its iterators
    (fly/types/json/detail/json_iterator.hpp, json_reverse_iterator.hpp).
    A Json instance is a variable, or an element of another instance: [ref].  A C++ reference to an element, and an iterator, is
    valid as long as the element stays where it is: what a stale one does is undefined.  Not modelled: capacity and reserve;
    failure to allocate less than the maximum; the texts of exceptions; moved-from arguments (a moved-from instance is null); the
    conversions of other string types to UTF-8.  Simplifications: a value given to an operation is not this instance or one of its
    elements ([push_back_self] is the exception), and a range given to insert does not belong to an instance that contains this
    one or is contained in it. *)
From Coq Require Import SpecFloat.
From Verif Require Import Common Json_Model.
Open Scope nat_scope.

(** Where an element is in its container. *)
Inductive selector := Key (k : list Z) | Index (n : nat).
Definition ref : Type := nat * list selector. (* a variable and the way down *)
Definition selector_dec (a b : selector) : {a = b} + {a <> b}.
Proof. decide equality; [apply (list_eq_dec Z.eq_dec)|apply Nat.eq_dec]. Defined.
Definition ref_dec (a b : ref) : {a = b} + {a <> b}.
Proof. decide equality; [apply (list_eq_dec selector_dec)|apply Nat.eq_dec]. Defined.
Arguments ref_dec : simpl never.

(** json_exception.hpp, <stdexcept> *)
Inductive exception := JsonException | JsonIteratorException | BadJsonComparisonException | NullJsonException | OutOfRangeJsonException
  | StdOutOfRange | StdLengthError.
Inductive outcome (A : Type) := Return (a : A) | Throw (e : exception) | Undefined.
Arguments Return {A} a. Arguments Throw {A} e. Arguments Undefined {A}.

(** json_iterator.hpp:485-486: m_json and the position of m_iterator; a default-constructed iterator has no instance. *)
Record iterator := Iterator { owner : option ref; position : nat }.

(** * The storage *)
(** std::map::find *)
Fixpoint map_find (key : list Z) (m : list (list Z * json)) : option (nat * json) :=
  match m with
  | [] => None
  | (k, v) :: r =>
      match key_compare key k with
      | Lt => None
      | Eq => Some (0, v)
      | Gt => option_map (fun x => (S (fst x), snd x)) (map_find key r)
      end
  end.
(** std::map::insert, emplace: an existing entry is kept.  The entry's position, and whether it is new. *)
Fixpoint map_insert (key : list Z) (value : json) (m : list (list Z * json)) : list (list Z * json) * (nat * bool) :=
  match m with
  | [] => ([(key, value)], (0, true))
  | (k, v) :: r =>
      match key_compare key k with
      | Lt => ((key, value) :: m, (0, true))
      | Eq => (m, (0, false))
      | Gt => let '(r', (p, b)) := map_insert key value r in ((k, v) :: r', (S p, b))
      end
  end.
(** std::map::erase(key) *)
Fixpoint map_erase (key : list Z) (m : list (list Z * json)) : list (list Z * json) * nat :=
  match m with
  | [] => ([], 0)
  | (k, v) :: r =>
      match key_compare key k with
      | Lt => (m, 0)
      | Eq => (r, 1)
      | Gt => let '(r', n) := map_erase key r in ((k, v) :: r', n)
      end
  end.
(** std::vector::resize, std::string::resize *)
Definition resized {A} (fill : A) (l : list A) (n : nat) : list A := firstn n l ++ repeat fill (n - length l).
(** std::vector and std::map: erase and insert at positions *)
Definition removed {A} (l : list A) (first last : nat) : list A := firstn first l ++ skipn last l.
Definition spliced {A} (l : list A) (p : nat) (xs : list A) : list A := firstn p l ++ xs ++ skipn p l.
(** std::map::merge: entries whose key is not here move here; the rest stays *)
Fixpoint map_merge (here there : list (list Z * json)) : list (list Z * json) * list (list Z * json) :=
  match there with
  | [] => (here, [])
  | (k, v) :: r =>
      let '(here', (_, new)) := map_insert k v here in
      let '(here'', r') := map_merge here' r in
      (here'', if new then r' else (k, v) :: r')
  end.

(** * Json's members *)
(** json.cpp:392-435 empty, size *)
Definition empty (j : json) : bool :=
  match j with JNull => true | JString [] | JObject [] | JArray [] => true | _ => false end.
Definition size (j : json) : nat :=
  match j with JNull => 0 | JString s => length s | JObject m => length m | JArray l => length l | _ => 1 end.
(** json.cpp:511-531 clear; 0 as a long double *)
Definition cleared (j : json) : json :=
  match j with
  | JNull => JNull | JString _ => JString [] | JObject _ => JObject [] | JArray _ => JArray []
  | JBool _ => JBool false | JSigned _ => JSigned 0 | JUnsigned _ => JUnsigned 0 | JFloat _ => JFloat (S754_zero false)
  end.
(** json.cpp:162-167 is_object_like *)
Definition is_object_like (j : json) : bool := match j with JArray [JString _; _] => true | _ => false end.
(** json.cpp:32-58 the constructor from an initializer list *)
Definition list_constructor (l : list json) : json :=
  if forallb is_object_like l
  then JObject (fold_left (fun m j => match j with JArray [JString k; v] => fst (map_insert k v m) | _ => m end) l [])
  else JArray l.

(** The operations that take a Json instance and other values. *)
Inductive operation :=
| AtKey (key : list Z) | AtIndex (n : Z) (* at *)
| SubscriptKey (key : list Z) | SubscriptIndex (n : Z) (* operator[] of an instance that is not const; for a const one it is [at] *)
| Front | Back
| Begin | End
| Empty | Size | Resize (n : Z) | Clear
| InsertKey (key : list Z) (value : json) | InsertRange (first last : iterator)
| InsertOrAssign (key : list Z) (value : json) | EmplaceKey (key : list Z) (value : json)
| InsertAt (pos : iterator) (values : list json) (* insert(position, value), (position, count, value), (position, initializer list) *)
| InsertAtRange (pos first last : iterator)
| PushBack (value : json) (* and emplace_back *) | PopBack
| EraseKey (key : list Z) | EraseIndex (n : Z) | EraseAt (pos : iterator) | EraseRange (first last : iterator)
| Count (key : list Z) | Find (key : list Z) | Contains (key : list Z)
| Assign (value : json).
Inductive result :=
| RVoid | RElement (s : selector) (* a reference to that element *) | RSize (n : nat) | RBool (b : bool)
| RIterator (it : iterator) | RInserted (it : iterator) (is_new : bool) (old : json) (* [old]: what the argument of insert_or_assign is afterwards *).

Section Members.
Variable signed_char : bool.
Variable max_elements max_bytes : Z. (* std::vector<Json>::max_size(), std::string::max_size() *)
(** The instances, to look at what iterators of other instances point to. *)
Variable at_ : ref -> option json.
Variable self : ref. (* this *)

Definition key_of (key : list Z) : option (list Z) := convert_to_string signed_char key.
Definition here (p : nat) : iterator := Iterator (Some self) p.
Definition owned (it : iterator) : bool := match owner it with Some r => if ref_dec r self then true else false | None => false end.
Definition same_owner (a b : iterator) : bool :=
  match owner a, owner b with
  | Some r, Some s => if ref_dec r s then true else false
  | None, None => true
  | _, _ => false
  end.
(** json.hpp:2070-2115 get, get_or_promote: the instance afterwards and what it holds *)
Definition as_object (j : json) : option (list (list Z * json)) := match j with JObject m => Some m | _ => None end.
Definition promote_object (j : json) : option (list (list Z * json)) := match j with JObject m => Some m | JNull => Some [] | _ => None end.
Definition as_array (j : json) : option (list json) := match j with JArray l => Some l | _ => None end.
Definition promote_array (j : json) : option (list json) := match j with JArray l => Some l | JNull => Some [] | _ => None end.
Definition is_iterable (j : json) : bool := match j with JObject _ | JArray _ => true | _ => false end.
(** The element at a position. *)
Definition selector_at (j : json) (p : nat) : option selector :=
  match j with
  | JObject m => option_map (fun e => Key (fst e)) (nth_error m p)
  | JArray l => option_map (fun _ => Index p) (nth_error l p)
  | _ => None
  end.

Definition run (o : operation) (j : json) : json * outcome result :=
  match o with
  | AtKey key => (* json.hpp:1780-1807 *)
      match as_object j with
      | None => (j, Throw JsonException)
      | Some m =>
          match key_of key with
          | None => (j, Throw JsonException)
          | Some k => match map_find k m with Some _ => (j, Return (RElement (Key k))) | None => (j, Throw JsonException) end
          end
      end
  | AtIndex n => (* json.cpp:233-256 *)
      match as_array j with
      | None => (j, Throw JsonException)
      | Some l => if (Z.of_nat (length l) <=? n)%Z then (j, Throw JsonException) else (j, Return (RElement (Index (Z.to_nat n))))
      end
  | SubscriptKey key => (* json.hpp:1810-1815 *)
      match promote_object j with
      | None => (j, Throw JsonException)
      | Some m =>
          match key_of key with
          | None => (JObject m, Throw JsonException)
          | Some k => (JObject (fst (map_insert k JNull m)), Return (RElement (Key k)))
          end
      end
  | SubscriptIndex n => (* json.cpp:259-269; size_type has 64 bits *)
      match promote_array j with
      | None => (j, Throw JsonException)
      | Some l =>
          if (Z.of_nat (length l) <=? n)%Z then
            let wanted := u64 (n + 1) in
            if (max_elements <? wanted)%Z then (JArray l, Throw StdLengthError)
            else
              let l' := resized JNull l (Z.to_nat wanted) in
              if (Z.of_nat (length l') <=? n)%Z then (JArray l', Throw StdOutOfRange) else (JArray l', Return (RElement (Index (Z.to_nat n))))
          else (JArray l, Return (RElement (Index (Z.to_nat n))))
      end
  | Front => (* json.cpp:278-287: *begin() *)
      if is_iterable j then (j, match selector_at j 0 with Some s => Return (RElement s) | None => Throw NullJsonException end)
      else (j, Throw JsonIteratorException)
  | Back => (* json.cpp:290-317 *)
      if is_iterable j then (j, match selector_at j (size j - 1) with Some s => Return (RElement s) | None => Throw NullJsonException end)
      else (j, Throw JsonIteratorException)
  | Begin => (* json.cpp:320-353, json_iterator.hpp:487-513 *)
      if is_iterable j then (j, Return (RIterator (here 0))) else (j, Throw JsonIteratorException)
  | End => if is_iterable j then (j, Return (RIterator (here (size j)))) else (j, Throw JsonIteratorException)
  | Empty => (j, Return (RBool (empty j)))
  | Size => (j, Return (RSize (size j)))
  | Resize n => (* json.cpp:438-454 *)
      match j with
      | JString s => if (max_bytes <? n)%Z then (j, Throw StdLengthError) else (JString (resized 0%Z s (Z.to_nat n)), Return RVoid)
      | JArray l => if (max_elements <? n)%Z then (j, Throw StdLengthError) else (JArray (resized JNull l (Z.to_nat n)), Return RVoid)
      | _ => (j, Throw JsonException)
      end
  | Clear => (cleared j, Return RVoid)
  | InsertKey key value => (* json.hpp:1825-1836, 2029-2047: the key is converted before the type is checked *)
      match key_of key with
      | None => (j, Throw JsonException)
      | Some k =>
          match as_object j with
          | None => (j, Throw JsonException)
          | Some m => let '(m', (p, new)) := map_insert k value m in (JObject m', Return (RInserted (here p) new value))
          end
      end
  | InsertRange first last => (* json.cpp:534-551 *)
      if negb (same_owner first last) then (j, Throw JsonException)
      else
        match owner first with
        | None => (j, Throw JsonException)
        | Some r =>
            match at_ r with
            | None => (j, Undefined)
            | Some source =>
                match as_object source with
                | None => (j, Throw JsonException)
                | Some es =>
                    match as_object j with
                    | None => (j, Throw JsonException)
                    | Some m =>
                        if (position first <=? position last) && (position last <=? length es)
                        then (JObject (fold_left (fun m e => fst (map_insert (fst e) (snd e) m)) (firstn (position last - position first) (skipn (position first) es)) m), Return RVoid)
                        else (j, Undefined)
                    end
                end
            end
        end
  | InsertOrAssign key value => (* json.hpp:1839-1851 *)
      match key_of key with
      | None => (j, Throw JsonException)
      | Some k =>
          match as_object j with
          | None => (j, Throw JsonException)
          | Some m =>
              let '(m', (p, new)) := map_insert k value m in
              if new then (JObject m', Return (RInserted (here p) true value))
              else
                (JObject (Json_Model.insert_or_assign k value m'),
                 Return (RInserted (here p) false (match nth_error m' p with Some e => snd e | None => value end)))
          end
      end
  | EmplaceKey key value => (* json.hpp:1854-1864 *)
      match promote_object j with
      | None => (j, Throw JsonException)
      | Some m =>
          match key_of key with
          | None => (JObject m, Throw JsonException)
          | Some k => let '(m', (p, new)) := map_insert k value m in (JObject m', Return (RInserted (here p) new value))
          end
      end
  | InsertAt pos values => (* json.cpp:554-569, 596-599; json.hpp:2050-2067 *)
      match as_array j with
      | None => (j, Throw JsonException)
      | Some l =>
          if negb (owned pos) then (j, Throw JsonException)
          else if length l <? position pos then (j, Undefined)
          else if (max_elements <? Z.of_nat (length l + length values))%Z then (j, Throw StdLengthError)
          else (JArray (spliced l (position pos) values), Return (RIterator (here (position pos))))
      end
  | InsertAtRange pos first last => (* json.cpp:572-593 *)
      if negb (same_owner first last) then (j, Throw JsonException)
      else
        match owner first with
        | None => (j, Throw JsonException)
        | Some r =>
            match at_ r with
            | None => (j, Undefined)
            | Some source =>
                match as_array source with
                | None => (j, Throw JsonException)
                | Some xs =>
                    if owned first then (j, Throw JsonException)
                    else
                      match as_array j with
                      | None => (j, Throw JsonException)
                      | Some l =>
                          if negb (owned pos) then (j, Throw JsonException)
                          else if (length l <? position pos) || (position last <? position first) || (length xs <? position last) then (j, Undefined)
                          else if (max_elements <? Z.of_nat (length l + (position last - position first)))%Z then (j, Throw StdLengthError)
                          else (JArray (spliced l (position pos) (firstn (position last - position first) (skipn (position first) xs))),
                                Return (RIterator (here (position pos))))
                      end
                end
            end
        end
  | PushBack value => (* json.cpp:602-613, json.hpp:1867-1872 *)
      match promote_array j with
      | None => (j, Throw JsonException)
      | Some l => if (max_elements <? Z.of_nat (S (length l)))%Z then (JArray l, Throw StdLengthError) else (JArray (l ++ [value]), Return RVoid)
      end
  | PopBack => (* json.cpp:616-619: erase(size() - 1), in 64 bits *)
      let n := u64 (Z.of_nat (size j) - 1) in
      match as_array j with
      | None => (j, Throw JsonException)
      | Some l => if (Z.of_nat (length l) <=? n)%Z then (j, Throw JsonException) else (JArray (removed l (Z.to_nat n) (S (Z.to_nat n))), Return RVoid)
      end
  | EraseKey key => (* json.hpp:1875-1880 *)
      match as_object j with
      | None => (j, Throw JsonException)
      | Some m =>
          match key_of key with
          | None => (j, Throw JsonException)
          | Some k => let '(m', n) := map_erase k m in (JObject m', Return (RSize n))
          end
      end
  | EraseIndex n => (* json.cpp:695-705 *)
      match as_array j with
      | None => (j, Throw JsonException)
      | Some l => if (Z.of_nat (length l) <=? n)%Z then (j, Throw JsonException) else (JArray (removed l (Z.to_nat n) (S (Z.to_nat n))), Return RVoid)
      end
  | EraseAt pos => (* json.cpp:622-657 *)
      if negb (is_iterable j) then (j, Throw JsonException)
      else if negb (owned pos) then (j, Throw JsonException)
      else if position pos =? size j then (j, Throw JsonException)
      else if size j <? position pos then (j, Undefined)
      else (match j with
            | JObject m => JObject (removed m (position pos) (S (position pos)))
            | JArray l => JArray (removed l (position pos) (S (position pos)))
            | _ => j
            end, Return (RIterator (here (position pos))))
  | EraseRange first last => (* json.cpp:660-692 *)
      if negb (is_iterable j) then (j, Throw JsonException)
      else if negb (owned first) || negb (same_owner first last) then (j, Throw JsonException)
      else if (position last <? position first) || (size j <? position last) then (j, Undefined)
      else (match j with
            | JObject m => JObject (removed m (position first) (position last))
            | JArray l => JArray (removed l (position first) (position last))
            | _ => j
            end, Return (RIterator (here (position first))))
  | Count key => (* json.hpp:1965-1970 *)
      match as_object j with
      | None => (j, Throw JsonException)
      | Some m =>
          match key_of key with
          | None => (j, Throw JsonException)
          | Some k => (j, Return (RSize (match map_find k m with Some _ => 1 | None => 0 end)))
          end
      end
  | Find key => (* json.hpp:1973-1994 *)
      match as_object j with
      | None => (j, Throw JsonException)
      | Some m =>
          match key_of key with
          | None => (j, Throw JsonException)
          | Some k => (j, Return (RIterator (here (match map_find k m with Some (p, _) => p | None => length m end))))
          end
      end
  | Contains key => (* json.hpp:1997-2002 *)
      match as_object j with
      | None => (j, Throw JsonException)
      | Some m =>
          match key_of key with
          | None => (j, Throw JsonException)
          | Some k => (j, Return (RBool (match map_find k m with Some _ => true | None => false end)))
          end
      end
  | Assign value => (value, Return RVoid) (* json.cpp:61-65 *)
  end.
End Members.

(** json.cpp:602-606: j.push_back(j) on null: the argument is promoted with the instance, then copied *)
Definition push_back_self (j : json) : json * outcome result :=
  match promote_array j with
  | None => (j, Throw JsonException)
  | Some l => (JArray (l ++ [JArray l]), Return RVoid)
  end.

(** * Two instances *)
(** json.cpp:708-711 swap *)
Definition swap (a b : json) : json * json := (b, a).
(** json.hpp:1883-1895 swap(std::string &): the new values of the instance and of the string.  The string given is validated and its
    escape sequences replaced; if that fails it has been moved from. *)
Definition swap_string (sg : bool) (j : json) (other : list Z) : json * list Z * outcome result :=
  match j with
  | JString s => match convert_to_string sg other with Some s' => (JString s', s, Return RVoid) | None => (j, [], Throw JsonException) end
  | _ => (j, other, Throw JsonException)
  end.
(** json.hpp:1593-1601 the constructor from a map type: [insert] of each entry *)
Fixpoint object_constructor (sg : bool) (es : list (list Z * json)) (m : list (list Z * json)) : outcome json :=
  match es with
  | [] => Return (JObject m)
  | (text, v) :: r => match convert_to_string sg text with Some k => object_constructor sg r (fst (map_insert k v m)) | None => Throw JsonException end
  end.
(** json.cpp:714-730 merge, with an instance that is not this one *)
Definition merge (a b : json) : json * json * outcome result :=
  match promote_object a with
  | None => (a, b, Throw JsonException)
  | Some m =>
      match as_object b with
      | None => (JObject m, b, Throw JsonException)
      | Some n => let '(m', n') := map_merge m n in (JObject m', JObject n', Return RVoid)
      end
  end.

(** * Elements of elements *)
Definition select (s : selector) (j : json) : option json :=
  match s, j with
  | Key k, JObject m => option_map snd (map_find k m)
  | Index n, JArray l => nth_error l n
  | _, _ => None
  end.
Definition replaced {A} (l : list A) (n : nat) (x : A) : list A := firstn n l ++ x :: skipn (S n) l.
Definition replace (s : selector) (v : json) (j : json) : json :=
  match s, j with
  | Key k, JObject m => match map_find k m with Some _ => JObject (Json_Model.insert_or_assign k v m) | None => j end
  | Index n, JArray l => if n <? length l then JArray (replaced l n v) else j
  | _, _ => j
  end.
Fixpoint get_at (p : list selector) (j : json) : option json :=
  match p with [] => Some j | s :: r => match select s j with Some v => get_at r v | None => None end end.
Fixpoint set_at (p : list selector) (v : json) (j : json) : json :=
  match p with [] => v | s :: r => match select s j with Some x => replace s (set_at r v x) j | None => j end end.

(** The program's Json variables. *)
Definition world := nat -> json.
Definition read (w : world) (r : ref) : option json := get_at (snd r) (w (fst r)).
Definition write (w : world) (r : ref) (v : json) : world :=
  fun x => if x =? fst r then set_at (snd r) v (w x) else w x.
(** A member function called on the instance [r]. *)
Definition call (sg : bool) (me mb : Z) (w : world) (r : ref) (o : operation) : option (world * outcome result) :=
  match read w r with
  | None => None (* a dangling reference *)
  | Some j => let '(j', x) := run sg me mb (read w) r o j in Some (write w r j', x)
  end.

(** * Iterators *)
Section Iterators.
Variable w : world.
(** The instance of an iterator, and its length; a stale iterator is undefined. *)
Definition validated {A} (it : iterator) (f : ref -> json -> outcome A) : outcome A := (* json_iterator.hpp:830-837 *)
  match owner it with
  | None => Throw NullJsonException
  | Some r =>
      match read w r with
      | Some j => if is_iterable j && (position it <=? size j) then f r j else Undefined
      | None => Undefined
      end
  end.
Definition validated2 {A} (a b : iterator) (f : json -> outcome A) : outcome A := (* 840-850 *)
  match owner a, owner b with
  | Some r, Some s =>
      if ref_dec r s then validated a (fun _ j => if position b <=? size j then f j else Undefined)
      else Throw BadJsonComparisonException
  | _, _ => Throw NullJsonException
  end.
(** 853-876 validate_offset, and std::advance.  std::abs of the least ptrdiff_t overflows. *)
Definition advance (it : iterator) (r : ref) (j : json) (offset : Z) : outcome iterator :=
  if (offset =? - 2 ^ 63)%Z then Undefined
  else
    let distance := if (0 <=? offset)%Z then Z.of_nat (size j - position it) else Z.of_nat (position it) in
    if (distance <? Z.abs offset)%Z then Throw OutOfRangeJsonException
    else Return (Iterator (owner it) (Z.to_nat (Z.of_nat (position it) + offset))).
(** 878-888 validate_dereference *)
Definition element (r : ref) (j : json) (p : nat) : outcome ref :=
  match selector_at j p with Some s => Return (fst r, snd r ++ [s]) | None => Throw NullJsonException end.
Definition deref (it : iterator) : outcome ref := validated it (fun r j => element r j (position it)). (* 544-584, 822-826 *)
Definition offset_by (it : iterator) (offset : Z) : outcome ref := (* 587-609 *)
  validated it (fun r j =>
    match j with
    | JArray _ => match advance it r j offset with Return it' => element r j (position it') | Throw e => Throw e | Undefined => Undefined end
    | _ => Throw JsonIteratorException
    end).
Definition equal (a b : iterator) : outcome bool := validated2 a b (fun _ => Return (position a =? position b)). (* 612-624 *)
Definition less (a b : iterator) : outcome bool := (* 627-645 *)
  validated2 a b (fun j => match j with JArray _ => Return (position a <? position b) | _ => Throw JsonIteratorException end).
Definition negate (x : outcome bool) : outcome bool := match x with Return b => Return (negb b) | Throw e => Throw e | Undefined => Undefined end.
Definition less_equal (a b : iterator) := negate (less b a). (* 647-652 *)
Definition greater (a b : iterator) := negate (less_equal a b). (* 654-659 *)
Definition greater_equal (a b : iterator) := negate (less a b). (* 661-666 *)
Definition increment (it : iterator) : outcome iterator := validated it (fun r j => advance it r j 1). (* 679-692 *)
Definition decrement (it : iterator) : outcome iterator := validated it (fun r j => advance it r j (-1)). (* 705-718 *)
Definition add (it : iterator) (offset : Z) : outcome iterator := (* 720-740 operator+=, and operator+ *)
  validated it (fun r j => match j with JArray _ => advance it r j offset | _ => Throw JsonIteratorException end).
Definition subtract (it : iterator) (offset : Z) : outcome iterator := (* 742-747 operator-=, and operator-: -offset overflows for the least *)
  if (offset =? - 2 ^ 63)%Z then Undefined else add it (- offset).
Definition difference (a b : iterator) : outcome Z := (* 781-798 *)
  validated2 a b (fun j => match j with JArray _ => Return (Z.of_nat (position a) - Z.of_nat (position b))%Z | _ => Throw JsonIteratorException end).
Definition key (it : iterator) : outcome (list Z) := (* 801-819 *)
  validated it (fun r j =>
    match j with
    | JObject m => match nth_error m (position it) with Some e => Return (fst e) | None => Throw NullJsonException end
    | _ => Throw JsonIteratorException
    end).

(** * Reverse iterators: std::reverse_iterator over [base] (json_reverse_iterator.hpp) *)
Definition null_if_out_of_range {A} (x : outcome A) : outcome A := match x with Throw OutOfRangeJsonException => Throw NullJsonException | _ => x end.
Definition andthen {A B} (x : outcome A) (f : A -> outcome B) : outcome B := match x with Return a => f a | Throw e => Throw e | Undefined => Undefined end.
Definition r_deref (base : iterator) : outcome ref := null_if_out_of_range (andthen (decrement base) deref). (* 261-285, 379-391 *)
Definition r_key (base : iterator) : outcome (list Z) := null_if_out_of_range (andthen (decrement base) key). (* 364-376 *)
Definition r_increment (base : iterator) : outcome iterator := decrement base. (* 301-305 *)
Definition r_decrement (base : iterator) : outcome iterator := increment base. (* 315-319 *)
Definition r_add (base : iterator) (offset : Z) : outcome iterator := subtract base offset. (* 322-343 *)
Definition r_subtract (base : iterator) (offset : Z) : outcome iterator := add base offset.
Definition r_offset_by (base : iterator) (offset : Z) : outcome ref := andthen (r_add base offset) r_deref. (* 288-291 *)
Definition r_difference (a b : iterator) : outcome Z := difference b a. (* 354-360 *)
End Iterators.
