(** Model of the texts of the exceptions of fly::Json and its iterators: json_exception.cpp:1-81, the places where json.cpp, json.hpp and
    detail/json_iterator.hpp throw, and Formatter<Json> (json.hpp:2119-2148) for char.  What is thrown, and when, was modelled in JsonApi_Model;
    here it is written down again from the code together with the text.
    Simplified: exceptions of the standard library are left out; keys are given as std::string or as a view or pointer of type char. *)
From Coq Require Import String.
From Verif Require Import Common Lexer_Model Unicode_Model Format_Model FormatString_Model Json_Model JsonApi_Model.
Import List.ListNotations.
Open Scope list_scope.
Open Scope Z_scope.

(** A string literal. *)
Definition txt (s : string) : list Z := map (fun c => Z.of_nat (Ascii.nat_of_ascii c)) (String.list_ascii_of_string s).
Arguments txt s%string.

(** What is passed to the constructor of an exception. *)
Inductive reason :=
| Bare (message : list Z) (* JsonException(message) *)
| About (message : list Z) (value : json) (* JsonException( *this, message) *)
| AtIterator (message : list Z) (value : json) (* JsonIteratorException *)
| Different (a b : json) (* BadJsonComparisonException *)
| NothingAt (value : json) | Nothing (* NullJsonException *)
| OutOfRange (offset : Z) (value : json). (* OutOfRangeJsonException *)

Section Texts.
Variable fp : fp_text.
Variable sg : bool. (* char is signed *)
Definition char_max : Z := if sg then 127 else 255.
Definition fmt (format : list Z) (args : list arg) : res (list Z) := format_to 8 char_max [] format args.
(** json.hpp:2134-2147, for an empty specifier *)
Definition shown (j : json) : res arg := let! s := serialize fp sg j in Ok (AUser s).
(** json_exception.cpp:10-29 *)
Definition json_exception (message : list Z) : res (list Z) := fmt (txt "JsonException: {}") [AString message].
Definition json_exception_about (j : json) (message : list Z) : res (list Z) := let! v := shown j in fmt (txt "JsonException: {}: ({})") [AString message; v].
Definition json_exception_named (class_name message : list Z) : res (list Z) := fmt (txt "{}: {}") [AString class_name; AString message].
(** json_exception.cpp:24-76: what() of the exception *)
Definition what (r : reason) : res (list Z) :=
  match r with
  | Bare m => json_exception m
  | About m j => json_exception_about j m
  | AtIterator m j => (* 38-41 *)
      let! v := shown j in let! m' := fmt (txt "{}: ({})") [AString m; v] in json_exception_named (txt "JsonIteratorException") m'
  | Different a b => (* 44-54 *)
      let! v := shown a in let! v' := shown b in
      let! m := fmt (txt "Cannot compare iterators of different JSON instances: ({}) ({})") [v; v'] in json_exception_named (txt "BadJsonComparisonException") m
  | NothingAt j => (* 57-62 *)
      let! v := shown j in
      let! m := fmt (txt "Cannot dereference an empty or past-the-end iterator: ({})") [v] in json_exception_named (txt "NullJsonException") m
  | Nothing => (* 65-70 *)
      let! m := fmt (txt "Cannot dereference an empty or past-the-end iterator") [] in json_exception_named (txt "NullJsonException") m
  | OutOfRange o j => (* 73-78; std::ptrdiff_t *)
      let! v := shown j in
      let! m := fmt (txt "Offset {} is out-of-range: ({})") [AInteger 64 true o; v] in json_exception_named (txt "OutOfRangeJsonException") m
  end.
(** The class of the exception. *)
Definition class_of (r : reason) : exception :=
  match r with
  | Bare _ | About _ _ => JsonException | AtIterator _ _ => JsonIteratorException | Different _ _ => BadJsonComparisonException
  | NothingAt _ | Nothing => NullJsonException | OutOfRange _ _ => OutOfRangeJsonException
  end.

(** json.cpp:826-916 validate_string and read_escaped_character: the message, if they throw *)
Fixpoint string_reason (fuel : nat) (it : list Z) : option (res (list Z)) :=
  match fuel, it with
  | _, [] => None
  | O, _ => None
  | S fuel', ch :: r =>
      if ch =? 92 then
        match r with
        | [] => Some (Ok (txt "Expected escaped character after reverse solidus"))
        | next :: r' =>
            match simple_escape next with
            | Some c => string_reason fuel' r'
            | None =>
                if next =? 117 then
                  match unescape_codepoint (U8 sg) it with
                  | (Some s, it') => string_reason fuel' it'
                  | (None, _) => Some (Ok (txt "Could not parse escaped Unicode sequence"))
                  end
                else Some (fmt (txt "Invalid escape character '{}'") [ACharacter 8 sg (char_value sg next)])
            end
        end
      else if (char_value sg ch >=? 0) && (char_value sg ch <? 32) then
        Some (fmt (txt "Character {:#04x} must be escaped") [ACharacter 8 sg (char_value sg ch)])
      else if ch =? 34 then Some (fmt (txt "Character '{}' must be escaped") [ACharacter 8 sg (char_value sg ch)])
      else string_reason fuel' r
  end.
(** json.hpp:2006-2026 convert_to_string *)
Definition text_reason (value : list Z) : option (res (list Z)) :=
  if Unicode_Model.validate (U8 sg) value then string_reason (length value) value else Some (Ok (txt "Could not convert string-like type to a JSON string")).
Definition key_reason (key : list Z) : option (res reason) := option_map (fun m => let! m := m in Ok (Bare m)) (text_reason key).

(** How the key of an operation is given: a std::string, which is moved into convert_to_string and empty afterwards, or a view or pointer. *)
Inductive key_type := OwnedKey | ViewedKey.
Definition after_move (t : key_type) (key : list Z) : list Z := match t with OwnedKey => [] | ViewedKey => key end.

Definition first_of {A} (a b : option A) : option A := match a with Some _ => a | None => b end.
(** json.hpp:2070-2115 get: the message if the type is another one *)
Definition need_object (j : json) (message : list Z) : option (res reason) := match j with JObject _ => None | _ => Some (Ok (About message j)) end.
Definition need_array (j : json) (message : list Z) : option (res reason) := match j with JArray _ => None | _ => Some (Ok (About message j)) end.
(** json.hpp:2081-2100 get_or_promote *)
Definition want_object (j : json) (message : list Z) : option (res reason) := match j with JNull => None | _ => need_object j message end.
Definition want_array (j : json) (message : list Z) : option (res reason) := match j with JNull => None | _ => need_array j message end.
(** "Given index ({}) not found" *)
Definition index_reason (j : json) (l : list json) (n : Z) : option (res reason) :=
  if Z.of_nat (length l) <=? n then Some (let! m := fmt (txt "Given index ({}) not found") [AInteger 64 false n] in Ok (About m j)) else None.
Definition in_array (j : json) (f : list json -> option (res reason)) : option (res reason) := match j with JArray l => f l | _ => None end.

Variable at_ : ref -> option json.
Variable self : ref.

(** What the operation throws, besides the exceptions of the standard library. *)
Definition explain (t : key_type) (o : operation) (j : json) : option (res reason) :=
  match o with
  | AtKey key => (* json.hpp:1779-1807 *)
      first_of (need_object j (txt "JSON type invalid for operator[key]"))
        (first_of (key_reason key)
          (match j, key_of sg key with
           | JObject m, Some k =>
               match map_find k m with
               | Some _ => None
               | None => Some (let! m := fmt (txt "Given key ({}) not found") [AString (after_move t key)] in Ok (About m j))
               end
           | _, _ => None
           end))
  | AtIndex n => (* json.cpp:233-256 *)
      first_of (need_array j (txt "JSON type invalid for operator[index]")) (in_array j (fun l => index_reason j l n))
  | SubscriptKey key => first_of (want_object j (txt "JSON type invalid for operator[key]")) (key_reason key) (* json.hpp:1810-1815 *)
  | SubscriptIndex _ => want_array j (txt "JSON type invalid for operator[index]") (* json.cpp:259-269 *)
  | Front | Back => (* json.cpp:278-317: begin() and end() throw, then operator* *)
      match j with
      | JObject [] | JArray [] => Some (Ok (NothingAt j))
      | JObject _ | JArray _ => None
      | _ => Some (Ok (AtIterator (txt "JSON type invalid for iteration") j))
      end
  | Begin | End => (* json.cpp:320-353, json_iterator.hpp:505 *)
      match j with JObject _ | JArray _ => None | _ => Some (Ok (AtIterator (txt "JSON type invalid for iteration") j)) end
  | Empty | Size | Clear | Assign _ => None
  | Resize _ => match j with JString _ | JArray _ => None | _ => Some (Ok (About (txt "JSON type invalid for capacity operations") j)) end (* json.cpp:438-454 *)
  | InsertKey key _ | InsertOrAssign key _ => (* json.hpp:1825-1851, 2029-2047 *)
      first_of (key_reason key) (need_object j (txt "JSON type invalid for object insertion"))
  | InsertRange first last => (* json.cpp:534-551 *)
      if negb (same_owner first last) then Some (Ok (Bare (txt "Provided iterators are for different Json instances")))
      else
        match owner first with
        | None => Some (Ok (Bare (txt "Provided iterators' JSON type invalid for object insertion")))
        | Some r =>
            match at_ r with
            | None => None
            | Some (JObject _) => need_object j (txt "JSON type invalid for object insertion")
            | Some _ => Some (Ok (Bare (txt "Provided iterators' JSON type invalid for object insertion")))
            end
        end
  | EmplaceKey key _ => first_of (want_object j (txt "JSON type invalid for object emplacement")) (key_reason key) (* json.hpp:1854-1864 *)
  | InsertAt pos _ => (* json.hpp:2050-2067 *)
      first_of (need_array j (txt "JSON type invalid for array insertion"))
        (if owned self pos then None else Some (Ok (Bare (txt "Provided iterator is for a different Json instance"))))
  | InsertAtRange pos first last => (* json.cpp:572-593 *)
      if negb (same_owner first last) then Some (Ok (Bare (txt "Provided iterators are for different Json instances")))
      else
        match owner first with
        | None => Some (Ok (Bare (txt "Provided iterators' JSON type invalid for array insertion")))
        | Some r =>
            match at_ r with
            | None => None
            | Some (JArray _) =>
                if owned self first then Some (Ok (About (txt "Provided iterators may not belong to this Json instance") j))
                else first_of (need_array j (txt "JSON type invalid for array insertion"))
                       (if owned self pos then None else Some (Ok (Bare (txt "Provided iterator is for a different Json instance"))))
            | Some _ => Some (Ok (Bare (txt "Provided iterators' JSON type invalid for array insertion")))
            end
        end
  | PushBack _ => want_array j (txt "JSON type invalid for array insertion") (* json.cpp:602-613 *)
  | PopBack => (* json.cpp:616-619: erase(size() - 1) *)
      first_of (need_array j (txt "JSON type invalid for erase(index)")) (in_array j (fun l => index_reason j l (u64 (Z.of_nat (length l) - 1))))
  | EraseKey key => first_of (need_object j (txt "JSON type invalid for erase(key)")) (key_reason key) (* json.hpp:1875-1880 *)
  | EraseIndex n => first_of (need_array j (txt "JSON type invalid for erase(index)")) (in_array j (fun l => index_reason j l n)) (* json.cpp:695-705 *)
  | EraseAt pos => (* json.cpp:622-657 *)
      match j with
      | JObject _ | JArray _ =>
          if negb (owned self pos) then Some (Ok (Bare (txt "Provided iterator is for a different Json instance")))
          else if Nat.eqb (position pos) (size j) then Some (Ok (Bare (txt "Provided iterator must not be past-the-end")))
          else None
      | _ => Some (Ok (About (txt "JSON type invalid for erasure") j))
      end
  | EraseRange first last => (* json.cpp:660-692 *)
      match j with
      | JObject _ | JArray _ =>
          if negb (owned self first) || negb (same_owner first last) then Some (Ok (Bare (txt "Provided iterators are for a different Json instance"))) else None
      | _ => Some (Ok (About (txt "JSON type invalid for erasure") j))
      end
  | Count key => first_of (need_object j (txt "JSON type invalid for count(key)")) (key_reason key) (* json.hpp:1965-1970 *)
  | Find key => first_of (need_object j (txt "JSON type invalid for find(key)")) (key_reason key) (* json.hpp:1973-1994 *)
  | Contains key => first_of (need_object j (txt "JSON type invalid for contains(key)")) (key_reason key) (* json.hpp:1997-2002 *)
  end.
End Texts.

(** * Iterators: json_iterator.hpp *)
Section IteratorTexts.
Variable w : world.
(** 830-837 validate_iterator() and the instance *)
Definition explain_validated (it : iterator) (f : json -> option reason) : option reason :=
  match owner it with
  | None => Some Nothing
  | Some r => match read w r with Some j => f j | None => None end
  end.
(** 840-850 validate_iterator(iterator) *)
Definition explain_validated2 (a b : iterator) (f : json -> option reason) : option reason :=
  match owner a, owner b with
  | Some r, Some s =>
      match read w r, read w s with
      | Some x, Some y => if ref_dec r s then f x else Some (Different x y)
      | _, _ => None
      end
  | _, _ => Some Nothing
  end.
(** 853-876 validate_offset *)
Definition explain_advance (p : nat) (j : json) (offset : Z) : option reason :=
  let distance := if 0 <=? offset then Z.of_nat (size j - p) else Z.of_nat p in
  if distance <? Z.abs offset then Some (OutOfRange offset j) else None.
(** 878-888 validate_dereference *)
Definition explain_element (p : nat) (j : json) : option reason := if Nat.eqb p (size j) then Some (NothingAt j) else None.
Definition explain_deref (it : iterator) : option reason := explain_validated it (explain_element (position it)). (* 544-584 *)
Definition only_array (j : json) (message : list Z) (r : option reason) : option reason := match j with JArray _ => r | _ => Some (AtIterator message j) end.
Definition explain_offset_by (it : iterator) (offset : Z) : option reason := (* 587-609 *)
  explain_validated it (fun j => only_array j (txt "JSON type invalid for offset operator")
    (first_of (explain_advance (position it) j offset) (explain_element (Z.to_nat (Z.of_nat (position it) + offset)) j))).
Definition explain_equal (a b : iterator) : option reason := explain_validated2 a b (fun _ => None). (* 612-624 *)
Definition explain_less (a b : iterator) : option reason := explain_validated2 a b (fun j => only_array j (txt "JSON type invalid for comparison operator") None). (* 627-645 *)
Definition explain_increment (it : iterator) : option reason := explain_validated it (fun j => explain_advance (position it) j 1). (* 679-692 *)
Definition explain_decrement (it : iterator) : option reason := explain_validated it (fun j => explain_advance (position it) j (-1)). (* 705-718 *)
Definition explain_add (it : iterator) (offset : Z) : option reason := (* 720-740 *)
  explain_validated it (fun j => only_array j (txt "JSON type invalid for iterator offset") (explain_advance (position it) j offset)).
Definition explain_difference (a b : iterator) : option reason := (* 781-798 *)
  explain_validated2 a b (fun j => only_array j (txt "JSON type invalid for iterator difference") None).
Definition explain_key (it : iterator) : option reason := (* 801-819 *)
  explain_validated it (fun j => match j with JObject _ => explain_element (position it) j | _ => Some (AtIterator (txt "JSON type is not keyed") j) end).
End IteratorTexts.
