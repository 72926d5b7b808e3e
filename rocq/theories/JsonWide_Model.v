(** Model of fly::Json's strings and keys in other encodings than its own (fly/types/json/json.hpp), and of the conversion of
    strings of other character types to numbers (fly/types/string/string.hpp).
    [e] is the encoding of the character type: char8_t (UTF-8), char16_t, char32_t and wchar_t (UTF-16 or UTF-32).  [sg]: whether
    char, the type of Json's own strings, is signed. *)
From Verif Require Import Common Unicode_Model Format_Model Json_Model JsonApi_Model JsonConv_Model.

(** json.hpp:2005-2027 convert_to_string for a string of another character type (2017-2023) *)
Definition wide_to_string (sg : bool) (e : enc) (value : list Z) : option (list Z) :=
  match Unicode_Model.convert e (U8 sg) value with
  | Some result => validate_string (length result) sg result
  | None => None
  end.

(** json.hpp:1645-1675 operator T for a string type of another character type.  Line 1661 dereferences the result of the
    conversion without looking: undefined if there is none.  Numbers (1664-1668) are formatted in T's character type: the digits
    are those of char, transcoded ([Format_Props.number_transcoded]), so the text is that of [to_text]. *)
Definition to_wide (fp : fp_text) (sg : bool) (e : enc) (j : json) : res (outcome (list Z)) :=
  match j with
  | JString s => Ok (match Unicode_Model.convert (U8 sg) e s with Some t => Return t | None => Undefined end)
  | _ => to_text fp j
  end.

(** std::map::emplace and the like, on the entries in the order they were made *)
Definition emplaced {V} (k : list Z) (v : V) (m : list (list Z * V)) : list (list Z * V) :=
  if existsb (fun x => if list_eq_dec Z.eq_dec (fst x) k then true else false) m then m else m ++ [(k, v)].
(** json.hpp:1677-1691 operator T for a map type; [f]: the conversion of Json to the mapped type (line 1687) *)
Fixpoint convert_entries {V} (sg : bool) (e : enc) (f : json -> outcome V) (m : list (list Z * json)) (acc : list (list Z * V)) : outcome (list (list Z * V)) :=
  match m with
  | [] => Return acc
  | (k, v) :: r =>
      match Unicode_Model.convert (U8 sg) e k with
      | None => Undefined (* line 1686, as above *)
      | Some key =>
          match f v with
          | Return x => convert_entries sg e f r (emplaced key x acc)
          | Throw ex => Throw ex
          | Undefined => Undefined
          end
      end
  end.
Definition to_map {V} (sg : bool) (e : enc) (f : json -> outcome V) (j : json) : outcome (list (list Z * V)) :=
  match as_object j with
  | Some m => convert_entries sg e f m []
  | None => Throw JsonException
  end.
(** json.hpp:1592-1601 the constructor from a map type with keys of another character type: insert of each entry, in the order
    of the map given (1825-1836: an entry already there is kept) *)
Fixpoint of_map (sg : bool) (e : enc) (es : list (list Z * json)) (m : list (list Z * json)) : outcome json :=
  match es with
  | [] => Return (JObject m)
  | (key, v) :: r =>
      match wide_to_string sg e key with
      | Some k => of_map sg e r (fst (map_insert k v m))
      | None => Throw JsonException
      end
  end.

(** string.hpp:811-834 BasicString<CharType>::convert<T>, T an integer type of [w] bits, for a character type other than char *)
Definition convert_wide (w : Z) (is_signed : bool) (sg : bool) (e : enc) (value : list Z) : option Z :=
  match Unicode_Model.convert e (U8 sg) value with
  | Some result => Format_Model.convert w is_signed result
  | None => None
  end.
