(** Model of fly::parser::IniParser (fly/parser/ini_parser.cpp).  The stream is the list of bytes still
    to be read; [sg]: char is signed.  Not modelled: logging. *)
From Verif Require Import Common Unicode_Model Strings_Model Json_Model.

(** ini_parser.cpp:89-102 getline; [None]: returns false. *)
Fixpoint take_line (input : list Z) : list Z * list Z :=
  match input with
  | [] => ([], [])
  | c :: r => if c =? 10 then ([], r) else let '(line, rest) := take_line r in (c :: line, rest)
  end.
Definition getline (input : list Z) : option (list Z * list Z) :=
  let '(line, rest) := take_line input in
  match rest, line with
  | [], [] => None
  | _, _ => Some (line, rest)
  end.

(** ini_parser.hpp:25-36, ini_parser.cpp:157-180 trim_value.  For a string of one character the count
    size() - 2 wraps to npos and the result is empty. *)
Inductive trim_result := Imbalanced | Trimmed | Untrimmed.
Definition trim_value (str : list Z) (start end_ : Z) : trim_result * list Z :=
  match starts_with str [start], ends_with str [end_] with
  | true, true => (Trimmed, removelast (tl str))
  | false, false => (Untrimmed, str)
  | _, _ => (Imbalanced, str)
  end.

(** ini_parser.cpp:105-117 on_section *)
Definition on_section (section : list Z) : option (list Z) :=
  let section := trim section in
  match trim_value section 39 39 with
  | (Untrimmed, section) =>
      match trim_value section 34 34 with (Untrimmed, section) => Some section | _ => None end
  | _ => None
  end.

(** ini_parser.cpp:120-154 on_name_value_pair *)
Definition on_name_value_pair (name_value : list Z) : option (list Z * list Z) :=
  match split name_value 61 2 with
  | Ok [name; value] =>
      let name := trim name in
      let value := trim value in
      match trim_value name 39 39 with
      | (Untrimmed, name) =>
          match trim_value name 34 34 with
          | (Untrimmed, name) =>
              match trim_value value 39 39 with
              | (Imbalanced, _) => None
              | (_, value) =>
                  match trim_value value 34 34 with
                  | (Imbalanced, _) => None
                  | (_, value) => Some (name, value)
                  end
              end
          | _ => None
          end
      | _ => None
      end
  | _ => None
  end.

(** current->insert_or_assign: [current] is the iterator (here, the key) of the section. *)
Fixpoint insert_in_section (current key : list Z) (value : json) (values : list (list Z * json)) : list (list Z * json) :=
  match values with
  | [] => []
  | (k, v) :: r =>
      match key_compare current k with
      | Eq => (k, match v with JObject m => JObject (insert_or_assign key value m) | _ => v end) :: r
      | _ => (k, v) :: insert_in_section current key value r
      end
  end.

(** ini_parser.cpp:13-85 parse_internal: the loop; every line but the last takes a character, so the
    length of the input bounds the iterations. *)
Fixpoint ini_loop (fuel : nat) (sg : bool) (input : list Z) (values : list (list Z * json)) (current : list Z) : option json :=
  match getline input with
  | None => match values with [] => None | _ :: _ => Some (JObject values) end
  | Some (data, rest) =>
      match fuel with
      | O => None
      | S fuel' =>
          let data := trim data in
          match data with
          | [] => ini_loop fuel' sg rest values current
          | c :: _ =>
              if c =? 59 then ini_loop fuel' sg rest values current
              else
                match trim_value data 91 93 with
                | (Imbalanced, _) => None
                | (Trimmed, data) =>
                    match on_section data with
                    | Some section =>
                        match convert_to_string sg section with
                        | Some key => ini_loop fuel' sg rest (insert_or_assign key (JObject []) values) key
                        | None => None
                        end
                    | None => None
                    end
                | (Untrimmed, data) =>
                    match values with
                    | [] => None
                    | _ :: _ =>
                        match on_name_value_pair data with
                        | Some (name, value) =>
                            match convert_to_string sg value, convert_to_string sg name with
                            | Some v, Some k => ini_loop fuel' sg rest (insert_in_section current k (JString v) values) current
                            | _, _ => None
                            end
                        | None => None
                        end
                    end
                end
          end
      end
  end.
Definition parse_ini (sg : bool) (input : list Z) : option json := ini_loop (S (length input)) sg input [] [].
