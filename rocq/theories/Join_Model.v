(** Model of BasicString::join and BasicString::generate_random_string (fly/types/string/string.hpp:430-434, 752-808).
    Simplifications: one character type per call, given by its width [bits], its signedness [sg] and its maximum [cm];
    arguments are those of FormatString_Model; what std::uniform_int_distribution draws from the engine is a sequence of
    numbers of its range. *)
From Verif Require Import Common Lexer_Model Format_Model FormatString_Model.

(** string.hpp:797, 806: the format strings "{}{}" and "{}" *)
Definition two_fields : list Z := [123; 125; 123; 125].
Definition one_field : list Z := [123; 125].

(** string.hpp:789-808 join_internal, both overloads; the empty pack does not compile. *)
Fixpoint join_internal (bits : Z) (sg : bool) (cm : Z) (result : list Z) (separator : Z) (args : list arg) : res (list Z) :=
  match args with
  | [] => UB
  | [value] => let! text := format_to bits cm [] one_field [value] in Ok (result ++ text)
  | value :: rest =>
      let! text := format_to bits cm [] two_fields [value; ACharacter bits sg separator] in
      join_internal bits sg cm (result ++ text) separator rest
  end.
(** string.hpp:778-786 *)
Definition join (bits : Z) (sg : bool) (cm : Z) (separator : Z) (args : list arg) : res (list Z) :=
  join_internal bits sg cm [] separator args.

(** string.hpp:430-434 s_alpha_num: 0-9, A-Z, a-z *)
Definition s_alpha_num : list Z :=
  [48; 49; 50; 51; 52; 53; 54; 55; 56; 57;
   65; 66; 67; 68; 69; 70; 71; 72; 73; 74; 75; 76; 77; 78; 79; 80; 81; 82; 83; 84; 85; 86; 87; 88; 89; 90;
   97; 98; 99; 100; 101; 102; 103; 104; 105; 106; 107; 108; 109; 110; 111; 112; 113; 114; 115; 116; 117; 118; 119; 120; 121; 122].
Definition s_alpha_num_length : Z := Z.of_nat (length s_alpha_num).
(** string.hpp:757 *)
Definition limit : Z := s_alpha_num_length - 1.

(** string.hpp:752-776: [drawn] is what the thread's engine will deliver for the range 0..limit; the result and what is left
    of it.  UB: an access behind the end of s_alpha_num. *)
Fixpoint generate_random_string (length_ : nat) (drawn : nat -> Z) : res (list Z * (nat -> Z)) :=
  match length_ with
  | O => Ok ([], drawn)
  | S n =>
      match lookup s_alpha_num (Z.to_nat (drawn O)) with
      | None => UB
      | Some c => let! (r, rest) := generate_random_string n (fun i => drawn (S i)) in Ok (c :: r, rest)
      end
  end.
