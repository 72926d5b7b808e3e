(** Specification vocabulary for C78. *)
From Coq Require Import String.
From Verif Require Import Common Format_Spec Json_Model JsonApi_Model.
Import List.ListNotations.
Open Scope list_scope.
Open Scope Z_scope.

Definition words (s : string) : list Z := map (fun c => Z.of_nat (Ascii.nat_of_ascii c)) (list_ascii_of_string s).
Arguments words s%string.
(** The names of the classes. *)
Definition class_name (e : exception) : list Z :=
  match e with
  | JsonException => words "JsonException" | JsonIteratorException => words "JsonIteratorException" | BadJsonComparisonException => words "BadJsonComparisonException"
  | NullJsonException => words "NullJsonException" | OutOfRangeJsonException => words "OutOfRangeJsonException"
  | StdOutOfRange => words "std::out_of_range" | StdLengthError => words "std::length_error"
  end.
(** The exceptions of this library. *)
Definition from_library (e : exception) : Prop := e <> StdOutOfRange /\ e <> StdLengthError.
(** "NAME: MESSAGE" *)
Definition says (e : exception) (message : list Z) : list Z := class_name e ++ words ": " ++ message.
(** "NAME: MESSAGE: (VALUE)" *)
Definition says_of (e : exception) (message value : list Z) : list Z := says e (message ++ words ": (" ++ value ++ words ")").
(** A number in decimal digits. *)
Definition number (n : Z) (text : list Z) : Prop := exists digits, positional 10 false (Z.abs n) digits /\ text = (if n <? 0 then [45] else []) ++ digits.
(** Two hexadecimal digits in lower case. *)
Definition hex_digit (d : Z) : Z := if d <? 10 then 48 + d else 87 + d.
Definition two_digits (n : Z) : list Z := [hex_digit (n / 16); hex_digit (n mod 16)].
(** Short enough for a std::string. *)
Definition fits (s : list Z) : Prop := Z.of_nat (length s) < 2 ^ 64 - 1.
(** Arguments a caller can give: texts of bytes, indices of 64 bits. *)
Definition arguments (o : operation) : Prop :=
  match o with
  | AtKey k | SubscriptKey k | InsertKey k _ | InsertOrAssign k _ | EmplaceKey k _ | EraseKey k | Count k | Find k | Contains k => Forall (fun b => 0 <= b < 256) k /\ fits k
  | AtIndex n | EraseIndex n => 0 <= n < 2 ^ 64
  | _ => True
  end.
