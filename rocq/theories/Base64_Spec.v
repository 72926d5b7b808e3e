(** RFC 4648 section 4, written over bit strings. *)
From Verif Require Import Common BitStream_Spec.
From Coq Require Import Ascii String List.


#[local] Open Scope list_scope.

Fixpoint string_bytes (s : string) : list Z :=
  match s with EmptyString => nil | String c r => Z.of_nat (nat_of_ascii c) :: string_bytes r end.

Definition alphabet : list Z :=
  string_bytes "ABCDEFGHIJKLMNOPQRSTUVWXYZabcdefghijklmnopqrstuvwxyz0123456789+/"%string.
Definition pad_char : Z := 61.

(** Groups of six bits, the last one completed with zero bits. *)
Fixpoint sextets (l : list bool) : list Z :=
  match l with
  | b0 :: b1 :: b2 :: b3 :: b4 :: b5 :: r => spec_value [b0; b1; b2; b3; b4; b5] :: sextets r
  | [] => []
  | l => [spec_value (l ++ repeat false (6 - length l))]
  end.

(** The base64 text of a byte string. *)
Definition base64 (bytes : list Z) : list Z :=
  map (fun v => nth (Z.to_nat v) alphabet 0) (sextets (spec_file_bits bytes)) ++
  repeat pad_char ((3 - length bytes mod 3) mod 3).

(** Position of a symbol in the alphabet. *)
Fixpoint index_of (c : Z) (l : list Z) : option Z :=
  match l with
  | [] => None
  | x :: r => if x =? c then Some 0
              else match index_of c r with Some i => Some (i + 1) | None => None end
  end.

(** A well-formed text: symbols, then zero, one or two padding characters, a multiple of 4 long. *)
Definition well_formed (s symbols : list Z) (pad : nat) : Prop :=
  s = symbols ++ repeat pad_char pad /\ (pad <= 2)%nat /\ (length s mod 4 = 0)%nat /\
  Forall (fun c => In c alphabet) symbols.

(** The bytes a sequence of symbols stands for: its bits, cut into octets, incomplete ones dropped. *)
Fixpoint octets (l : list bool) : list Z :=
  match l with
  | b0 :: b1 :: b2 :: b3 :: b4 :: b5 :: b6 :: b7 :: r =>
      spec_value [b0; b1; b2; b3; b4; b5; b6; b7] :: octets r
  | _ => []
  end.
Definition symbol_bits (c : Z) : list bool :=
  match index_of c alphabet with Some i => spec_bits 6 i | None => [] end.
Definition unbase64 (symbols : list Z) : list Z := octets (flat_map symbol_bits symbols).

(** An input byte. *)
Definition octet (b : Z) : Prop := 0 <= b < 256.
