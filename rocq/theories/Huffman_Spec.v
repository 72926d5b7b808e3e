(** Specification vocabulary for the Huffman properties (C09-C13), independent of the coder's data
    structures. *)
From Coq Require Import Permutation.
From Verif Require Import Common.

Definition byte (b : Z) : Prop := 0 <= b < 256.

(** [u] is a prefix of [v]. *)
Definition is_prefix (u v : list bool) : Prop := exists w, v = u ++ w.

(** A prefix code for the symbols [syms]: the word of one symbol is never a prefix of the word of
    another. *)
Definition prefix_code (syms : list Z) (word : Z -> list bool) : Prop :=
  forall s1 s2, In s1 syms -> In s2 syms -> s1 <> s2 -> ~ is_prefix (word s1) (word s2).

(** Number of bits [text] takes when every symbol is replaced by its word. *)
Fixpoint encoded_bits (word : Z -> list bool) (text : list Z) : nat :=
  match text with
  | [] => O
  | s :: r => (length (word s) + encoded_bits word r)%nat
  end.

(** Numbers assigned canonically to codes of non-decreasing lengths: the first is 0, each further
    one is its predecessor plus one, extended with zero bits to its own length. *)
Fixpoint canonical_after (prev : Z * Z) (codes : list (Z * Z)) : Prop :=
  match codes with
  | [] => True
  | (len, v) :: r =>
      fst prev <= len /\ v = (snd prev + 1) * 2 ^ (len - fst prev) /\ canonical_after (len, v) r
  end.
Definition canonical_numbers (codes : list (Z * Z)) : Prop :=
  match codes with
  | [] => True
  | (len, v) :: r => v = 0 /\ canonical_after (len, v) r
  end.

(** The symbols of a text, each once. *)
Definition symbols_of (text : list Z) : list Z := nodup Z.eq_dec text.

(** The [k]-th chunk of [size] bytes. *)
Definition chunk (size k : nat) (text : list Z) : list Z := firstn size (skipn (k * size) text).

(** The code length counts a chunk announces in its first bits: a count byte [n], then [n] 16-bit
    numbers, if so many bits exist ([value] reads an unsigned number). *)
Fixpoint take_words (value : list bool -> Z) (n : nat) (bits : list bool) : option (list Z) :=
  match n with
  | O => Some []
  | S n' =>
      if (length bits <? 16)%nat then None
      else match take_words value n' (skipn 16 bits) with
           | Some l => Some (value (firstn 16 bits) :: l)
           | None => None
           end
  end.
Definition announced_counts (value : list bool -> Z) (bits : list bool) : option (list Z) :=
  if (length bits <? 8)%nat then None
  else take_words value (Z.to_nat (value (firstn 8 bits))) (skipn 8 bits).

(** Kraft sum of a table with [counts] codes of lengths [len], [len+1], ..., scaled by 2^longest. *)
Fixpoint counts_kraft (longest len : Z) (counts : list Z) : Z :=
  match counts with
  | [] => 0
  | c :: r => c * 2 ^ (longest - len) + counts_kraft longest (len + 1) r
  end.
