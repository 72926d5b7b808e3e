(** What an arbitrary file means to a Huffman decoder (C11), on the level of bit strings: numbers are cut off the front, and a table of codes
    is the list of (symbol, length) pairs in the order of the file - the codes themselves, being canonical, are consecutive ranges of the table.
    Nothing here mentions readers or code arrays; of the reader's buffer all that matters is how many bits it holds. *)
From Verif Require Import Common BitStream_Spec.

(** What is left of a file: its bits, of which the decoder has loaded some already. To look at [s] bits it loads more only if it has fewer: whole
    bytes, as many as it has room for (64 bits) or, at the end of the file, what there is. *)
Definition input := (Z * list bool)%type.
Definition loaded (i : input) : Z := fst i.
Definition left_ (i : input) : list bool := snd i.
Definition look (s : Z) (i : input) : input :=
  (if s <=? loaded i then loaded i else Z.min (loaded i + 8 * ((64 - loaded i) / 8)) (Z.of_nat (length (left_ i))), left_ i).
Definition drop (n : Z) (i : input) : input := (loaded i - n, skipn (Z.to_nat n) (left_ i)).

(** An [n]-bit number, or [k] of them, and what is left after them. *)
Definition take_number (n : nat) (i : input) : option (Z * input) :=
  if (length (left_ i) <? n)%nat then None else Some (spec_value (firstn n (left_ i)), drop (Z.of_nat n) (look (Z.of_nat n) i)).
Fixpoint take_numbers (n k : nat) (i : input) : option (list Z * input) :=
  match k with
  | O => Some ([], i)
  | S k' => match take_number n i with
            | None => None
            | Some (v, b) => match take_numbers n k' b with None => None | Some (l, b') => Some (v :: l, b') end
            end
  end.

(** The header: version 1, the chunk size in KiB (not 0), the greatest code length (1 to 15). *)
Definition take_header (i : input) : option (nat * Z * input) :=
  match take_number 8 i with
  | Some (version, b1) =>
      match take_number 16 b1 with
      | Some (kb, b2) =>
          match take_number 8 b2 with
          | Some (max, b3) => if (version =? 1) && (1 <=? kb) && (1 <=? max) && (max <=? 15) then Some (Z.to_nat (kb * 1024), max, b3) else None
          | None => None
          end
      | None => None
      end
  | None => None
  end.

(** Lengths announced by the counts of codes of length [len], [len+1], ... *)
Fixpoint code_lengths (len : Z) (counts : list Z) : list Z :=
  match counts with [] => [] | c :: r => repeat len (Z.to_nat c) ++ code_lengths (len + 1) r end.
(** The codes of a chunk: the greatest length and the (symbol, length) pairs, at most 256. *)
Definition take_codes (max : Z) (i : input) : option (Z * list (Z * Z) * input) :=
  match take_number 8 i with
  | Some (n, b1) =>
      if (n =? 0) || (max + 1 <? n) then None else
      match take_numbers 16 (Z.to_nat n) b1 with
      | Some (counts, b2) =>
          let lens := code_lengths 0 counts in
          if (256 <? length lens)%nat then None else
          match take_numbers 8 (length lens) b2 with
          | Some (symbols, b3) => Some (n - 1, combine symbols lens, b3)
          | None => None
          end
      | None => None
      end
  | None => None
  end.

(** The table after a chunk's codes have been read: a code of [len] bits owns 2^(longest-len) entries, the codes one after the other from the
    beginning; what they leave uncovered is as the chunk before left it. *)
Definition ranges (longest : Z) (codes : list (Z * Z)) : list (Z * Z) :=
  flat_map (fun c => repeat c (Z.to_nat (2 ^ (longest - snd c)))) codes.
Definition new_table (longest : Z) (codes old : list (Z * Z)) : list (Z * Z) :=
  ranges longest codes ++ skipn (length (ranges longest codes)) old.

(** What the file does to a decoder: an answer, a failure reported, or harm (memory outside the tables or an undefined shift). *)
Inductive fate (A : Type) := Gives (a : A) | Rejects | Harms.
Arguments Gives {A}. Arguments Rejects {A}. Arguments Harms {A}.

(** Up to [n] symbols: the decoder looks at as many bits as the longest code of the chunk has, and goes on after the code that it finds. A code
    longer than what is loaded harms: one that runs past the end of the file, or one left in the table by a chunk with longer codes. *)
Fixpoint take_symbols (n : nat) (longest : Z) (tb : list (Z * Z)) (i : input) : fate (list Z * input) :=
  match n with
  | O => Gives ([], i)
  | S n' =>
      if longest =? 0 then Gives ([], i) else
      match left_ i with
      | [] => Gives ([], i)
      | bits =>
          let '(s, l) := nth (Z.to_nat (fst (spec_read bits (Z.to_nat longest)))) tb (0, 0) in
          if loaded (look longest i) <? l then Harms else
          match take_symbols n' longest tb (drop l (look longest i)) with
          | Gives (out, rest) => Gives (s :: out, rest)
          | f => f
          end
      end
  end.

(** Chunks until the end of the file. Each holds [size] symbols, the last may hold fewer. *)
Inductive chunks (size : nat) (max : Z) : list (Z * Z) -> input -> fate (list Z) -> Prop :=
| chunks_end tb i : left_ i = [] -> chunks size max tb i (Gives [])
| chunks_codes tb i : left_ i <> [] -> take_codes max i = None -> chunks size max tb i Rejects
| chunks_table tb i longest codes b1 : left_ i <> [] -> take_codes max i = Some (longest, codes, b1) ->
    2 ^ max < Z.of_nat (length (ranges longest codes)) -> chunks size max tb i Harms
| chunks_symbols tb i longest codes b1 : left_ i <> [] -> take_codes max i = Some (longest, codes, b1) ->
    Z.of_nat (length (ranges longest codes)) <= 2 ^ max ->
    take_symbols size longest (new_table longest codes tb) b1 = Harms -> chunks size max tb i Harms
| chunks_short tb i longest codes b1 out b2 : left_ i <> [] -> take_codes max i = Some (longest, codes, b1) ->
    Z.of_nat (length (ranges longest codes)) <= 2 ^ max ->
    take_symbols size longest (new_table longest codes tb) b1 = Gives (out, b2) ->
    length out <> size -> left_ b2 <> [] -> chunks size max tb i Rejects
| chunks_next tb i longest codes b1 out b2 f : left_ i <> [] -> take_codes max i = Some (longest, codes, b1) ->
    Z.of_nat (length (ranges longest codes)) <= 2 ^ max ->
    take_symbols size longest (new_table longest codes tb) b1 = Gives (out, b2) ->
    length out = size \/ left_ b2 = [] -> chunks size max (new_table longest codes tb) b2 f ->
    chunks size max tb i (match f with Gives more => Gives (out ++ more) | f => f end).

Definition decodes (file : list Z) (f : fate (list Z)) : Prop :=
  match take_header (0, file_payload file) with
  | None => f = Rejects
  | Some (size, max, i) => chunks size max (repeat (0, 0) (Z.to_nat (2 ^ max))) i f
  end.
