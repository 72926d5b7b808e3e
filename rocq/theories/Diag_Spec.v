(** Specification of positions in a text, for C66.  Independent of the parsers. *)
From Verif Require Import Common Strings_Spec Ini_Spec.
From Verif Require Import Json_Model Diag_Model. (* for the types [message] and [ini_message], and the texts that are no value *)

(** The symbol at offset [k]; -1 past the end. *)
Definition symbol_at (input : list Z) (k : nat) : Z := nth k input (-1).

Definition newlines (p : list Z) : Z := Z.of_nat (count_occ Z.eq_dec p 10).

(** The number of symbols of [p] after its last newline. *)
Definition since_newline (p : list Z) : Z := fold_left (fun n c => if c =? 10 then 0 else n + 1) p 0.

(** The line and column, both counted from 1, of the symbol at offset [k]. *)
Definition line_of (input : list Z) (k : nat) : Z := 1 + newlines (firstn k input).
Definition column_of (input : list Z) (k : nat) : Z := 1 + since_newline (firstn k input).

(** [slice input k v]: the text has [v] at offset [k]. *)
Definition slice (input : list Z) (k : nat) (v : list Z) : Prop :=
  firstn (length v) (skipn k input) = v.

(** Where the parsers' counters stand after [n] symbols were taken, end-of-file included: on the first
    line, the column of the last symbol taken; on every other line, one more. *)
Definition counted_line (input : list Z) (n : nat) : Z := 1 + newlines (firstn n input).
Definition counted_column (input : list Z) (n : nat) : Z :=
  since_newline (firstn n input) + (if newlines (firstn n input) =? 0 then 0 else 1) + Z.of_nat (n - length input).

(** [truthful fp sg input n m]: what the JSON warning [m] says is so, [n] symbols having been taken: the
    symbol it names is the one at offset [n - 1] (the last one taken), or at [n] (the next one); the text
    it calls no value is the one just taken. *)
Definition truthful (fp : fp_text) (sg : bool) (input : list Z) (n : nat) (m : message) : Prop :=
  match m with
  | MUnexpected parsed expected => (0 < n)%nat /\ symbol_at input (n - 1) = parsed /\ parsed <> expected
  | MExtraneous symbol => symbol_at input n = symbol /\ (n < length input)%nat
  | MNotContainer => (length input <= n)%nat
  | MTrailingComma => (0 < n)%nat /\ (symbol_at input (n - 1) = 125 \/ symbol_at input (n - 1) = 93)
  | MConvert text => (length text <= n)%nat /\ slice input (n - length text) text /\ value_of_text fp text = None
  | MComment => symbol_at input n = 47
  | MCommentStart symbol => (1 < n)%nat /\ symbol_at input (n - 1) = symbol /\ symbol_at input (n - 2) = 47 /\
      symbol <> 47 /\ symbol <> 42
  | MException text => exists k, (k + length text < n)%nat /\ slice input k ([34] ++ text ++ [34]) /\
      convert_to_string sg text = None
  end.

(** A warning logged when [n] symbols had been taken. *)
Definition logged_at {M} (input : list Z) (n : nat) (w : warning M) : Prop :=
  w_line w = u32 (counted_line input n) /\ w_column w = u32 (counted_column input n).

(** * INI *)

(** The parts of a line: the line itself, the section's name, the pair's name and value. *)
Definition pair_of (t n v : list Z) : Prop :=
  exists ps v1 rest, pieces_of 61 t ps /\ filter Strings_Spec.nonempty ps = n :: v1 :: rest /\ v = join 61 (v1 :: rest).
Inductive ini_part (l : list Z) : list Z -> Prop :=
| part_line t : stripped l t -> ini_part l t
| part_section a t : stripped l ([91] ++ a ++ [93]) -> stripped a t -> ini_part l t
| part_name t n v name : stripped l t -> pair_of t n v -> stripped n name -> ini_part l name
| part_raw t n v raw : stripped l t -> pair_of t n v -> stripped v raw -> ini_part l raw
| part_single t n v raw m : stripped l t -> pair_of t n v -> stripped v raw -> unquote 39 raw m -> ini_part l m
| part_value t n v raw m value : stripped l t -> pair_of t n v -> stripped v raw -> unquote 39 raw m -> unquote 34 m value ->
    ini_part l value.

(** What an INI warning about the line [l] says; [items]: what the lines before it mean. *)
Definition ini_truthful (items : list item) (l : list Z) (m : ini_message) : Prop :=
  match m with
  | IException => exists part, ini_part l part /\ forall s, ~ denotes part s
  | INoSection => Forall (eq Skip) items /\ exists t, stripped l t /\ ~ begins t 91 /\ ~ ends t 93
  | ISectionQuoted => exists a t, stripped l ([91] ++ a ++ [93]) /\ stripped a t /\ ~ unquoted t
  | INameQuoted => exists t n v name, stripped l t /\ pair_of t n v /\ stripped n name /\ ~ unquoted name
  | INotPair => exists t, stripped l t /\ forall n v, ~ pair_of t n v
  | IImbalanced a b => exists part, ini_part l part /\ (begins part a /\ ~ ends part b \/ ~ begins part a /\ ends part b)
  end.

(** Pairs come after a section. *)
Definition sectioned (items : list item) : Prop :=
  forall a k v b, items = a ++ Pair k v :: b -> exists s, In (Section_ s) a.
(** The line means nothing, or is a pair that comes before every section. *)
Definition faulty (items : list item) (l : list Z) : Prop :=
  (forall i, ~ line l i) \/ (Forall (eq Skip) items /\ exists k v, line l (Pair k v)).

(** Where a warning about a line, before which there are [k] lines, and after it [after], is said to be: at
    the line that follows, unless it is the last one. *)
Definition at_line (k : nat) (after : list (list Z)) (w : warning ini_message) : Prop :=
  w_line w = u32 (Z.of_nat k + match after with [] => 1 | _ :: _ => 2 end).

(** The symbol a JSON warning names, when it is the last one taken. *)
Definition names (m : message) (c : Z) : Prop :=
  match m with
  | MUnexpected parsed _ => c = parsed
  | MTrailingComma => c = 125 \/ c = 93
  | MCommentStart symbol => c = symbol
  | _ => False
  end.
