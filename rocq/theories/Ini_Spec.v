(** Specification vocabulary for C33: what the lines of an INI file mean. *)
From Verif Require Import Common Strings_Spec Json_Model Json_Spec. (* Json_Model: only for the type [json] *)

Definition space (c : Z) : Prop := 9 <= c <= 13 \/ c = 32.
(** [r] is [s] without surrounding white space. *)
Definition stripped (s r : list Z) : Prop :=
  exists a b, s = a ++ r ++ b /\ Forall space a /\ Forall space b /\
    (r <> [] -> ~ space (hd 0 r) /\ ~ space (last r 0)).
Definition begins (s : list Z) (c : Z) : Prop := exists r, s = c :: r.
Definition ends (s : list Z) (c : Z) : Prop := exists r, s = r ++ [c].
(** No quotation mark (39 or 34) at either end. *)
Definition unquoted (s : list Z) : Prop := forall q, q = 39 \/ q = 34 -> ~ begins s q /\ ~ ends s q.
(** One pair of quotation marks removed, if there is one (a lone mark counts as both). *)
Inductive unquote (q : Z) : list Z -> list Z -> Prop :=
| unquote_pair s : unquote q ([q] ++ s ++ [q]) s
| unquote_lone : unquote q [q] []
| unquote_none s : ~ begins s q -> ~ ends s q -> unquote q s s.
(** Section names, names and values are read like JSON string literals (escapes, valid UTF-8). *)
Definition denotes (w s : list Z) : Prop := utf8_text w /\ literal w s.

Inductive item := Skip | Section_ (name : list Z) | Pair (name value : list Z).
Inductive line : list Z -> item -> Prop :=
| l_blank l : stripped l [] -> line l Skip
| l_comment l r : stripped l (59 :: r) -> line l Skip
| l_section l a t s : stripped l ([91] ++ a ++ [93]) -> stripped a t -> unquoted t -> denotes t s -> line l (Section_ s)
| l_pair l t ps n v rest name k raw m value s :
    stripped l t -> t <> [] -> ~ begins t 59 -> ~ begins t 91 -> ~ ends t 93 ->
    pieces_of 61 t ps -> filter Strings_Spec.nonempty ps = n :: v :: rest ->
    stripped n name -> unquoted name -> denotes name k ->
    stripped (join 61 (v :: rest)) raw -> unquote 39 raw m -> unquote 34 m value -> denotes value s ->
    line l (Pair k s).

(** A section and its pairs. *)
Definition block : Type := list Z * list (list Z * list Z).
Definition items_of (b : block) : list item := Section_ (fst b) :: map (fun p => Pair (fst p) (snd p)) (snd b).
Definition skip (i : item) : bool := match i with Skip => true | _ => false end.
(** The object for a block: the last value of each name. *)
Definition entry_of (b : block) (e : list Z * json) : Prop :=
  fst e = fst b /\ exists m, snd e = JObject m /\ map_of (map (fun p => (fst p, JString (snd p))) (snd b)) m.
(** A document: lines that form blocks; a section that occurs again replaces the earlier one. *)
Definition ini_document (input : list Z) (j : json) : Prop :=
  exists ls items blocks es m,
    pieces_of 10 input ls /\ Forall2 line ls items /\
    filter (fun i => negb (skip i)) items = flat_map items_of blocks /\ blocks <> [] /\
    Forall2 entry_of blocks es /\ map_of es m /\ j = JObject m.

(** Rendering: one "[section]" line and one "name=value" line per pair. *)
Definition render_pair (p : list Z * list Z) : list Z := fst p ++ [61] ++ snd p ++ [10].
Definition render_block (b : block) : list Z := [91] ++ fst b ++ [93; 10] ++ flat_map render_pair (snd b).
Definition render (bs : list block) : list Z := flat_map render_block bs.
(** What may be rendered verbatim: well-formed text without control characters, quotation marks and
    reverse solidi (which would be escapes) and without white space at the ends; in a name, no '=',
    not empty, not starting with ';' or '['; in a value, no '=' at an end, no two adjacent '=', not empty,
    not ending with ']'. *)
Definition plain (s : list Z) : Prop :=
  utf8_text s /\ Forall (fun c => 0x20 <= c /\ c <> 34 /\ c <> 92 /\ c <> 39) s /\
  (s <> [] -> hd 0 s <> 32 /\ last s 0 <> 32).
Definition plain_name (s : list Z) : Prop := plain s /\ s <> [] /\ ~ In 61 s /\ ~ begins s 59 /\ ~ begins s 91.
Definition plain_value (s : list Z) : Prop :=
  plain s /\ s <> [] /\ ~ begins s 61 /\ ~ ends s 61 /\ ~ occurs [61; 61] s /\ ~ ends s 93.
