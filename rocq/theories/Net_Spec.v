(** Specification vocabulary for C26-C28. *)
From Verif Require Import Common Lexer_Spec Strings_Spec.

(** * IPv4: the inet_aton notation *)
Definition decimal_number (p : list Z) : Prop := p <> [] /\ Forall ascii_digit p.

(** The address (as a host-order integer) denoted by one to four numbers. *)
Definition inet_aton (ns : list Z) : option Z :=
  match ns with
  | [a] => if a <? 2 ^ 32 then Some a else None
  | [a; b] => if (a <? 2 ^ 8) && (b <? 2 ^ 24) then Some (a * 2 ^ 24 + b) else None
  | [a; b; c] => if (a <? 2 ^ 8) && (b <? 2 ^ 8) && (c <? 2 ^ 16) then Some (a * 2 ^ 24 + b * 2 ^ 16 + c) else None
  | [a; b; c; d] =>
      if (a <? 2 ^ 8) && (b <? 2 ^ 8) && (c <? 2 ^ 8) && (d <? 2 ^ 8)
      then Some (a * 2 ^ 24 + b * 2 ^ 16 + c * 2 ^ 8 + d) else None
  | _ => None
  end.
(** [s] is a dotted notation of the host-order address [h]. *)
Definition dotted (s : list Z) (h : Z) : Prop :=
  exists ps, s = join 46 ps /\ Forall decimal_number ps /\ inet_aton (map (number 10) ps) = Some h.

(** The four octets of an address, most significant first; and the network-order integer on a host
    of the given byte order: the integer whose memory representation is those octets. *)
Definition octets (h : Z) : list Z := [h / 2 ^ 24; h / 2 ^ 16 mod 256; h / 2 ^ 8 mod 256; h mod 256].
Definition in_memory (host_big : bool) (v : Z) : list Z := if host_big then octets v else rev (octets v).

(** Every number in the text is below 2^64. *)
Definition numbers_fit (base : Z) (P : Z -> Prop) (s : list Z) : Prop :=
  forall a d b, s = a ++ d ++ b -> Forall P d -> number base d < 2 ^ 64.

(** * IPv6: RFC 4291 section 2.2, forms 1 and 2 (hexadecimal groups, at most one "::"). *)
Definition hex_group (g : list Z) : Prop := g <> [] /\ (length g <= 4)%nat /\ Forall ascii_xdigit g.
Definition group_bytes (g : list Z) : list Z := [number 16 g / 256; number 16 g mod 256].
Definition rfc4291 (s : list Z) (bytes : list Z) : Prop :=
  (exists gs, length gs = 8%nat /\ Forall hex_group gs /\ s = join 58 gs /\ bytes = flat_map group_bytes gs) \/
  (exists ls rs, (length ls + length rs <= 7)%nat /\ Forall hex_group ls /\ Forall hex_group rs /\
     s = join 58 ls ++ [58; 58] ++ join 58 rs /\
     bytes = flat_map group_bytes ls ++ repeat 0 (16 - 2 * (length ls + length rs)) ++ flat_map group_bytes rs).

(** What from_string accepts in addition: any sequence of the tokens below (read from the left,
    longest token first). *)
Inductive token := Group (digits : list Z) | Colon | Short.
Definition token_text (k : token) : list Z := match k with Group d => d | Colon => [58] | Short => [58; 58] end.
Definition groups (ks : list token) : list (list Z) := flat_map (fun k => match k with Group d => [d] | _ => [] end) ks.
(** Longest match: a group is not followed by a group, a colon not by a colon. *)
Fixpoint greedy (ks : list token) : Prop :=
  match ks with
  | k :: r =>
      match k, r with
      | Group _, Group _ :: _ => False
      | Colon, Colon :: _ => False
      | Colon, Short :: _ => False
      | _, _ => True
      end /\ greedy r
  | [] => True
  end.
Definition long_group (g : list Z) : Prop := g <> [] /\ Forall ascii_xdigit g.
Definition group_value (g : list Z) : Z := number 16 g mod 2 ^ 64.
Definition long_bytes (g : list Z) : list Z := [group_value g / 256; group_value g mod 256].
Definition groups_ok (ks : list token) : Prop := Forall (fun g => long_group g /\ group_value g < 2 ^ 16) (groups ks).
Definition ends_with_group (ks : list token) : Prop := exists r d, ks = r ++ [Group d].
Definition lenient (s : list Z) (bytes : list Z) : Prop :=
  exists ks, s = flat_map token_text ks /\ greedy ks /\ groups_ok ks /\
    ((~ In Short ks /\ length (groups ks) = 8%nat /\ ends_with_group ks /\ bytes = flat_map long_bytes (groups ks)) \/
     (exists ls rs, ks = ls ++ Short :: rs /\ ~ In Short ls /\ ~ In Short rs /\
        let n := (length (groups ls) + length (groups rs))%nat in
        ((n < 8)%nat \/ n = 8%nat /\ ends_with_group ks) /\
        bytes = flat_map long_bytes (groups ls) ++ repeat 0 (16 - 2 * n) ++ flat_map long_bytes (groups rs))).

Definition address_bytes (a : list Z) : Prop := length a = 16%nat /\ Forall (fun b => 0 <= b < 256) a.

(** * Orders *)
Definition strict_total {A} (ok : A -> Prop) (lt : A -> A -> Prop) : Prop :=
  (forall x, ok x -> ~ lt x x) /\
  (forall x y z, ok x -> ok y -> ok z -> lt x y -> lt y z -> lt x z) /\
  (forall x y, ok x -> ok y -> lt x y \/ x = y \/ lt y x).
