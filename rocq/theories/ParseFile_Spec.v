(** Specification vocabulary for C39: byte order marks (The Unicode Standard, table 23-5 / section 2.6)
    and the encoding schemes. *)
From Verif Require Import Common Unicode_Spec.

Inductive scheme := UTF16BE | UTF16LE | UTF32BE | UTF32LE.
Definition bom (e : scheme) : list Z :=
  match e with UTF16BE => [0xfe; 0xff] | UTF16LE => [0xff; 0xfe] | UTF32BE => [0; 0; 0xfe; 0xff] | UTF32LE => [0xff; 0xfe; 0; 0] end.
Definition utf8_bom : list Z := [0xef; 0xbb; 0xbf].

(** The bytes of a code unit. *)
Definition bytes16 (u : Z) : list Z := [u / 256; u mod 256].
Definition bytes32 (u : Z) : list Z := [u / 16777216; u / 65536 mod 256; u / 256 mod 256; u mod 256].
Definition unit_bytes (e : scheme) (u : Z) : list Z :=
  match e with UTF16BE => bytes16 u | UTF16LE => rev (bytes16 u) | UTF32BE => bytes32 u | UTF32LE => rev (bytes32 u) end.
Definition unit_form (e : scheme) : Z -> list Z := match e with UTF16BE | UTF16LE => utf16 | _ => utf32 end.
Definition unit_range (e : scheme) (u : Z) : Prop := 0 <= u < match e with UTF16BE | UTF16LE => 65536 | _ => 4294967296 end.
Definition unit_size (e : scheme) : nat := match e with UTF16BE | UTF16LE => 2%nat | _ => 4%nat end.
(** The file that holds the scalar values [cs] in the scheme [e]. *)
Definition encoded (e : scheme) (cs : list Z) : list Z := bom e ++ flat_map (unit_bytes e) (text (unit_form e) cs).

Definition prefix_of (p s : list Z) : Prop := exists r, s = p ++ r.
(** No byte order mark at the start. *)
Definition unmarked (file : list Z) : Prop := ~ prefix_of utf8_bom file /\ forall e, ~ prefix_of (bom e) file.
