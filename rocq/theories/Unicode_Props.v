(** Properties C16-C19: Unicode encoding, validation, conversion, escaping.  All statements hold for
    UTF-8 with signed and unsigned char, UTF-16 and UTF-32 ([e : enc]). *)
From Verif Require Import Common Bits Unicode_Model Unicode_Spec Unicode_Proofs.

(** * C16 *)
Theorem encode_codepoint_exact : forall e c, 0 <= c < 2 ^ 32 ->
  (scalar c -> encode_codepoint e c = Some (form e c)) /\ (~ scalar c -> encode_codepoint e c = None).
Proof.
  intros e c Hc. unfold encode_codepoint. split; intros H.
  - rewrite (proj2 (validate_scalar c ltac:(lia)) H). now rewrite encode_form.
  - now rewrite validate_scalar_false by (assumption || lia).
Qed.

(** Decoding what encode_codepoint produced, in front of any further units, gives the code point
    back and leaves exactly the further units. *)
Theorem decode_encode : forall e c s rest, 0 <= c < 2 ^ 32 -> units_ok e rest ->
  encode_codepoint e c = Some s -> units_ok e s /\ decode_codepoint e (s ++ rest) = (Some c, rest).
Proof.
  intros e c s rest Hc Hr H. destruct (encode_codepoint_exact e c Hc) as [HS HN].
  destruct (validate_codepoint c) eqn:EV.
  - apply validate_scalar in EV; [|lia]. rewrite HS in H by assumption. injection H as <-.
    split; [now apply form_units|]. apply decode_form; auto using form_units.
  - unfold encode_codepoint in H. rewrite EV in H. discriminate.
Qed.

(** Conversely: a successful decode read precisely the encoding of its result. *)
Theorem encode_decode : forall e it c rest, units_ok e it -> decode_codepoint e it = (Some c, rest) ->
  exists s, encode_codepoint e c = Some s /\ it = s ++ rest.
Proof.
  intros e it c rest Hu H. apply decode_sound in H; [|assumption]. destruct H as [Hc ->].
  exists (form e c). split; [|reflexivity]. apply encode_codepoint_exact; [|assumption]. unfold scalar in Hc.
  change (2 ^ 32) with 4294967296. lia.
Qed.

Example C16_emoji : encode_codepoint (U8 true) 0x1f355 = Some [0xf0; 0x9f; 0x8d; 0x95] /\
  decode_codepoint (U8 true) [0xf0; 0x9f; 0x8d; 0x95; 65] = (Some 0x1f355, [65]) /\
  encode_codepoint U16 0x1f355 = Some [0xd83c; 0xdf55] /\ decode_codepoint U16 [0xd83c; 0xdf55] = (Some 0x1f355, []).
Proof. repeat split. Qed.
Example C16_surrogate : encode_codepoint (U8 false) 0xd800 = None /\ encode_codepoint U32 0x110000 = None /\
  encode_codepoint U16 0xffffffff = None.
Proof. repeat split. Qed.

(** * C17 *)
Theorem validate_exact : forall e it, units_ok e it -> (validate e it = true <-> valid e it).
Proof. exact validate_iff. Qed.

(** Each well-formed string denotes one sequence of scalar values. *)
Theorem text_unambiguous : forall e a b, Forall scalar a -> Forall scalar b ->
  text (form e) a = text (form e) b -> a = b.
Proof. intros e a b. apply text_inj. Qed.

Example C17_valid : units_ok (U8 true) [0x48; 0xc3; 0xa9; 0xe2; 0x82; 0xac] /\
  validate (U8 true) [0x48; 0xc3; 0xa9; 0xe2; 0x82; 0xac] = true.
Proof. split; [repeat (constructor; [unfold unit_ok; lia|]); constructor|reflexivity]. Qed.
(** Overlong, surrogate, truncated, too large, stray continuation byte. *)
Example C17_invalid : map (validate (U8 true))
  [[0xc0; 0x80]; [0xe0; 0x80; 0xaf]; [0xed; 0xa0; 0x80]; [0xe2; 0x82]; [0xf4; 0x90; 0x80; 0x80]; [0x80]; [0xf8; 0x88; 0x80; 0x80; 0x80]]
  = [false; false; false; false; false; false; false] /\
  map (validate U16) [[0xd800]; [0xdc00; 0xd800]; [0xd800; 0x41]] = [false; false; false] /\
  map (validate U32) [[0xd800]; [0x110000]] = [false; false].
Proof. repeat split. Qed.

(** * C18 *)
Theorem convert_exact : forall from to cs, Forall scalar cs ->
  convert from to (text (form from) cs) = Some (text (form to) cs).
Proof. exact convert_text. Qed.

Theorem convert_rejects : forall from to it, units_ok from it -> (convert from to it = None <-> ~ valid from it).
Proof.
  intros from to it Hu. split; [|now apply convert_invalid].
  intros H (cs & HF & ->). rewrite convert_text in H by assumption. discriminate.
Qed.

Theorem convert_round_trip : forall from to it out, units_ok from it ->
  convert from to it = Some out -> units_ok to out /\ valid to out /\ convert to from out = Some it.
Proof.
  intros from to it out Hu H. 
  destruct (validate from it) eqn:EV.
  - apply validate_iff in EV; [|assumption]. destruct EV as (cs & HF & ->).
    rewrite convert_text in H by assumption. injection H as <-.
    split; [now apply text_units|]. split; [now exists cs|]. now apply convert_text.
  - rewrite convert_invalid in H; [discriminate|assumption|]. rewrite <- validate_iff by assumption. congruence.
Qed.

Example C18_case : convert (U8 true) U16 [0x24; 0xe2; 0x82; 0xac; 0xf0; 0x9f; 0x8d; 0x95] = Some [0x24; 0x20ac; 0xd83c; 0xdf55] /\
  convert U16 (U8 true) [0x24; 0x20ac; 0xd83c; 0xdf55] = Some [0x24; 0xe2; 0x82; 0xac; 0xf0; 0x9f; 0x8d; 0x95] /\
  convert (U8 true) U32 [0xc3] = None.
Proof. repeat split. Qed.

(** * C19 *)

(** Escaping succeeds exactly on valid text and emits printable ASCII only. *)
Theorem escape_printable_ascii : forall e upper cs, Forall scalar cs ->
  exists out, escape_all_codepoints e upper (text (form e) cs) = Some out /\ Forall printable out.
Proof.
  intros e upper cs HF. eexists. split; [now apply escape_text|].
  induction HF as [|c cs Hc _ IH]; [constructor|]. cbn [flat_map]. apply Forall_app. split; [now apply escape_printable|exact IH].
Qed.
Theorem escape_rejects : forall e upper it, units_ok e it -> (escape_all_codepoints e upper it = None <-> ~ valid e it).
Proof.
  intros e upper it Hu. split; [|now apply escape_invalid].
  intros H (cs & HF & ->). rewrite escape_text in H by assumption. discriminate.
Qed.

(** Unescaping inverts escaping when the text has no backslash directly before 'u' or 'U' (missing:
    such texts, for which the claim is false, below). *)
Theorem unescape_escape_partial : forall e upper cs out, Forall scalar cs -> no_escape_lookalike cs ->
  escape_all_codepoints e upper (text (form e) cs) = Some out ->
  unescape_all_codepoints e out = Some (text (form e) cs).
Proof.
  intros e upper cs out HF HL H. rewrite escape_text in H by assumption. injection H as <-.
  unfold unescape_all_codepoints. now apply unescape_escape.
Qed.

(** Text containing a literal escape sequence is not restored: backslashes are not escaped. *)
Theorem unescape_escape_refuted : exists e upper cs out, Forall scalar cs /\
  escape_all_codepoints e upper (text (form e) cs) = Some out /\
  unescape_all_codepoints e out <> Some (text (form e) cs).
Proof.
  exists (U8 true), false, [92; 117; 48; 48; 52; 49], [92; 117; 48; 48; 52; 49].
  split; [repeat (constructor; [unfold scalar; lia|]); constructor|]. split; [reflexivity|]. vm_compute. discriminate.
Qed.
Example C19_lookalike_A : unescape_all_codepoints (U8 true) [92; 117; 48; 48; 52; 49] = Some [65].
Proof. reflexivity. Qed.
Example C19_lookalike_fails : escape_all_codepoints (U8 true) false [92; 117] = Some [92; 117] /\
  unescape_all_codepoints (U8 true) [92; 117] = None.
Proof. split; reflexivity. Qed.
Example C19_case : let s := text (form (U8 true)) [10; 92; 110; 233; 0x1f355] in
  escape_all_codepoints (U8 true) false s =
    Some ([92;117;48;48;48;97] ++ [92; 110] ++ [92;117;48;48;101;57] ++ [92;117;100;56;51;99] ++ [92;117;100;102;53;53]) /\
  escape_all_codepoints (U8 true) true s =
    Some ([92;117;48;48;48;97] ++ [92; 110] ++ [92;117;48;48;101;57] ++ [92;85;48;48;48;49;102;51;53;53]) /\
  no_escape_lookalike [10; 92; 110; 233; 0x1f355].
Proof. split; [reflexivity|]. split; [reflexivity|]. cbn. repeat split; lia. Qed.

Print Assumptions encode_codepoint_exact.
Print Assumptions decode_encode.
Print Assumptions encode_decode.
Print Assumptions validate_exact.
Print Assumptions text_unambiguous.
Print Assumptions convert_exact.
Print Assumptions convert_rejects.
Print Assumptions convert_round_trip.
Print Assumptions escape_printable_ascii.
Print Assumptions escape_rejects.
Print Assumptions unescape_escape_partial.
Print Assumptions unescape_escape_refuted.
