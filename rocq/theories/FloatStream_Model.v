(** Model of the floating-point formatter for compilers without __cpp_lib_to_chars (fly/types/string/formatters.hpp:653-742)
    and of fly/types/string/detail/stream_util.hpp.
    Simplifications: what std::snprintf (which std::num_put calls, [facet.num.put.virtuals]) writes for the value is the
    argument [printf]; the stream's ctype facet is a flag (either the classic one or PositivePaddingFacet); of the format flags
    only those the code touches are kept; the format string is char-based. *)
From Verif Require Import Common Format_Model.

(** The state of a std::stringstream that the code can see or change.  [padding_facet]: the locale's ctype facet is
    PositivePaddingFacet; [fixed] and [scientific] are the two bits of floatfield; [left] and [internal] two of adjustfield. *)
Record stream := Stream {
  showpos : bool; showpoint : bool; uppercase : bool; fixed : bool; scientific : bool; left : bool; internal : bool;
  padding_facet : bool; sfill : Z; swidth : Z; sprecision : Z; str : list Z }.
(** A std::stringstream just constructed ([basic.ios.cons]). *)
Definition new_stream : stream := Stream false false false false false false false false 32 0 6 [].

(** stream_util.hpp:80-99 and the constructor 122-130: the state the stream had and what has been changed since. *)
Record modifiers := Modifiers {
  m_saved : stream; changed_flags : bool; changed_locale : bool; changed_fill : bool; changed_width : bool; changed_precision : bool }.
Definition scoped (s : stream) : modifiers := Modifiers s false false false false false.

(** The state while the modifiers are alive. *)
Definition scope := (stream * modifiers)%type.

(** stream_util.hpp:158-169: setf; [f] is what std::ios_base::setf does to the flags *)
Definition setf (f : stream -> stream) (x : scope) : scope :=
  let '(s, m) := x in
  (f s, Modifiers (m_saved m) true (changed_locale m) (changed_fill m) (changed_width m) (changed_precision m)).
Definition set_showpos (s : stream) : stream :=
  Stream true (showpoint s) (uppercase s) (fixed s) (scientific s) (left s) (internal s) (padding_facet s) (sfill s) (swidth s) (sprecision s) (str s).
Definition set_showpoint (s : stream) : stream :=
  Stream (showpos s) true (uppercase s) (fixed s) (scientific s) (left s) (internal s) (padding_facet s) (sfill s) (swidth s) (sprecision s) (str s).
Definition set_uppercase (s : stream) : stream :=
  Stream (showpos s) (showpoint s) true (fixed s) (scientific s) (left s) (internal s) (padding_facet s) (sfill s) (swidth s) (sprecision s) (str s).
(** setf(internal, adjustfield) *)
Definition set_internal (s : stream) : stream :=
  Stream (showpos s) (showpoint s) (uppercase s) (fixed s) (scientific s) false true (padding_facet s) (sfill s) (swidth s) (sprecision s) (str s).
(** setf(fixed | scientific): the bits are added *)
Definition set_hexfloat (s : stream) : stream :=
  Stream (showpos s) (showpoint s) (uppercase s) true true (left s) (internal s) (padding_facet s) (sfill s) (swidth s) (sprecision s) (str s).
(** setf(scientific, floatfield) and setf(fixed, floatfield) *)
Definition set_scientific (s : stream) : stream :=
  Stream (showpos s) (showpoint s) (uppercase s) false true (left s) (internal s) (padding_facet s) (sfill s) (swidth s) (sprecision s) (str s).
Definition set_fixed (s : stream) : stream :=
  Stream (showpos s) (showpoint s) (uppercase s) true false (left s) (internal s) (padding_facet s) (sfill s) (swidth s) (sprecision s) (str s).

(** stream_util.hpp:172-177 locale<PositivePaddingFacet<char>> *)
Definition set_locale (x : scope) : scope :=
  let '(s, m) := x in
  (Stream (showpos s) (showpoint s) (uppercase s) (fixed s) (scientific s) (left s) (internal s) true (sfill s) (swidth s) (sprecision s) (str s),
   Modifiers (m_saved m) (changed_flags m) true (changed_fill m) (changed_width m) (changed_precision m)).
(** stream_util.hpp:180-184 fill *)
Definition set_fill (ch : Z) (x : scope) : scope :=
  let '(s, m) := x in
  (Stream (showpos s) (showpoint s) (uppercase s) (fixed s) (scientific s) (left s) (internal s) (padding_facet s) ch (swidth s) (sprecision s) (str s),
   Modifiers (m_saved m) (changed_flags m) (changed_locale m) true (changed_width m) (changed_precision m)).
(** stream_util.hpp:187-191 width *)
Definition set_width (size : Z) (x : scope) : scope :=
  let '(s, m) := x in
  (Stream (showpos s) (showpoint s) (uppercase s) (fixed s) (scientific s) (left s) (internal s) (padding_facet s) (sfill s) size (sprecision s) (str s),
   Modifiers (m_saved m) (changed_flags m) (changed_locale m) (changed_fill m) true (changed_precision m)).
(** stream_util.hpp:194-198 precision *)
Definition set_precision (size : Z) (x : scope) : scope :=
  let '(s, m) := x in
  (Stream (showpos s) (showpoint s) (uppercase s) (fixed s) (scientific s) (left s) (internal s) (padding_facet s) (sfill s) (swidth s) size (str s),
   Modifiers (m_saved m) (changed_flags m) (changed_locale m) (changed_fill m) (changed_width m) true).

(** stream_util.hpp:133-155, the destructor *)
Definition restore (x : scope) : stream :=
  let '(s, m) := x in
  let o := m_saved m in
  let s := if changed_flags m then Stream (showpos o) (showpoint o) (uppercase o) (fixed o) (scientific o) (left o) (internal o) (padding_facet s) (sfill s) (swidth s) (sprecision s) (str s) else s in
  let s := if changed_locale m then Stream (showpos s) (showpoint s) (uppercase s) (fixed s) (scientific s) (left s) (internal s) (padding_facet o) (sfill s) (swidth s) (sprecision s) (str s) else s in
  let s := if changed_fill m then Stream (showpos s) (showpoint s) (uppercase s) (fixed s) (scientific s) (left s) (internal s) (padding_facet s) (sfill o) (swidth s) (sprecision s) (str s) else s in
  let s := if changed_width m then Stream (showpos s) (showpoint s) (uppercase s) (fixed s) (scientific s) (left s) (internal s) (padding_facet s) (sfill s) (swidth o) (sprecision s) (str s) else s in
  if changed_precision m then Stream (showpos s) (showpoint s) (uppercase s) (fixed s) (scientific s) (left s) (internal s) (padding_facet s) (sfill s) (swidth s) (sprecision o) (str s) else s.

(** A conversion specification of printf: '+', '#', a precision or none, the presentation and whether its letter is upper case. *)
Record cformat := CFormat { c_plus : bool; c_sharp : bool; c_precision : option Z; c_type : ftype; c_upper : bool }.

(** [facet.num.put.virtuals] stage 1: the conversion specification for the flags. *)
Definition conversion_for (s : stream) : cformat :=
  CFormat (showpos s) (showpoint s)
    (if fixed s && scientific s then None else Some (sprecision s))
    (if fixed s then (if scientific s then THexFloat else TFixed) else if scientific s then TScientific else TGeneral)
    (uppercase s).

(** stream_util.hpp:201-219 PositivePaddingFacet::do_widen *)
Definition widen (facet : bool) (c : Z) : Z := if facet && (c =? 43) then 32 else c.

(** [facet.num.put.virtuals] stages 2 and 3, and width(0): the characters are widened with the ctype facet and padded;
    [text] is the result of stage 1. *)
Definition inserted (s : stream) (text : list Z) : list Z :=
  let wide := map (widen (padding_facet s)) text in
  let pad := repeat (sfill s) (Z.to_nat (swidth s) - length text) in
  if left s then wide ++ pad
  else if internal s then
    match text, wide with
    | c :: _, w :: rest =>
        if (c =? 43) || (c =? 45) then w :: pad ++ rest
        else match text, rest with
             | 48 :: x :: _, y :: rest' => if (x =? 120) || (x =? 88) then w :: y :: pad ++ rest' else pad ++ wide
             | _, _ => pad ++ wide
             end
    | _, _ => pad ++ wide
    end
  else pad ++ wide.
Definition insert (printf : cformat -> list Z) (s : stream) : stream :=
  Stream (showpos s) (showpoint s) (uppercase s) (fixed s) (scientific s) (left s) (internal s) (padding_facet s) (sfill s) 0 (sprecision s)
    (str s ++ inserted s (printf (conversion_for s))).

(** std::streamsize is a signed 64-bit type. *)
Definition streamsize (n : Z) : Z := signed 64 n.

(** formatters.hpp:666-741 format; [finite]: neither isnan nor isinf; [width] and [precision] are what
    FormatSpecifier::width(context, 0) and FormatSpecifier::precision(context, 6) return.  The result: what is appended to the
    output, and the stream after the destructor of the modifiers. *)
Definition format_stream (printf : cformat -> list Z) (finite : bool) (spec : specifier) (width precision : Z) (s_stream : stream) : list Z * stream :=
  let x : scope := (s_stream, scoped s_stream) in
  (* 671-674 *)
  let align := match m_alignment spec with ADefault => ARight | a => a end in
  (* 676-689 *)
  let x := match m_sign spec with
           | SAlways => setf set_showpos x
           | SNegativeOnlyWithPositivePadding => setf set_showpos (set_locale x)
           | _ => x
           end in
  (* 691-694 *)
  let x := if m_alternate_form spec then setf set_showpoint x else x in
  (* 696-701 *)
  let x := if m_zero_padding spec then set_width (streamsize width) (set_fill 48 (setf set_internal x)) else x in
  (* 703-705 *)
  let x := set_precision (streamsize precision) x in
  (* 707-728 *)
  let x := match m_type spec with
           | THexFloat => setf set_hexfloat x
           | TScientific => setf set_scientific x
           | TFixed => if finite then setf set_fixed x else x
           | _ => x
           end in
  (* 730-733 *)
  let x := match m_case spec with CUpper => setf set_uppercase x | CLower => x end in
  (* 735 *)
  let '(s, m) := x in
  let s := insert printf s in
  (* 737-738: a string formatter with the same options, the alignment of 671-674 and no precision *)
  let spec' := Specifier (m_position spec) (m_fill spec) align (m_sign spec) (m_alternate_form spec) (m_zero_padding spec)
                 (m_width spec) (m_width_position spec) None None (m_locale_specific_form spec) (m_type spec) (m_case spec) (m_parse_index spec) (m_size spec) in
  let out := format_string_value spec' width None (str s) in
  (* 740 *)
  let s := Stream (showpos s) (showpoint s) (uppercase s) (fixed s) (scientific s) (left s) (internal s) (padding_facet s) (sfill s) (swidth s) (sprecision s) [] in
  (out, restore (s, m)).

(** The calls one thread makes, one after the other, with the stream it keeps (668: thread_local). *)
Record call := Call { c_printf : cformat -> list Z; c_finite : bool; c_spec : specifier; c_width : Z; c_prec : Z }.
Definition run_call (c : call) (s : stream) : list Z * stream := format_stream (c_printf c) (c_finite c) (c_spec c) (c_width c) (c_prec c) s.
Fixpoint run_calls (cs : list call) (s : stream) : list (list Z) * stream :=
  match cs with
  | [] => ([], s)
  | c :: rest => let '(out, s) := run_call c s in let '(outs, s) := run_calls rest s in (out :: outs, s)
  end.
