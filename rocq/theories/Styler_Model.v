(** Model of stream styling (fly/logger/styler.hpp, styler.cpp, detail/styler_proxy.cpp, detail/nix/styler_proxy_impl.cpp) and
    of the console sink (detail/console_sink.cpp).
    Simplifications: an output stream is the bytes written so far and those of its flags that matter to inserting small
    numbers and texts (base, width, fill); writing does not fail; the modifiers of a Styler are given in the order of its
    constructor's arguments. *)
From Verif Require Import Common Format_Model.

(** styler.hpp:22-31 Style *)
Inductive style := SDefaultStyle | SBlink | SBold | SDim | SItalic | SStrike | SUnderline.
(** styler.hpp:36-84 Color; m_color is a std::uint8_t *)
Inductive plane := Foreground | Background.
Record color := Color { m_color : Z; m_plane : plane }.
(** styler.hpp:89-118 Cursor: a distance of 0 means 1 (113) *)
Inductive direction := Up | Down | Forward | Backward.
Record cursor := Cursor { m_direction : direction; m_distance : Z }.
Definition make_cursor (d : direction) (distance : Z) : cursor := Cursor d (if distance >? 0 then distance else 1).
Inductive modifier := MStyle (s : style) | MColor (c : color) | MCursor (c : cursor).

(** The streams: those with the buffer of std::cout or std::cerr (styler_proxy.cpp:8-12), and all others. *)
Inductive stream := Cout | Cerr | Other (n : nat).
Definition stream_eq (a b : stream) : bool :=
  match a, b with Cout, Cout => true | Cerr, Cerr => true | Other n, Other m => (n =? m)%nat | _, _ => false end.
(** An std::ostream: the bytes written and the flags. *)
Record ostream := Ostream { m_bytes : list Z; m_base : Z; m_width : nat; m_fillchar : Z }.
Definition world := stream -> ostream.
Definition set_stream (w : world) (s : stream) (o : ostream) : world := fun s' => if stream_eq s' s then o else w s'.

(** operator<< of std::ostream for texts: padded on the left to the width, which is set to 0 ([ostream.inserters]). *)
Definition insert_text (o : ostream) (text : list Z) : ostream :=
  Ostream (m_bytes o ++ repeat (m_fillchar o) (m_width o - length text) ++ text) (m_base o) 0 (m_fillchar o).
(** operator<< for an integer: in the stream's base. *)
Definition insert_number (o : ostream) (n : Z) : ostream :=
  insert_text o (value_or (to_chars 64 n (m_base o) []) []).

(** styler_proxy_impl.cpp:37-66 *)
Definition style_number (s : style) : Z :=
  match s with
  | SDefaultStyle => 0 | SBold => 1 | SDim => 2 | SItalic => 3 | SUnderline => 4 | SBlink => 5 | SStrike => 9
  end.
Definition stream_style (o : ostream) (s : style) : ostream := insert_number o (style_number s).
(** styler_proxy_impl.cpp:69-99; White is 7 *)
Definition stream_color (o : ostream) (c : color) : ostream :=
  let o := if m_color c <=? 7
           then insert_text o (match m_plane c with Foreground => [51] | Background => [52] end) (* 3, 4 *)
           else insert_text o (match m_plane c with Foreground => [51; 56; 59; 53; 59] | Background => [52; 56; 59; 53; 59] end) (* 38;5; *) in
  insert_number o (m_color c).
(** styler_proxy_impl.cpp:102-123 *)
Definition direction_letter (d : direction) : Z := match d with Up => 65 | Down => 66 | Forward => 67 | Backward => 68 end.
Definition stream_cursor (o : ostream) (c : cursor) : ostream :=
  insert_text (insert_number (insert_text o [27; 91]) (m_distance c)) [direction_letter (m_direction c)].

(** styler_proxy_impl.cpp:133-153: the loops over the stacks; the separator is left out before the first modifier. *)
Fixpoint stream_styles (o : ostream) (first : bool) (styles : list style) : ostream * bool :=
  match styles with
  | [] => (o, first)
  | s :: r => stream_styles (stream_style (if first then o else insert_text o [59]) s) false r
  end.
Fixpoint stream_colors (o : ostream) (first : bool) (colors : list color) : ostream * bool :=
  match colors with
  | [] => (o, first)
  | c :: r => stream_colors (stream_color (if first then o else insert_text o [59]) c) false r
  end.
(** styler_proxy_impl.cpp:126-156 *)
Definition apply_styles_and_colors (o : ostream) (styles : list style) (colors : list color) : ostream :=
  let '(o, first) := stream_styles (insert_text o [27; 91]) true styles in
  let '(o, _) := stream_colors o first colors in
  insert_text o [109]. (* m *)
(** styler_proxy_impl.cpp:159-165 *)
Definition apply_cursors (o : ostream) (cursors : list cursor) : ostream := fold_left stream_cursor cursors o.

(** styler.hpp:252-258: the stacks (their tops first) and the proxy, which is a stream and m_did_apply_style_or_color. *)
Record styler := Styler { m_styles : list style; m_colors : list color; m_cursors : list cursor; m_proxy : option (stream * bool) }.
(** styler.hpp:173-205, 229-245: the delegating constructor pushes the modifiers from right to left. *)
Fixpoint make_styler (modifiers : list modifier) : styler :=
  match modifiers with
  | [] => Styler [] [] [] None
  | m :: rest =>
      let s := make_styler rest in
      match m with
      | MStyle x => Styler (x :: m_styles s) (m_colors s) (m_cursors s) (m_proxy s)
      | MColor x => Styler (m_styles s) (x :: m_colors s) (m_cursors s) (m_proxy s)
      | MCursor x => Styler (m_styles s) (m_colors s) (x :: m_cursors s) (m_proxy s)
      end
  end.

Definition is_terminal (s : stream) : bool := match s with Cout | Cerr => true | Other _ => false end.
(** styler_proxy_impl.cpp:28-34 the proxy's destructor *)
Definition end_proxy (w : world) (proxy : option (stream * bool)) : world :=
  match proxy with
  | Some (s, true) => set_stream w s (insert_text (w s) [27; 91; 48; 109])
  | _ => w
  end.
(** styler.cpp:14-27 with the constructor styler_proxy_impl.cpp:6-25: the stacks are passed by reference and are empty
    afterwards if they were streamed; the new proxy is made before the old one is destroyed. *)
Definition stream_styler (w : world) (s : stream) (x : styler) : world * styler :=
  if is_terminal s then
    let did := negb (match m_styles x, m_colors x with [], [] => true | _, _ => false end) in
    let o := if did then apply_styles_and_colors (w s) (m_styles x) (m_colors x) else w s in
    let o := apply_cursors o (m_cursors x) in
    (end_proxy (set_stream w s o) (m_proxy x), Styler [] [] [] (Some (s, did)))
  else (end_proxy w (m_proxy x), Styler (m_styles x) (m_colors x) (m_cursors x) (Some (s, false))).
(** ~Styler *)
Definition destroy_styler (w : world) (x : styler) : world := end_proxy w (m_proxy x).

(** *** console_sink.cpp:22-56 *)
Inductive level := LDebug | LInfo | LWarn | LError.
Definition console_stream (l : level) : stream := match l with LWarn | LError => Cerr | _ => Cout end.
Definition console_modifiers (l : level) : list modifier :=
  match l with
  | LInfo => [MStyle SDefaultStyle; MColor (Color 2 Foreground)]
  | LWarn => [MStyle SDefaultStyle; MColor (Color 3 Foreground)]
  | LError => [MStyle SBold; MColor (Color 1 Foreground)]
  | LDebug => [MStyle SDefaultStyle]
  end.
(** [header] is the text of time and trace (51). *)
Definition console_log (w : world) (l : level) (header message : list Z) : world :=
  let s := console_stream l in
  let '(w, x) := stream_styler w s (make_styler (console_modifiers l)) in
  let w := set_stream w s (insert_text (w s) header) in
  let w := destroy_styler w x in
  set_stream w s (insert_text (insert_text (insert_text (w s) [58; 32]) message) [10]).
