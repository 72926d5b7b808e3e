(** Specification vocabulary for C63: a terminal that understands ANSI escape sequences (ECMA-48, as on the Wikipedia page the
    code cites), and what modifiers mean on it. *)
From Verif Require Import Common Styler_Model.

Record attributes := Attributes { bold : bool; dim : bool; italic : bool; underline : bool; blink : bool; strike : bool; fore : option Z; back : option Z }.
Definition normal : attributes := Attributes false false false false false false None None.
(** A terminal: attributes for what will be shown, the cursor's movements so far, the cells shown so far. *)
Record terminal := Terminal { attr : attributes; down : Z; right_ : Z; cells : list (Z * attributes) }.

(** SGR parameters. *)
Definition set_fore (a : attributes) c := Attributes (bold a) (dim a) (italic a) (underline a) (blink a) (strike a) (Some c) (back a).
Definition set_back (a : attributes) c := Attributes (bold a) (dim a) (italic a) (underline a) (blink a) (strike a) (fore a) (Some c).
Definition sgr_one (p : Z) (a : attributes) : attributes :=
  if p =? 0 then normal
  else if p =? 1 then Attributes true (dim a) (italic a) (underline a) (blink a) (strike a) (fore a) (back a)
  else if p =? 2 then Attributes (bold a) true (italic a) (underline a) (blink a) (strike a) (fore a) (back a)
  else if p =? 3 then Attributes (bold a) (dim a) true (underline a) (blink a) (strike a) (fore a) (back a)
  else if p =? 4 then Attributes (bold a) (dim a) (italic a) true (blink a) (strike a) (fore a) (back a)
  else if p =? 5 then Attributes (bold a) (dim a) (italic a) (underline a) true (strike a) (fore a) (back a)
  else if p =? 9 then Attributes (bold a) (dim a) (italic a) (underline a) (blink a) true (fore a) (back a)
  else if (30 <=? p) && (p <=? 37) then set_fore a (p - 30)
  else if (40 <=? p) && (p <=? 47) then set_back a (p - 40)
  else a.
Fixpoint sgr (ps : list Z) (a : attributes) : attributes :=
  match ps with
  | 38 :: 5 :: n :: r => sgr r (set_fore a n)
  | 48 :: 5 :: n :: r => sgr r (set_back a n)
  | p :: r => sgr r (sgr_one p a)
  | [] => a
  end.

(** Between characters: outside a sequence, after ESC, or after ESC [ with the parameters read so far. *)
Inductive reading := Ground | Escape | Parameters (before : list Z) (current : Z).
Definition with_attr (t : terminal) a := Terminal a (down t) (right_ t) (cells t).
Definition move (t : terminal) (dy dx : Z) := Terminal (attr t) (down t + dy) (right_ t + dx) (cells t).
Definition show (t : terminal) (c : Z) := Terminal (attr t) (down t) (right_ t) (cells t ++ [(c, attr t)]).
Fixpoint receive (st : reading) (t : terminal) (bytes : list Z) : reading * terminal :=
  match bytes with
  | [] => (st, t)
  | c :: r =>
      match st with
      | Ground => if c =? 27 then receive Escape t r else receive Ground (show t c) r
      | Escape => if c =? 91 then receive (Parameters [] 0) t r else receive Ground t r
      | Parameters before current =>
          if (48 <=? c) && (c <=? 57) then receive (Parameters before (current * 10 + (c - 48))) t r
          else if c =? 59 then receive (Parameters (before ++ [current]) 0) t r
          else if c =? 109 then receive Ground (with_attr t (sgr (before ++ [current]) (attr t))) r
          else if c =? 65 then receive Ground (move t (- current) 0) r
          else if c =? 66 then receive Ground (move t current 0) r
          else if c =? 67 then receive Ground (move t 0 current) r
          else if c =? 68 then receive Ground (move t 0 (- current)) r
          else receive Ground t r
      end
  end.

(** What the modifiers ask for: first the styles, then the colors, then the cursor's movements, each in the order given. *)
Definition styled (s : style) (a : attributes) : attributes :=
  match s with
  | SDefaultStyle => normal
  | SBold => Attributes true (dim a) (italic a) (underline a) (blink a) (strike a) (fore a) (back a)
  | SDim => Attributes (bold a) true (italic a) (underline a) (blink a) (strike a) (fore a) (back a)
  | SItalic => Attributes (bold a) (dim a) true (underline a) (blink a) (strike a) (fore a) (back a)
  | SUnderline => Attributes (bold a) (dim a) (italic a) true (blink a) (strike a) (fore a) (back a)
  | SBlink => Attributes (bold a) (dim a) (italic a) (underline a) true (strike a) (fore a) (back a)
  | SStrike => Attributes (bold a) (dim a) (italic a) (underline a) (blink a) true (fore a) (back a)
  end.
Definition colored (c : color) (a : attributes) : attributes :=
  match m_plane c with Foreground => set_fore a (m_color c) | Background => set_back a (m_color c) end.
Definition moved (c : cursor) (t : terminal) : terminal :=
  match m_direction c with
  | Up => move t (- m_distance c) 0 | Down => move t (m_distance c) 0
  | Forward => move t 0 (m_distance c) | Backward => move t 0 (- m_distance c)
  end.
Definition asked (ms : list modifier) (t : terminal) : terminal :=
  let a := fold_left (fun a m => match m with MStyle s => styled s a | _ => a end) ms (attr t) in
  let a := fold_left (fun a m => match m with MColor c => colored c a | _ => a end) ms a in
  fold_left (fun t m => match m with MCursor c => moved c t | _ => t end) ms (with_attr t a).

(** Colors and distances are 8-bit numbers. *)
Definition modifier_ok (m : modifier) : Prop :=
  match m with MStyle _ => True | MColor c => 0 <= m_color c < 256 | MCursor c => 0 < m_distance c < 256 end.
(** The stream inserts numbers and texts plainly: decimal, no width. *)
Definition plain_stream (o : ostream) : Prop := m_base o = 10 /\ m_width o = 0%nat.
Definition no_escape (text : list Z) : Prop := ~ In 27 text.
Definition shown_with (text : list Z) (a : attributes) : list (Z * attributes) := map (fun c => (c, a)) text.
(** The bytes by which the stream has grown. *)
Definition added (before after : ostream) (bytes : list Z) : Prop := m_bytes after = m_bytes before ++ bytes.
(** Does a styler change attributes at all? *)
Definition has_attributes (ms : list modifier) : bool := existsb (fun m => match m with MCursor _ => false | _ => true end) ms.
(** A terminal that shows [text] next. *)
Definition then_text (text : list Z) (t : terminal) : terminal := Terminal (attr t) (down t) (right_ t) (cells t ++ shown_with text (attr t)).
(** A program's use of a styler: stream it, stream a text, and let the styler go out of scope. *)
Definition styler_scope (w : world) (s : stream) (ms : list modifier) (text : list Z) : world :=
  let '(w, x) := stream_styler w s (make_styler ms) in
  destroy_styler (set_stream w s (insert_text (w s) text)) x.
(** The attributes of the headers of log lines: green, yellow, bold red, none. *)
Definition level_attributes (l : level) : attributes :=
  match l with
  | LDebug => normal
  | LInfo => set_fore normal 2
  | LWarn => set_fore normal 3
  | LError => Attributes true false false false false false (Some 1) None
  end.
(** Where log lines go. *)
Definition level_stream (l : level) : stream := match l with LDebug | LInfo => Cout | LWarn | LError => Cerr end.
