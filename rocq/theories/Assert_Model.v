(** Model of FLY_ASSERT (fly/assert/assert.hpp, detail/assert_enabled.{hpp,cpp}, detail/assert_disabled.hpp).
    Simplifications: the preprocessor and the compiler are not modelled - the texts they give (the expression, the names of the captured values,
    file and function) are arguments, one name for each captured value; the greatest char is [cm]; what print_backtrace
    (fly/system/nix/system_impl.cpp:13-22) writes to the descriptor of standard error is a text, and std::cerr is unbuffered, so that it comes
    where it is written; writing does not fail. *)
From Verif Require Import Common Format_Model FormatString_Model Styler_Model.

(** A captured value: an array of constant characters (all of them, for a string literal with the NUL at its end), or any other value. *)
Inductive capture := CharArray (characters : list Z) | Value (value : arg).
(** What the formatter takes an array of characters for: the string before the first NUL; without one it reads on behind the array. *)
Fixpoint c_string (characters : list Z) : option (list Z) :=
  match characters with
  | [] => None
  | c :: r => if c =? 0 then Some [] else option_map (cons c) (c_string r)
  end.
Definition formatted_value (c : capture) : res arg :=
  match c with
  | Value v => Ok v
  | CharArray cs => match c_string cs with Some s => Ok (AString s) | None => UB end
  end.

(** assert_enabled.hpp:35-46: where the macro was used *)
Record site := Site { m_expression : list Z; m_file : list Z; m_function : list Z; m_line : Z }.

(** std::cerr << text, and << with a character *)
Definition put_text (w : world) (text : list Z) : world := set_stream w Cerr (insert_text (w Cerr) text).
(** std::cerr << Styler(modifiers...) << text << ...; the styler lives to the end of the statement. *)
Definition put_styled (w : world) (modifiers : list modifier) (texts : list (list Z)) : world :=
  let '(w, x) := stream_styler w Cerr (make_styler modifiers) in
  destroy_styler (fold_left put_text texts w) x.
(** fly::string::format_to(std::ostream_iterator<char>(std::cerr), ...): one character at a time *)
Definition put_characters (w : world) (text : list Z) : world := fold_left (fun w c => put_text w [c]) text w.

(** The texts of assert_enabled.cpp and .hpp; "Assertion failed:" *)
Definition s_failed : list Z := [65; 115; 115; 101; 114; 116; 105; 111; 110; 32; 102; 97; 105; 108; 101; 100; 58].
(** "\n\tFLY_ASSERT({})\n\n" *)
Definition s_assert : list Z := [10; 9; 70; 76; 89; 95; 65; 83; 83; 69; 82; 84; 40; 123; 125; 41; 10; 10].
(** "\tat {}:{}\n" *)
Definition s_at : list Z := [9; 97; 116; 32; 123; 125; 58; 123; 125; 10].
(** "\tin {}\n\n" *)
Definition s_in : list Z := [9; 105; 110; 32; 123; 125; 10; 10].
(** "Captures:\n" *)
Definition s_captures : list Z := [67; 97; 112; 116; 117; 114; 101; 115; 58; 10].
(** "\t{} => {}\n" *)
Definition s_capture : list Z := [9; 123; 125; 32; 61; 62; 32; 123; 125; 10].
(** "Call stack:\n" *)
Definition s_call_stack : list Z := [67; 97; 108; 108; 32; 115; 116; 97; 99; 107; 58; 10].

Section Char.
Variable cm : Z.
Definition formatted (format : list Z) (args : list arg) : res (list Z) := format_to 8 cm [] format args.

(** assert_enabled.cpp:58-61 with assert_enabled.hpp:161-168 *)
Fixpoint put_captures (w : world) (captures : list capture) (names : list (list Z)) : res world :=
  match captures with
  | [] => Ok w
  | c :: r =>
      match names with
      | [] => UB (* m_capture_names[i] *)
      | n :: names' =>
          let! v := formatted_value c in
          let! text := formatted s_capture [AString n; v] in
          put_captures (put_characters w text) r names'
      end
  end.
(** assert_enabled.cpp:32-61 log_assertion; an empty message is none *)
Definition log_assertion (w : world) (s : site) (message : list Z) (captures : list capture) (names : list (list Z)) (backtrace : list Z) : res world :=
  let w := put_text w [10] in
  let w := put_styled w [MStyle SBold; MColor (Color 1 Foreground)] [s_failed] in
  let w := match message with [] => w | _ => put_styled w [MStyle SBold] [[32]; message] end in
  let! t1 := formatted s_assert [AString (m_expression s)] in
  let w := put_text w t1 in
  let! t2 := formatted s_at [AString (m_file s); AInteger 32 false (m_line s)] in
  let w := put_text w t2 in
  let! t3 := formatted s_in [AString (m_function s)] in
  let w := put_text w t3 in
  let! w := match captures with
            | [] => Ok w
            | _ => let! w := put_captures (put_styled w [MStyle SBold] [s_captures]) captures names in Ok (put_text w [10])
            end in
  let w := put_styled w [MStyle SBold] [s_call_stack] in
  let w := put_text w backtrace in
  Ok (put_text w [10]).
(** assert_enabled.hpp:171-190 assertion_failed: the overload with [char const (&message)[N]] is chosen if the first value is an array of
    constant characters; the view of the message has all N characters, the names lose their first. *)
Definition assertion_failed (w : world) (s : site) (captures : list capture) (names : list (list Z)) (backtrace : list Z) : res world :=
  match captures with
  | CharArray message :: r => match names with [] => UB | _ :: names' => log_assertion w s message r names' backtrace end
  | _ => log_assertion w s [] captures names backtrace
  end.

(** What a statement does, in order: it evaluates the expression and the captured values (by their number), writes, calls the handler. *)
Inductive action := Evaluates | EvaluatesCapture (i : nat) | Writes (w : world) | Calls.
(** assert_enabled.hpp:26-48; [order]: the order in which the arguments of assertion_failed are evaluated, which C++ leaves open. *)
Definition assert_enabled (w : world) (holds : bool) (s : site) (captures : list capture) (names : list (list Z)) (order : list nat) (backtrace : list Z) : res (list action) :=
  if negb holds then
    let! w' := assertion_failed w s captures names backtrace in
    Ok (Evaluates :: map EvaluatesCapture order ++ [Writes w'; Calls])
  else Ok [Evaluates].
(** assert_disabled.hpp:15-16: true ? static_cast<void>(0) : ... *)
Definition assert_disabled (w : world) (holds : bool) (s : site) (captures : list capture) (names : list (list Z)) (order : list nat) (backtrace : list Z) : res (list action) := Ok [].
End Char.
