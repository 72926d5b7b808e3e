(** Specification vocabulary for C74: what a failed assertion shows on a terminal. *)
From Coq Require Import String Ascii.
From Verif Require Import Common FormatString_Model Join_Spec Styler_Model Styler_Spec Assert_Model. (* Assert_Model: only what a site is *)
Import List.ListNotations.
Open Scope list_scope.

Definition text (s : string) : list Z := map (fun c => Z.of_nat (nat_of_ascii c)) (list_ascii_of_string s).
Definition newline : list Z := [10].
Definition tab : list Z := [9].
Definition bold_red : attributes := Attributes true false false false false false (Some 1) None.
Definition bold_ : attributes := Attributes true false false false false false None None.

(** The report: what is shown, with its attributes. [line]: the line number in decimal. *)
Definition report (s : site) (line : list Z) (message : option (list Z)) (captured : list (list Z * list Z)) (backtrace : list Z) : list (Z * attributes) :=
  shown_with newline normal ++ shown_with (text "Assertion failed:") bold_red ++
  match message with Some m => shown_with (text " " ++ m) bold_ | None => [] end ++
  shown_with (newline ++ tab ++ text "FLY_ASSERT(" ++ m_expression s ++ text ")" ++ newline ++ newline ++
              tab ++ text "at " ++ m_file s ++ text ":" ++ line ++ newline ++ tab ++ text "in " ++ m_function s ++ newline ++ newline) normal ++
  match captured with
  | [] => []
  | _ => shown_with (text "Captures:" ++ newline) bold_ ++
         shown_with (flat_map (fun c => tab ++ fst c ++ text " => " ++ snd c ++ newline) captured ++ newline) normal
  end ++
  shown_with (text "Call stack:" ++ newline) bold_ ++ shown_with (backtrace ++ newline) normal.

(** Standard error shows [cells] on a terminal in its normal state and leaves it normal; nothing else is written to. *)
Definition appears (w w' : world) (shown : list (Z * attributes)) : Prop :=
  (forall s, s <> Cerr -> w' s = w s) /\ plain_stream (w' Cerr) /\ exists bytes, added (w Cerr) (w' Cerr) bytes /\
  forall t, attr t = normal -> receive Ground t bytes = (Ground, Terminal normal (down t) (right_ t) (cells t ++ shown)).
