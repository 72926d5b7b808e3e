(** C74: failed assertions. *)
From Coq Require Import String Permutation.
From Verif Require Import Common Format_Model Format_Spec Format_Props FormatString_Model FormatString_Props Styler_Model Styler_Spec Styler_Props Join_Spec Join_Props
  Assert_Model Assert_Spec Assert_Proofs.
Import List.ListNotations.
Open Scope list_scope.

(** Texts as they occur: no escape characters, shorter than the address space. *)
Definition ordinary (x : list Z) : Prop := no_escape x /\ Z.of_nat (List.length x) < 2 ^ 64.
(** The value a captured value is shown as: itself; for an array of characters the string it holds. *)
Definition value_of (c : capture) (v : arg) : Prop :=
  match c with Value v' => v = v' | CharArray cs => exists s rest, cs = s ++ 0 :: rest /\ ~ In 0 s /\ v = AString s end.
Definition shown_as (sg : bool) (cm : Z) (c : capture) (x : list Z) : Prop := exists v, value_of c v /\ arg_ok v /\ own_character 8 sg cm v /\ plain v x.
(** The values that are captured, with their names: without an array of characters in the first place. *)
Definition message_of (captures : list capture) : option (list Z) := match captures with CharArray m :: _ => Some m | _ => None end.
Definition rest_of {A} (captures : list capture) (l : list A) : list A := match captures with CharArray _ :: _ => List.tl l | _ => l end.

Lemma c_string_of s rest : ~ In 0 s -> c_string (s ++ 0 :: rest) = Some s.
Proof.
  induction s as [|c s IH]; intros H; [reflexivity|]. cbn [app c_string]. destruct (Z.eqb_spec c 0) as [->|_]; [exfalso; apply H; now left|].
  rewrite IH by (intros HI; apply H; now right). reflexivity.
Qed.
Lemma formatted_value_of c v : value_of c v -> formatted_value c = Ok v.
Proof. destruct c as [cs|v']; cbn [value_of formatted_value]; [intros (s & rest & -> & H & ->); now rewrite c_string_of|intros ->; reflexivity]. Qed.
Lemma string_shown sg cm args s p q : character_type 8 sg cm -> Z.of_nat (List.length s) < 2 ^ 64 -> format_arg cm args (sp0 (AString s) p q) (AString s) = Ok s.
Proof. intros HT HL. destruct (format_plain 8 sg cm args (AString s) p q HT I HL) as (x & -> & E). exact E. Qed.
Lemma no_escape_app a b : no_escape a -> no_escape b -> no_escape (a ++ b).
Proof. unfold no_escape. rewrite in_app_iff. tauto. Qed.
Lemma shown_app a b n : shown_with (a ++ b) n = shown_with a n ++ shown_with b n.
Proof. apply map_app. Qed.

Ltac escapes := repeat apply no_escape_app; try assumption; try (unfold no_escape; cbn; lia).
(** [plain] need not determine the text of a floating-point value, whose formatter is a parameter. *)
Definition no_float (c : capture) : Prop := match c with Value (AFloating _) => False | _ => True end.
Lemma captures_appear sg cm : character_type 8 sg cm -> forall captures names shown, List.length names = List.length captures ->
  Forall ordinary names -> Forall2 (shown_as sg cm) captures shown -> Forall no_escape shown -> Forall no_float captures ->
  forall w, plain_stream (w Cerr) -> exists w', put_captures cm w captures names = Ok w' /\
    appears w w' (shown_with (flat_map (fun c => tab ++ fst c ++ text " => " ++ snd c ++ newline) (combine names shown)) normal).
Proof.
  intros HT captures. induction captures as [|c captures IH]; intros names shown HL HN HS HE HF w HP.
  - destruct names; [|discriminate]. exists w. split; [reflexivity|]. now apply appears_nothing.
  - destruct names as [|n names]; [discriminate|]. inversion HS as [|? x ? shown' HC HS']; subst. inversion HN as [|? ? (N1 & N2) HN']; subst. inversion HE as [|? ? E1 E2]; subst. inversion HF as [|? ? F1 F2]; subst.
    destruct HC as (v & HV & HA & HO & HX). cbn [put_captures]. rewrite (formatted_value_of c v HV). cbn [bind].
    destruct (format_plain 8 sg cm [AString n; v] v 1 7 HT HA HO) as (y & HY & EY).
    assert (y = x). { apply (plain_unique v); [|assumption|assumption]. destruct c as [cs|v']; cbn in HV; [destruct HV as (s & r & _ & _ & ->); exact I|subst v'; exact F1]. } subst y.
    rewrite (format_capture cm n v n x) by (assumption || now apply (string_shown sg)). cbn [bind].
    set (line := tab ++ n ++ text " => " ++ x ++ newline).
    assert (H1 : appears w (put_characters w line) (shown_with line normal)) by (apply characters_appear; [assumption|unfold line; escapes]).
    destruct (IH names shown' ltac:(cbn in HL; lia) HN' HS' E2 F2 (put_characters w line) (appears_plain _ _ _ H1)) as (w' & EW & HW). exists w'. split; [exact EW|].
    cbn [combine flat_map fst snd]. fold line. rewrite shown_app. now apply appears_then with (put_characters w line).
Qed.

(** * The report *)
(** A failed assertion writes to standard error: a report with the expression as it was written, the place and the function, the message, if
    there is one, with all its characters - the NUL at the end of a literal too -, the captured values in their order under their names, and
    the call stack; headings bold, the first one red; nothing is written elsewhere, and the terminal is normal afterwards. *)
Theorem assertion_report : forall sg cm w s captures names shown backtrace, character_type 8 sg cm -> plain_stream (w Cerr) ->
  ordinary (m_expression s) -> ordinary (m_file s) -> ordinary (m_function s) -> 0 <= m_line s < 2 ^ 32 -> no_escape backtrace ->
  List.length names = List.length captures -> Forall ordinary names -> (forall m, message_of captures = Some m -> m <> [] /\ no_escape m) ->
  Forall2 (shown_as sg cm) (rest_of captures captures) shown -> Forall no_escape shown -> Forall no_float captures ->
  exists w' line, assertion_failed cm w s captures names backtrace = Ok w' /\ positional 10 false (m_line s) line /\
    appears w w' (report s line (message_of captures) (combine (rest_of captures names) shown) backtrace).
Proof.
  intros sg cm w s captures names shown bt HT HP (X1 & L1) (X2 & L2) (X3 & L3) HL HB HN HO HM HS HE HF.
  assert (MAIN : forall message captures' names', List.length names' = List.length captures' -> Forall ordinary names' -> Forall2 (shown_as sg cm) captures' shown -> Forall no_float captures' ->
    no_escape message -> exists w' line, log_assertion cm w s message captures' names' bt = Ok w' /\ positional 10 false (m_line s) line /\
    appears w w' (report s line (match message with [] => None | _ => Some message end) (combine names' shown) bt)).
  { clear HN HO HM HS HF names captures. intros message captures names HN HO HS HF HM. unfold log_assertion.
    assert (MB : Forall modifier_ok [MStyle SBold]) by (constructor; [exact I|constructor]).
    assert (MR : Forall modifier_ok [MStyle SBold; MColor (Color 1 Foreground)]) by (constructor; [exact I|constructor; [cbn; lia|constructor]]).
    set (w1 := put_text w [10]). assert (A1 : appears w w1 (shown_with newline normal)) by (apply put_appears; [assumption|unfold no_escape; cbn; lia]).
    set (w2 := put_styled w1 [MStyle SBold; MColor (Color 1 Foreground)] [s_failed]).
    assert (A2 : appears w1 w2 (shown_with (text "Assertion failed:") bold_red)).
    { apply (styled_appears w1 _ [s_failed]); [exact (appears_plain _ _ _ A1)|exact MR|unfold no_escape; cbn; lia|exact asked_bold_red]. }
    assert (A3 : exists w3, (match message with [] => w2 | _ => put_styled w2 [MStyle SBold] [[32]; message] end) = w3 /\
      appears w2 w3 (match match message with [] => None | _ => Some message end with Some m => shown_with (text " " ++ m) bold_ | None => [] end)).
    { eexists. split; [reflexivity|]. destruct message as [|c m]; [apply appears_nothing; exact (appears_plain _ _ _ A2)|].
      replace (text " " ++ c :: m) with (concat [[32]; c :: m]) by (cbn [concat app]; now rewrite app_nil_r).
      apply styled_appears; [exact (appears_plain _ _ _ A2)|exact MB|cbn [concat]; rewrite app_nil_r; escapes|exact asked_bold]. }
    destruct A3 as (w3 & -> & A3).
    rewrite (format_assert cm _ _ (string_shown sg cm _ (m_expression s) 0 13 HT L1)). cbn [bind].
    set (t1 := newline ++ tab ++ text "FLY_ASSERT(" ++ m_expression s ++ text ")" ++ newline ++ newline).
    assert (A4 : appears w3 (put_text w3 t1) (shown_with t1 normal)) by (apply put_appears; [exact (appears_plain _ _ _ A3)|unfold t1; escapes]).
    destruct (format_plain 8 sg cm [AString (m_file s); AInteger 32 false (m_line s)] (AInteger 32 false (m_line s)) 1 7 HT) as (line & (digits & PD & EL) & EF).
    { cbn. unfold native_int. split; [lia|]. cbn. lia. } { exact I. }
    assert (EL' : line = digits) by (rewrite EL; destruct (Z.ltb_spec (m_line s) 0); [lia|reflexivity]). rewrite Z.abs_eq in PD by lia. subst digits.
    assert (NL : no_escape line).
    { destruct PD as (FD & _). intros HI. rewrite Forall_forall in FD. specialize (FD 27 HI). unfold digit_of in FD. lia. }
    rewrite (format_at cm _ _ _ line (string_shown sg cm _ (m_file s) 0 4 HT L2) EF). cbn [bind].
    set (t2 := tab ++ text "at " ++ m_file s ++ text ":" ++ line ++ newline).
    assert (A5 : appears (put_text w3 t1) (put_text (put_text w3 t1) t2) (shown_with t2 normal)) by (apply put_appears; [exact (appears_plain _ _ _ A4)|unfold t2; escapes]).
    set (w4 := put_text w3 t1) in *. set (w5 := put_text w4 t2) in *.
    rewrite (format_in cm _ _ (string_shown sg cm _ (m_function s) 0 4 HT L3)). cbn [bind].
    set (t3 := tab ++ text "in " ++ m_function s ++ newline ++ newline).
    assert (A6 : appears w5 (put_text w5 t3) (shown_with t3 normal)) by (apply put_appears; [exact (appears_plain _ _ _ A5)|unfold t3; escapes]).
    set (w6 := put_text w5 t3) in *.
    assert (A7 : exists w7, (match captures with [] => Ok w6 | _ => let! w := put_captures cm (put_styled w6 [MStyle SBold] [s_captures]) captures names in Ok (put_text w [10]) end) = Ok w7 /\
      appears w6 w7 (match combine names shown with [] => [] | _ => shown_with (text "Captures:" ++ newline) bold_ ++
        shown_with (flat_map (fun c => tab ++ fst c ++ text " => " ++ snd c ++ newline) (combine names shown) ++ newline) normal end)).
    { destruct captures as [|c captures].
      - inversion HS. subst shown. exists w6. split; [reflexivity|]. destruct names; cbn [combine]; apply appears_nothing; exact (appears_plain _ _ _ A6).
      - assert (B1 : appears w6 (put_styled w6 [MStyle SBold] [s_captures]) (shown_with (text "Captures:" ++ newline) bold_)).
        { apply (styled_appears w6 _ [s_captures]); [exact (appears_plain _ _ _ A6)|exact MB|unfold no_escape; cbn; lia|exact asked_bold]. }
        destruct (captures_appear sg cm HT (c :: captures) names shown HN HO HS HE HF _ (appears_plain _ _ _ B1)) as (w' & E & B2). rewrite E. cbn [bind].
        exists (put_text w' [10]). split; [reflexivity|].
        assert (B3 : appears w' (put_text w' [10]) (shown_with newline normal)) by (apply put_appears; [exact (appears_plain _ _ _ B2)|unfold no_escape; cbn; lia]).
        pose proof (appears_then _ _ _ _ _ B1 (appears_then _ _ _ _ _ B2 B3)) as B. rewrite <- shown_app in B.
        destruct names as [|n names]; [discriminate|]. inversion HS; subst. exact B. }
    destruct A7 as (w7 & -> & A7). cbn [bind].
    assert (A8 : appears w7 (put_styled w7 [MStyle SBold] [s_call_stack]) (shown_with (text "Call stack:" ++ newline) bold_)).
    { apply (styled_appears w7 _ [s_call_stack]); [exact (appears_plain _ _ _ A7)|exact MB|unfold no_escape; cbn; lia|exact asked_bold]. }
    set (w8 := put_styled w7 [MStyle SBold] [s_call_stack]) in *.
    assert (A9 : appears w8 (put_text w8 bt) (shown_with bt normal)) by (apply put_appears; [exact (appears_plain _ _ _ A8)|assumption]).
    set (w9 := put_text w8 bt) in *.
    assert (A10 : appears w9 (put_text w9 [10]) (shown_with newline normal)) by (apply put_appears; [exact (appears_plain _ _ _ A9)|unfold no_escape; cbn; lia]).
    exists (put_text w9 [10]), line. split; [reflexivity|]. split; [exact PD|].
    pose proof (appears_then _ _ _ _ _ A4 (appears_then _ _ _ _ _ A5 A6)) as B. rewrite <- !shown_app in B.
    pose proof (appears_then _ _ _ _ _ A9 A10) as C. rewrite <- shown_app in C.
    pose proof (appears_then _ _ _ _ _ A1 (appears_then _ _ _ _ _ A2 (appears_then _ _ _ _ _ A3 (appears_then _ _ _ _ _ B (appears_then _ _ _ _ _ A7 (appears_then _ _ _ _ _ A8 C)))))) as R.
    unfold report. unfold t1, t2, t3 in R. rewrite <- !app_assoc in R. exact R. }
  unfold assertion_failed. destruct captures as [|[m|v] captures].
  - apply (MAIN [] [] names); auto. intros [].
  - destruct names as [|n names]; [discriminate|]. destruct (HM m eq_refl) as (NM & EM). cbn [rest_of message_of List.tl] in *. inversion HO. inversion HF. subst.
    cbn [List.length] in HN. injection HN as HN.
    destruct (MAIN m captures names) as (w' & line & E1 & E2 & E3); auto. exists w', line. split; [exact E1|]. split; [exact E2|]. destruct m; [congruence|exact E3].
  - apply (MAIN [] (Value v :: captures) names); auto. intros [].
Qed.

(** * The macro *)
(** An assertion that holds evaluates its expression, once, and does nothing else; one that fails also evaluates each captured value once,
    writes its report, and then calls the handler, once. In a release build nothing is evaluated. *)
Theorem assertion_holds : forall cm w s captures names order backtrace,
  assert_enabled cm w true s captures names order backtrace = Ok [Evaluates].
Proof. reflexivity. Qed.
Theorem assertion_fails : forall cm w s captures names order backtrace w', assertion_failed cm w s captures names backtrace = Ok w' ->
  Permutation order (seq 0 (List.length captures)) ->
  exists actions, assert_enabled cm w false s captures names order backtrace = Ok (Evaluates :: actions ++ [Writes w'; Calls]) /\
    Permutation actions (map EvaluatesCapture (seq 0 (List.length captures))).
Proof.
  intros cm w s captures names order bt w' E HP. exists (map EvaluatesCapture order). unfold assert_enabled. cbn [negb]. rewrite E. cbn [bind]. split; [reflexivity|]. now apply Permutation_map.
Qed.
Theorem assertion_disabled : forall w holds s captures names order backtrace, assert_disabled w holds s captures names order backtrace = Ok [].
Proof. reflexivity. Qed.

(** * What is different from the documentation *)
(** The report of an assertion with a message is not text: it contains a NUL, though nothing it was given does. *)
Theorem report_is_text_refuted : forall sg cm w s n m backtrace, character_type 8 sg cm -> plain_stream (w Cerr) ->
  ordinary (m_expression s) -> ordinary (m_file s) -> ordinary (m_function s) -> 0 <= m_line s < 2 ^ 32 -> no_escape backtrace -> ordinary n -> no_escape m ->
  exists w' shown, assertion_failed cm w s [CharArray (m ++ [0])] [n] backtrace = Ok w' /\ appears w w' shown /\ In (0, bold_) shown.
Proof.
  intros sg cm w s n m bt HT HP X1 X2 X3 HL HB HN HM.
  destruct (assertion_report sg cm w s [CharArray (m ++ [0])] [n] [] bt HT HP X1 X2 X3 HL HB eq_refl) as (w' & line & E1 & _ & E3).
  - constructor; [exact HN|constructor].
  - cbn [message_of]. intros m' E. injection E as <-. split; [now destruct m|]. apply no_escape_app; [assumption|]. unfold no_escape; cbn; lia.
  - constructor.
  - constructor.
  - constructor; [exact I|constructor].
  - exists w', (report s line (Some (m ++ [0])) [] bt). split; [exact E1|]. split; [exact E3|]. unfold report. apply in_or_app. right. apply in_or_app. right. apply in_or_app. left.
    unfold shown_with. apply in_map_iff. exists 0. split; [reflexivity|]. apply in_or_app. right. apply in_or_app. right. now left.
Qed.
(** Every captured value is in the report under its name: not an array of characters that comes first - what it was called makes no difference. *)
Theorem first_name_refuted : forall cm w s cs n n' captures names backtrace,
  assertion_failed cm w s (CharArray cs :: captures) (n :: names) backtrace = assertion_failed cm w s (CharArray cs :: captures) (n' :: names) backtrace.
Proof. intros. unfold assertion_failed. cbv beta iota. exact eq_refl. Qed.

(** * Examples *)
Definition site1 : site := Site (text "x == 1") (text "a.cpp") (text "main") 42.
(** FLY_ASSERT(x == 1, "no", x) with x = -3: the hypotheses of the report, and what it shows *)
Example assert_hypotheses : let captures := [CharArray (text "no" ++ [0]); Value (AInteger 32 true (-3))] in
  character_type 8 true 127 /\ plain_stream (blank Cerr) /\ Forall ordinary [m_expression site1; m_file site1; m_function site1; text "x"] /\
  message_of captures = Some [110; 111; 0] /\ no_escape [110; 111; 0] /\
  Forall2 (shown_as true 127) (rest_of captures captures) [text "-3"] /\ Forall no_escape [text "-3"] /\ Forall no_float captures.
Proof.
  cbn zeta. assert (O : forall x, ~ In 27 x -> Z.of_nat (List.length x) < 2 ^ 64 -> ordinary x) by (split; assumption).
  split; [split; [now left|reflexivity]|]. split; [split; reflexivity|].
  split; [repeat constructor; cbn; try lia; intros H; repeat destruct H as [H|H]; try discriminate H; contradiction|].
  split; [reflexivity|]. split; [unfold no_escape; cbn; lia|]. split.
  - cbn [rest_of List.tl]. constructor; [|constructor]. exists (AInteger 32 true (-3)). split; [reflexivity|]. split; [split; [now right; right; left|cbn; lia]|]. split; [exact I|].
    exists [51]. split; [|reflexivity]. split; [constructor; [left; cbn; lia|constructor]|]. split; [reflexivity|]. split; [discriminate|now left].
  - split; [constructor; [unfold no_escape; cbn; lia|constructor]|]. do 3 (constructor; try exact I).
Qed.
Example assert_run : match assertion_failed 127 blank site1 [CharArray (text "no" ++ [0]); Value (AInteger 32 true (-3))] [text """no"""; text "x"] (text "#0") with
  | Ok w' => snd (receive Ground clear (m_bytes (w' Cerr))) = Terminal normal 0 0 (report site1 (text "42") (Some [110; 111; 0]) [(text "x", text "-3")] (text "#0"))
  | _ => False
  end.
Proof. vm_compute. reflexivity. Qed.
(** An array of constant characters that comes later is a value; one without a NUL is read beyond its end. *)
Example assert_later : value_of (CharArray (text "ab" ++ [0])) (AString (text "ab")).
Proof. exists (text "ab"), []. split; [reflexivity|]. split; [cbn; lia|reflexivity]. Qed.
Example assert_unterminated : assertion_failed 127 blank site1 [Value (ABoolean true); CharArray (text "ab")] [text "b"; text "cs"] [] = UB.
Proof. vm_compute. reflexivity. Qed.
