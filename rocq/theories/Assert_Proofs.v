(** What a failed assertion writes. *)
From Coq Require Import String.
From Verif Require Import Common Format_Model FormatString_Model Styler_Model Styler_Spec Styler_Props Join_Spec Join_Props FormatString_Props Assert_Model Assert_Spec.
Import List.ListNotations.
Open Scope list_scope.

(** * The texts *)
Lemma parse_assert e : parse_format 8 (map type_of_arg [AString e]) s_assert = Ok (Some [sp0 (AString e) 0 13]).
Proof. reflexivity. Qed.
Lemma parse_at f l : parse_format 8 (map type_of_arg [AString f; AInteger 32 false l]) s_at = Ok (Some [sp0 (AString f) 0 4; sp0 (AInteger 32 false l) 1 7]).
Proof. reflexivity. Qed.
Lemma parse_in f : parse_format 8 (map type_of_arg [AString f]) s_in = Ok (Some [sp0 (AString f) 0 4]).
Proof. reflexivity. Qed.
Lemma parse_capture n v : parse_format 8 (map type_of_arg [AString n; v]) s_capture = Ok (Some [sp0 (AString n) 0 1; sp0 v 1 7]).
Proof. destruct v; reflexivity. Qed.

Ltac run_format P E := unfold formatted, format_to; rewrite P; cbn [bind]; lazy -[format_arg app] in E; lazy -[format_arg app]; rewrite E; lazy -[format_arg app].
Lemma format_assert cm e x : format_arg cm [AString e] (sp0 (AString e) 0 13) (AString e) = Ok x ->
  formatted cm s_assert [AString e] = Ok (newline ++ tab ++ text "FLY_ASSERT(" ++ x ++ text ")" ++ newline ++ newline).
Proof. intros E. run_format (parse_assert e) E. reflexivity. Qed.
Lemma format_in cm e x : format_arg cm [AString e] (sp0 (AString e) 0 4) (AString e) = Ok x ->
  formatted cm s_in [AString e] = Ok (tab ++ text "in " ++ x ++ newline ++ newline).
Proof. intros E. run_format (parse_in e) E. reflexivity. Qed.
Lemma format_at cm f l x y : let args := [AString f; AInteger 32 false l] in
  format_arg cm args (sp0 (AString f) 0 4) (AString f) = Ok x -> format_arg cm args (sp0 (AInteger 32 false l) 1 7) (AInteger 32 false l) = Ok y ->
  formatted cm s_at args = Ok (tab ++ text "at " ++ x ++ text ":" ++ y ++ newline).
Proof. intros args E F. unfold args in *. run_format (parse_at f l) E. lazy -[format_arg app] in F. rewrite F. reflexivity. Qed.
Lemma format_capture cm n v x y : let args := [AString n; v] in
  format_arg cm args (sp0 (AString n) 0 1) (AString n) = Ok x -> format_arg cm args (sp0 v 1 7) v = Ok y ->
  formatted cm s_capture args = Ok (tab ++ x ++ text " => " ++ y ++ newline).
Proof. intros args E F. unfold args in *. run_format (parse_capture n v) E. lazy -[format_arg app] in F. rewrite F. reflexivity. Qed.

(** * What appears *)
Lemma appears_then w1 w2 w3 a b : appears w1 w2 a -> appears w2 w3 b -> appears w1 w3 (a ++ b).
Proof.
  intros (O1 & P1 & b1 & A1 & R1) (O2 & P2 & b2 & A2 & R2). split; [intros s HS; rewrite O2, O1 by assumption; reflexivity|]. split; [exact P2|].
  exists (b1 ++ b2). split; [unfold added in *; rewrite A2, A1; now rewrite app_assoc|]. intros t HT. rewrite receive_app, (R1 t HT), R2 by reflexivity. cbn [down right_ cells]. now rewrite <- app_assoc.
Qed.
Lemma appears_nothing w : plain_stream (w Cerr) -> appears w w [].
Proof.
  intros HP. split; [reflexivity|]. split; [exact HP|]. exists []. split; [unfold added; now rewrite app_nil_r|]. intros t HT. cbn [receive]. rewrite app_nil_r, <- HT. now destruct t.
Qed.
Lemma appears_plain w w' a : appears w w' a -> plain_stream (w' Cerr).
Proof. now intros (_ & H & _). Qed.
Lemma put_appears w x : plain_stream (w Cerr) -> no_escape x -> appears w (put_text w x) (shown_with x normal).
Proof.
  intros HP HX. unfold put_text. split; [intros s HS; apply set_other; exact HS|]. rewrite set_same, insert_plain by assumption. split; [apply grown_plain|].
  exists x. split; [reflexivity|]. intros t HT. rewrite <- (app_nil_r x) at 1. rewrite receive_text by assumption. cbn [receive]. unfold then_text. now rewrite HT.
Qed.
Lemma put_texts w l : plain_stream (w Cerr) -> fold_left put_text l w Cerr = insert_text (w Cerr) (concat l) /\ (forall s, s <> Cerr -> fold_left put_text l w s = w s).
Proof.
  revert w. induction l as [|x l IH]; intros w HP; cbn [fold_left concat].
  - split; [|reflexivity]. rewrite insert_plain, grown_nil by assumption. reflexivity.
  - assert (E : put_text w x Cerr = grown (w Cerr) x) by (unfold put_text; rewrite set_same; now apply insert_plain).
    destruct (IH (put_text w x)) as (I1 & I2). { rewrite E. apply grown_plain. }
    split.
    + rewrite I1, E, !insert_plain by (assumption || apply grown_plain). apply grown_grown.
    + intros s HS. rewrite I2 by assumption. unfold put_text. now apply set_other.
Qed.
Lemma styled_bytes w ms l : plain_stream (w Cerr) ->
  put_styled w ms l Cerr = styler_scope w Cerr ms (concat l) Cerr /\ (forall s, s <> Cerr -> put_styled w ms l s = w s).
Proof.
  intros HP. unfold put_styled, styler_scope. destruct (stream_styler w Cerr (make_styler ms)) as (w' & x) eqn:E. destruct (styler_streamed w Cerr ms w' x eq_refl HP E) as (E1 & E2 & ->).
  assert (P' : plain_stream (w' Cerr)) by (rewrite E1; apply grown_plain). destruct (put_texts w' l P') as (F1 & F2).
  unfold destroy_styler. cbn [m_proxy end_proxy]. destruct (has_attributes ms).
  - split; [rewrite !set_same, F1; reflexivity|]. intros s HS. rewrite set_other, F2 by assumption. now apply E2.
  - split; [rewrite !set_same, F1; reflexivity|]. intros s HS. rewrite F2 by assumption. now apply E2.
Qed.
Definition still (ms : list modifier) : Prop := cursors_of ms = [].
Lemma styled_appears w ms l a : plain_stream (w Cerr) -> Forall modifier_ok ms -> no_escape (concat l) -> (forall t, attr t = normal -> asked ms t = with_attr t a) ->
  appears w (put_styled w ms l) (shown_with (concat l) a).
Proof.
  intros HP HM HX HA. destruct (styled_bytes w ms l HP) as (E1 & E2). destruct (styler_scoped w Cerr ms (concat l) eq_refl HP HM HX) as (_ & PL & b & A & R).
  split; [exact E2|]. rewrite E1. split; [exact PL|]. exists b. split; [exact A|]. intros t HT. rewrite (R t HT), (HA t HT). reflexivity.
Qed.
Lemma asked_bold t : attr t = normal -> asked [MStyle SBold] t = with_attr t bold_.
Proof. intros H. unfold asked. cbn [fold_left styled]. rewrite H. reflexivity. Qed.
Lemma asked_bold_red t : attr t = normal -> asked [MStyle SBold; MColor (Color 1 Foreground)] t = with_attr t bold_red.
Proof. intros H. unfold asked. cbn [fold_left styled]. rewrite H. reflexivity. Qed.
Lemma characters_appear w x : plain_stream (w Cerr) -> no_escape x -> appears w (put_characters w x) (shown_with x normal).
Proof.
  revert w. induction x as [|c x IH]; intros w HP HX; unfold put_characters; cbn [fold_left].
  - now apply appears_nothing.
  - change (shown_with (c :: x) normal) with (shown_with [c] normal ++ shown_with x normal).
    assert (H1 : appears w (put_text w [c]) (shown_with [c] normal)). { apply put_appears; [assumption|]. intros [->|[]]. apply HX. now left. }
    apply appears_then with (put_text w [c]); [exact H1|]. apply IH; [exact (appears_plain _ _ _ H1)|]. intros H. apply HX. now right.
Qed.
