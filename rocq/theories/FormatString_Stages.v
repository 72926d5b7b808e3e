(** Proofs for C40: each stage of the parser against the scanner. *)
From Verif Require Import Common Bits Lexer_Model Lexer_Spec Lexer_Props Format_Model FormatString_Model FormatString_Spec FormatString_Proofs.

Section Stages.
Variable v : list Z.
Hypothesis HL : Z.of_nat (length v) < 2 ^ 63.
Variables (bits : Z) (params : list ptype).

Definition cx (r : list Z) (n : Z) (no al e : bool) : pctx := PCtx (lx v r) n no al e.
Lemma cx_flag r ch b r' n no al e : suffix v r -> scan_flag ch r = (b, r') -> ctx_consume_if (cx r n no al e) ch = Ok (b, cx r' n no al e).
Proof.
  intros HS E. unfold ctx_consume_if. cbn [lex cx]. rewrite lx_char by assumption. unfold scan_flag in E.
  destruct r as [|c r]; [injection E as <- <-; reflexivity|]. destruct (c =? ch); injection E as <- <-; reflexivity.
Qed.
Lemma scan_flag_suffix r ch b r' : suffix v r -> scan_flag ch r = (b, r') -> suffix v r'.
Proof. intros HS E. apply scan_flag_sound in E. destruct E as [-> _]. now apply suffix_app in HS. Qed.
Lemma scan_one_suffix r set o r' : suffix v r -> scan_one set r = (o, r') -> suffix v r'.
Proof. intros HS E. apply scan_one_sound in E. destruct E as [-> _]. now apply suffix_app in HS. Qed.
Lemma scan_fill_suffix r o r' : suffix v r -> scan_fill r = (o, r') -> suffix v r'.
Proof. intros HS E. apply scan_fill_sound in E. destruct E as [-> _]. now apply suffix_app in HS. Qed.
Lemma scan_width_suffix r o r' : suffix v r -> scan_width r = Some (o, r') -> suffix v r'.
Proof. intros HS E. apply scan_width_sound in E. destruct E as [-> _]. now apply suffix_app in HS. Qed.
Lemma scan_precision_suffix r o r' : suffix v r -> scan_precision r = Some (o, r') -> suffix v r'.
Proof. intros HS E. apply scan_precision_sound in E. destruct E as [-> _]. now apply suffix_app in HS. Qed.

(** * Exact stages *)
Definition upd {A} (o : option A) (f : A -> specifier -> specifier) (s : specifier) : specifier := match o with Some a => f a s | None => s end.
Definition upd_fill := fun c s => set_fill s (Some c).
Definition upd_align := fun c s => set_alignment s (meaning_align (Some c)).
Definition upd_sign := fun c s => set_sign s (meaning_sign (Some c)).
Lemma choose3 r a b d o r' n no al e : suffix v r -> scan_one [a; b; d] r = (o, r') -> forall (s : specifier) (fa fb fd : specifier),
  (let! (x, c2) := ctx_consume_if (cx r n no al e) a in
   if x then Ok (c2, fa) else
   let! (y, c3) := ctx_consume_if c2 b in
   if y then Ok (c3, fb) else
   let! (z, c4) := ctx_consume_if c3 d in
   if z then Ok (c4, fd) else Ok (c4, s)) =
  Ok (cx r' n no al e, match o with Some c => if c =? a then fa else if c =? b then fb else fd | None => s end).
Proof.
  intros HS E s fa fb fd. destruct r as [|c r].
  - cbn [scan_one] in E. injection E as <- <-. rewrite (cx_flag [] a false []) by (assumption || reflexivity). cbn [bind].
    rewrite (cx_flag [] b false []) by (assumption || reflexivity). cbn [bind]. rewrite (cx_flag [] d false []) by (assumption || reflexivity). reflexivity.
  - unfold scan_one in E. cbn [existsb] in E.
    destruct (c =? a) eqn:EA; [|destruct (c =? b) eqn:EB; [|destruct (c =? d) eqn:ED]]; cbn [orb] in E; injection E as <- <-; rewrite ?EA, ?EB.
    + rewrite (cx_flag (c :: r) a true r); [reflexivity|assumption|]. cbn [scan_flag]. now rewrite EA.
    + rewrite (cx_flag (c :: r) a false (c :: r)); [|assumption|cbn [scan_flag]; now rewrite EA]. cbn [bind].
      rewrite (cx_flag (c :: r) b true r); [reflexivity|assumption|]. cbn [scan_flag]. now rewrite EB.
    + rewrite (cx_flag (c :: r) a false (c :: r)); [|assumption|cbn [scan_flag]; now rewrite EA]. cbn [bind].
      rewrite (cx_flag (c :: r) b false (c :: r)); [|assumption|cbn [scan_flag]; now rewrite EB]. cbn [bind].
      rewrite (cx_flag (c :: r) d true r); [reflexivity|assumption|]. cbn [scan_flag]. now rewrite ED.
    + rewrite (cx_flag (c :: r) a false (c :: r)); [|assumption|cbn [scan_flag]; now rewrite EA]. cbn [bind].
      rewrite (cx_flag (c :: r) b false (c :: r)); [|assumption|cbn [scan_flag]; now rewrite EB]. cbn [bind].
      rewrite (cx_flag (c :: r) d false (c :: r)); [|assumption|cbn [scan_flag]; now rewrite ED]. reflexivity.
Qed.
Lemma fill_stage r fill r1 align r2 n no al e s : suffix v r -> scan_fill r = (fill, r1) -> scan_one [60; 62; 94] r1 = (align, r2) ->
  parse_fill_and_alignment (cx r n no al e) s = Ok (cx r2 n no al e, upd align upd_align (upd fill upd_fill s)).
Proof.
  intros HS E1 E2. assert (HS1 : suffix v r1) by (eapply scan_fill_suffix; eassumption). unfold parse_fill_and_alignment. cbn [lex cx]. rewrite lx_peek1 by assumption. cbn [bind].
  assert (K : (let! (c1, s1) := (if match (match r with _ :: c :: _ => Some c | _ => None end) with Some n0 => (n0 =? 60) || (n0 =? 62) || (n0 =? 94) | None => false end then
       match consume (lx v r) with (Some ch, l) => Ok (with_lexer (cx r n no al e) l, set_fill s (Some ch)) | (None, _) => UB end else Ok (cx r n no al e, s)) in Ok (c1, s1)) =
     Ok (cx r1 n no al e, upd fill upd_fill s)).
  { unfold scan_fill in E1. destruct r as [|c0 [|c1 x]]; [injection E1 as <- <-; reflexivity|injection E1 as <- <-; reflexivity|].
    unfold is_align in E1. destruct ((c1 =? 60) || (c1 =? 62) || (c1 =? 94)); injection E1 as <- <-; [|reflexivity].
    rewrite lx_consume by assumption. reflexivity. }
  match type of K with (let! x := ?a in _) = _ => destruct a as [[c1 s1]|]; [|discriminate] end. cbn [bind] in K. assert (KI : c1 = cx r1 n no al e /\ s1 = upd fill upd_fill s) by (split; congruence).
  destruct KI as [-> ->]. cbn [bind]. rewrite (choose3 r1 60 62 94 align r2) by assumption. do 2 f_equal.
  destruct align as [c|]; [|reflexivity]. apply scan_one_sound in E2. destruct E2 as (_ & HI & _). cbn [opt_ok In] in HI. unfold upd, upd_align.
  decompose [or] HI; try contradiction; subst c; reflexivity.
Qed.
Lemma sign_stage r sign r' n no al e s : suffix v r -> scan_one [43; 45; 32] r = (sign, r') ->
  parse_sign (cx r n no al e) s = Ok (cx r' n no al e, upd sign upd_sign s).
Proof.
  intros HS E. unfold parse_sign. rewrite (choose3 r 43 45 32 sign r') by assumption. do 2 f_equal.
  destruct sign as [c|]; [|reflexivity]. apply scan_one_sound in E. destruct E as (_ & HI & _). cbn [opt_ok In] in HI. unfold upd, upd_sign.
  decompose [or] HI; try contradiction; subst c; reflexivity.
Qed.
Definition upd_flags (alt zero : bool) (s : specifier) : specifier :=
  let s1 := if alt then set_alternate s true else s in
  if zero && match m_alignment s1 with ADefault => true | _ => false end then set_zero s1 true else s1.
Lemma flags_stage r alt r1 zero r2 n no al e s : suffix v r -> scan_flag 35 r = (alt, r1) -> scan_flag 48 r1 = (zero, r2) ->
  parse_alternate_form_and_zero_padding (cx r n no al e) s = Ok (cx r2 n no al e, upd_flags alt zero s).
Proof.
  intros HS E1 E2. unfold parse_alternate_form_and_zero_padding. rewrite (cx_flag r 35 alt r1) by assumption. cbn [bind].
  rewrite (cx_flag r1 48 zero r2); [reflexivity| |assumption]. eapply scan_flag_suffix; eassumption.
Qed.
Definition none_after (no : bool) (p : option (list Z)) : bool := no || automatic p.
Definition all_after (al : bool) (p : option (list Z)) : bool := al || negb (automatic p).
Definition in_range (n : Z) : Prop := 0 <= n < 2 ^ 63.
Lemma next_position_exact r n no al e : suffix v r -> in_range n ->
  let p := digits_opt (fst (span digitb r)) in
  next_position (cx r n no al e) = Ok (position_of n p, cx (snd (span digitb r)) (n + count_auto [p]) (none_after no p) (all_after al p) (e || (all_after al p && none_after no p))).
Proof.
  intros HS HN p. unfold next_position. cbn [lex cx]. rewrite lx_number by assumption. cbn [bind]. unfold p. destruct (fst (span digitb r)) as [|d ds] eqn:E; cbn [nonempty_val digits_opt].
  - unfold none_after, all_after, count_auto, automatic. cbn [filter length m_next_position m_expect_no_positions m_expect_all_positions m_error cx position_of negb Z.of_nat].
    rewrite orb_true_r, orb_false_r. rewrite u64_small; [reflexivity|]. unfold in_range in HN. change (2 ^ 64) with (2 * 2 ^ 63). lia.
  - unfold none_after, all_after, count_auto, automatic. cbn [filter length m_next_position m_expect_no_positions m_expect_all_positions m_error cx position_of negb Z.of_nat].
    rewrite orb_true_r, orb_false_r, Z.add_0_r. reflexivity.
Qed.
Definition outside (n : Z) : bool := n >=? Z.of_nat (length params).
Lemma parameter_type_exact c n : parameter_type params c n = (arg_type params n, on_error_if (outside n) c).
Proof using params.
  clear HL.
  unfold parameter_type, arg_type, outside. rewrite Z.geb_leb. destruct (Z.leb_spec (Z.of_nat (length params)) n).
  - rewrite (proj2 (Z.ltb_ge _ _)) by lia. reflexivity.
  - rewrite (proj2 (Z.ltb_lt _ _)) by lia. f_equal. destruct c as [l k no al e]. unfold on_error_if. cbn. now rewrite orb_false_r.
Qed.
Definition ref_err (n : Z) (no al : bool) (p : option (list Z)) : bool := (all_after al p && none_after no p) || outside (position_of n p).
Lemma nested_stage r p r' n no al e : suffix v r -> in_range n -> scan_nested r = Some (p, r') ->
  parse_nested_specifier params (cx r n no al e) = Ok (Some (position_of n p), cx r' (n + count_auto [p]) (none_after no p) (all_after al p) (e || ref_err n no al p)).
Proof.
  intros HS HN E. unfold parse_nested_specifier. rewrite next_position_exact by assumption. cbn [bind]. rewrite parameter_type_exact.
  pose proof (span_suffix v r HS) as HS'. unfold scan_nested in E. destruct (snd (span digitb r)) as [|c x]; [discriminate|]. destruct (c =? 125) eqn:EC; [|discriminate].
  assert (EP : p = digits_opt (fst (span digitb r)) /\ r' = x) by (split; congruence). destruct EP as [EP ->]. rewrite <- EP. unfold on_error_if at 1. cbn [lex m_next_position m_expect_no_positions m_expect_all_positions m_error cx].
  fold (cx (c :: x) (n + count_auto [p]) (none_after no p) (all_after al p) ((e || all_after al p && none_after no p) || outside (position_of n p))).
  rewrite (cx_flag (c :: x) 125 true x); [|assumption|cbn [scan_flag]; now rewrite EC]. cbn [bind]. do 3 f_equal. unfold ref_err. now rewrite orb_assoc.
Qed.

(** Bad contexts: an error has been recorded. *)
Definition bad (c : pctx) : Prop := m_error c = true /\ exists r, suffix v r /\ lex c = lx v r.
Lemma bad_cx c : bad c -> exists r n no al, suffix v r /\ c = cx r n no al true.
Proof. intros [He (r & HS & El)]. destruct c as [l n no al e]. cbn in *. subst l e. exists r, n, no, al. auto. Qed.
Lemma cx_bad r n no al : suffix v r -> bad (cx r n no al true).
Proof. intros HS. split; [reflexivity|]. exists r. auto. Qed.
Definition keeps_bad (f : pctx -> specifier -> res (pctx * specifier)) : Prop := forall c s, bad c -> exists c' s', f c s = Ok (c', s') /\ bad c'.
Lemma flag_bad c ch : bad c -> exists b c', ctx_consume_if c ch = Ok (b, c') /\ bad c'.
Proof.
  intros HB. destruct (bad_cx c HB) as (r & n & no & al & HS & ->). destruct (scan_flag ch r) as [b r'] eqn:E. exists b, (cx r' n no al true).
  split; [now apply cx_flag|]. apply cx_bad. eapply scan_flag_suffix; eassumption.
Qed.
Lemma with_lexer_cx r r' n no al e : with_lexer (cx r n no al e) (lx v r') = cx r' n no al e.
Proof. reflexivity. Qed.
Lemma next_position_bad c : bad c -> exists p c', next_position c = Ok (p, c') /\ bad c'.
Proof.
  intros HB. destruct (bad_cx c HB) as (r & n & no & al & HS & ->). unfold next_position. cbn [lex cx]. rewrite lx_number by assumption. cbn [bind].
  pose proof (span_suffix v r HS) as HS'.
  destruct (nonempty_val (fst (span digitb r)) (val (fst (span digitb r)))); (eexists; eexists; split; [reflexivity|]; split; [reflexivity|eexists; split; [exact HS'|reflexivity]]).
Qed.
Lemma on_error_bad b c : bad c -> bad (on_error_if b c).
Proof. intros [He HR]. split; [cbn; now rewrite He|exact HR]. Qed.
Lemma on_error_bad' b c : b = true -> (exists r, suffix v r /\ lex c = lx v r) -> bad (on_error_if b c).
Proof. intros -> HR. split; [cbn; apply orb_true_r|exact HR]. Qed.
Lemma nested_bad c : bad c -> exists p c', parse_nested_specifier params c = Ok (p, c') /\ bad c'.
Proof.
  intros HB. unfold parse_nested_specifier. destruct (next_position_bad c HB) as (p & c1 & -> & HB1). cbn [bind]. rewrite parameter_type_exact.
  destruct (flag_bad (on_error_if (outside p) c1) 125 (on_error_bad _ _ HB1)) as (b & c2 & -> & HB2). cbn [bind]. destruct b; eexists; eexists; (split; [reflexivity|]); [exact HB2|now apply on_error_bad].
Qed.
Lemma nested_none r n no al e : suffix v r -> in_range n -> scan_nested r = None -> exists c', parse_nested_specifier params (cx r n no al e) = Ok (None, c') /\ bad c'.
Proof.
  intros HS HN E. unfold parse_nested_specifier. rewrite next_position_exact by assumption. cbn [bind]. rewrite parameter_type_exact.
  pose proof (span_suffix v r HS) as HS'. unfold scan_nested in E.
  match goal with |- context [on_error_if ?b (cx ?r0 ?n0 ?a ?b0 ?e0)] => change (on_error_if b (cx r0 n0 a b0 e0)) with (cx r0 n0 a b0 (e0 || b)) end.
  rewrite (cx_flag (snd (span digitb r)) 125 false (snd (span digitb r))); [|assumption|].
  - cbn [bind]. eexists. split; [reflexivity|]. apply on_error_bad'; [reflexivity|]. eexists. split; [exact HS'|reflexivity].
  - destruct (snd (span digitb r)) as [|c x]; [reflexivity|]. cbn [scan_flag]. destruct (c =? 125); [discriminate|reflexivity].
Qed.

(** Width and precision. *)
Definition refs_none (no : bool) (rs : list (option (list Z))) : bool := no || existsb automatic rs.
Definition refs_all (al : bool) (rs : list (option (list Z))) : bool := al || existsb (fun p => negb (automatic p)) rs.
Definition amount_err (n : Z) (no al : bool) (a : option amount) : bool := match a with Some (Nested p) => ref_err n no al p | _ => false end.
Definition after_amount (r' : list Z) (n : Z) (no al e : bool) (a : option amount) : pctx :=
  cx r' (n + count_auto (amount_refs a)) (refs_none no (amount_refs a)) (refs_all al (amount_refs a)) (e || amount_err n no al a).
Definition upd_width (n : Z) (a : option amount) (s : specifier) : specifier :=
  match a with Some (Number d) => set_width s (Some (val d)) (m_width_position s) | Some (Nested p) => set_width s (m_width s) (Some (position_of n p)) | None => s end.
Definition upd_precision (n : Z) (a : option amount) (s : specifier) : specifier :=
  match a with Some (Number d) => set_precision s (Some (val d)) (m_precision_position s) | Some (Nested p) => set_precision s (m_precision s) (Some (position_of n p)) | None => s end.
Lemma after_plain r' n no al e a : amount_refs a = [] -> after_amount r' n no al e a = cx r' n no al e.
Proof.
  intros E. unfold after_amount. rewrite E. unfold refs_none, refs_all, count_auto. cbn [existsb filter length Z.of_nat]. rewrite !orb_false_r, Z.add_0_r. f_equal.
  unfold amount_err. destruct a as [[d|p]|]; try discriminate; now rewrite orb_false_r.
Qed.
Lemma after_nested r' n no al e p : after_amount r' n no al e (Some (Nested p)) = cx r' (n + count_auto [p]) (none_after no p) (all_after al p) (e || ref_err n no al p).
Proof. unfold after_amount, refs_none, refs_all. cbn [amount_refs existsb amount_err]. now rewrite !orb_false_r. Qed.
Lemma width_stage r a r' n no al e s : suffix v r -> in_range n -> scan_width r = Some (a, r') ->
  parse_width params (cx r n no al e) s = Ok (after_amount r' n no al e a, upd_width n a s).
Proof.
  intros HS HN E. unfold parse_width. cbn [lex cx]. rewrite lx_number by assumption. cbn [bind]. rewrite with_lexer_cx. unfold scan_width in E.
  destruct (span_ok digitb r) as (ES & _). destruct (fst (span digitb r)) as [|d ds] eqn:EF; cbn [nonempty_val].
  - cbn [app] in ES. rewrite <- ES. destruct r as [|c x].
    + assert (EA : a = None /\ r' = []) by (split; congruence). destruct EA as [-> ->]. rewrite (cx_flag [] 123 false []) by (assumption || reflexivity). cbn [bind]. rewrite after_plain; reflexivity.
    + destruct (c =? 123) eqn:EC.
      * rewrite (cx_flag (c :: x) 123 true x); [|assumption|cbn [scan_flag]; now rewrite EC]. cbn [bind]. destruct (scan_nested x) as [[p y]|] eqn:EN; [|discriminate].
        assert (EA : a = Some (Nested p) /\ r' = y) by (split; congruence). destruct EA as [-> ->]. rewrite (nested_stage x p y) by (assumption || now apply suffix_tail in HS). cbn [bind].
        now rewrite after_nested.
      * rewrite (cx_flag (c :: x) 123 false (c :: x)); [|assumption|cbn [scan_flag]; now rewrite EC]. cbn [bind].
        assert (EA : a = None /\ r' = c :: x) by (split; congruence). destruct EA as [-> ->]. rewrite after_plain; reflexivity.
  - assert (EA : a = Some (Number (d :: ds)) /\ r' = snd (span digitb r)) by (split; congruence). destruct EA as [-> ->]. rewrite after_plain; reflexivity.
Qed.
Lemma width_none r n no al e s : suffix v r -> in_range n -> scan_width r = None -> exists c' s', parse_width params (cx r n no al e) s = Ok (c', s') /\ bad c'.
Proof.
  intros HS HN E. unfold parse_width. cbn [lex cx]. rewrite lx_number by assumption. cbn [bind]. rewrite with_lexer_cx. unfold scan_width in E.
  destruct (span_ok digitb r) as (ES & _). destruct (fst (span digitb r)) as [|d ds] eqn:EF; [|discriminate]. cbn [nonempty_val app] in *. rewrite <- ES.
  destruct r as [|c x]; [discriminate|]. destruct (c =? 123) eqn:EC; [|discriminate]. destruct (scan_nested x) as [[p y]|] eqn:EN; [discriminate|].
  rewrite (cx_flag (c :: x) 123 true x); [|assumption|cbn [scan_flag]; now rewrite EC]. cbn [bind].
  destruct (nested_none x n no al e) as (c' & -> & HB); [now apply suffix_tail in HS|assumption|assumption|]. cbn [bind]. eauto.
Qed.
Lemma precision_stage r a r' n no al e s : suffix v r -> in_range n -> scan_precision r = Some (a, r') ->
  parse_precision params (cx r n no al e) s = Ok (after_amount r' n no al e a, upd_precision n a s).
Proof.
  intros HS HN E. unfold parse_precision. unfold scan_precision in E. destruct r as [|c x].
  { assert (EA : a = None /\ r' = []) by (split; congruence). destruct EA as [-> ->]. rewrite (cx_flag [] 46 false []) by (assumption || reflexivity). cbn [bind]. rewrite after_plain; reflexivity. }
  destruct (c =? 46) eqn:EC.
  2:{ assert (EA : a = None /\ r' = c :: x) by (split; congruence). destruct EA as [-> ->]. rewrite (cx_flag (c :: x) 46 false (c :: x)); [|assumption|cbn [scan_flag]; now rewrite EC].
      cbn [bind]. rewrite after_plain; reflexivity. }
  rewrite (cx_flag (c :: x) 46 true x); [|assumption|cbn [scan_flag]; now rewrite EC]. cbn [bind lex cx]. apply suffix_tail in HS. rewrite lx_number by assumption. cbn [bind]. rewrite with_lexer_cx.
  destruct (scan_width x) as [[[b|] y]|] eqn:EW; try discriminate. assert (EA : a = Some b /\ r' = y) by (split; congruence). destruct EA as [-> ->]. clear E. unfold scan_width in EW.
  destruct (span_ok digitb x) as (ES & _). destruct (fst (span digitb x)) as [|d ds] eqn:EF; cbn [nonempty_val].
  - cbn [app] in ES. rewrite <- ES. destruct x as [|c1 x1]; [discriminate|]. destruct (c1 =? 123) eqn:EC1; [|discriminate].
    rewrite (cx_flag (c1 :: x1) 123 true x1); [|assumption|cbn [scan_flag]; now rewrite EC1]. cbn [bind]. destruct (scan_nested x1) as [[p z]|] eqn:EN; [|discriminate].
    assert (EA : b = Nested p /\ y = z) by (split; congruence). destruct EA as [-> ->]. rewrite (nested_stage x1 p z) by (assumption || now apply suffix_tail in HS). cbn [bind]. now rewrite after_nested.
  - assert (EA : b = Number (d :: ds) /\ y = snd (span digitb x)) by (split; congruence). destruct EA as [-> ->]. rewrite after_plain; reflexivity.
Qed.
Lemma precision_none r n no al e s : suffix v r -> in_range n -> scan_precision r = None -> exists c' s', parse_precision params (cx r n no al e) s = Ok (c', s') /\ bad c'.
Proof.
  intros HS HN E. unfold parse_precision. unfold scan_precision in E. destruct r as [|c x]; [discriminate|]. destruct (c =? 46) eqn:EC; [|discriminate].
  rewrite (cx_flag (c :: x) 46 true x); [|assumption|cbn [scan_flag]; now rewrite EC]. cbn [bind lex cx]. apply suffix_tail in HS. rewrite lx_number by assumption. cbn [bind]. rewrite with_lexer_cx.
  unfold scan_width in E. destruct (span_ok digitb x) as (ES & _). destruct (fst (span digitb x)) as [|d ds] eqn:EF; [|discriminate]. cbn [nonempty_val app] in *. rewrite <- ES.
  destruct x as [|c1 x1].
  { rewrite (cx_flag [] 123 false []) by (assumption || reflexivity). cbn [bind]. eexists. eexists. split; [reflexivity|]. apply on_error_bad'; [reflexivity|]. eexists. split; [exact HS|reflexivity]. }
  destruct (c1 =? 123) eqn:EC1.
  - rewrite (cx_flag (c1 :: x1) 123 true x1); [|assumption|cbn [scan_flag]; now rewrite EC1]. cbn [bind]. destruct (scan_nested x1) as [[p z]|] eqn:EN; [discriminate|].
    destruct (nested_none x1 n no al e) as (c' & -> & HB); [now apply suffix_tail in HS|assumption|assumption|]. cbn [bind]. eauto.
  - rewrite (cx_flag (c1 :: x1) 123 false (c1 :: x1)); [|assumption|cbn [scan_flag]; now rewrite EC1]. cbn [bind]. eexists. eexists. split; [reflexivity|].
    apply on_error_bad'; [reflexivity|]. eexists. split; [exact HS|reflexivity].
Qed.

(** Locale and type. *)
Definition upd_locale (b : bool) (s : specifier) : specifier := if b then set_locale s true else s.
Definition upd_type := fun c s => set_type s (letter_type c) (if upper c then CUpper else m_case s).
Lemma locale_stage r b r' n no al e s : suffix v r -> scan_flag 76 r = (b, r') -> parse_locale (cx r n no al e) s = Ok (cx r' n no al e, upd_locale b s).
Proof. intros HS E. unfold parse_locale. rewrite (cx_flag r 76 b r') by assumption. reflexivity. Qed.
Lemma type_of_letters c : type_of c = if existsb (Z.eqb c) type_letters then Some (letter_type c) else None.
Proof.
  unfold type_of. cbn [existsb type_letters].
  repeat match goal with |- context [c =? ?k] => destruct (Z.eqb_spec c k) as [->|]; [reflexivity|] end. reflexivity.
Qed.
Lemma type_stage r o r' n no al e s : suffix v r -> scan_one type_letters r = (o, r') -> parse_type (cx r n no al e) s = Ok (cx r' n no al e, upd o upd_type s).
Proof.
  intros HS E. unfold parse_type. cbn [lex cx]. rewrite lx_peek by assumption. cbn [bind]. unfold scan_one in E. destruct r as [|c x]; [injection E as <- <-; reflexivity|].
  rewrite type_of_letters. destruct (existsb (Z.eqb c) type_letters) eqn:EX; injection E as <- <-; [|reflexivity].
  rewrite lx_consume by assumption. rewrite with_lexer_cx. unfold upd, upd_type. do 3 f_equal.
Qed.

(** Bad contexts stay bad. *)
Lemma fill_bad : keeps_bad parse_fill_and_alignment.
Proof.
  intros c s HB. destruct (bad_cx c HB) as (r & n & no & al & HS & ->). destruct (scan_fill r) as [f r1] eqn:E1. destruct (scan_one [60; 62; 94] r1) as [a r2] eqn:E2.
  rewrite (fill_stage r f r1 a r2) by assumption. eexists. eexists. split; [reflexivity|]. apply cx_bad. eapply scan_one_suffix; [|exact E2]. eapply scan_fill_suffix; eassumption.
Qed.
Lemma width_bad : keeps_bad (parse_width params).
Proof.
  intros c s HB. destruct (bad_cx c HB) as (r & n & no & al & HS & ->). unfold parse_width. cbn [lex cx]. rewrite lx_number by assumption. cbn [bind]. rewrite with_lexer_cx.
  pose proof (cx_bad _ n no al (span_suffix v r HS)) as HB1. destruct (nonempty_val _ _); [eauto|].
  destruct (flag_bad _ 123 HB1) as (b & c2 & -> & HB2). cbn [bind]. destruct b; [|eauto]. destruct (nested_bad c2 HB2) as (p & c3 & -> & HB3). cbn [bind]. eauto.
Qed.
Lemma precision_bad : keeps_bad (parse_precision params).
Proof.
  intros c s HB. unfold parse_precision. destruct (flag_bad c 46 HB) as (b & c1 & -> & HB1). cbn [bind]. destruct b; [|eauto].
  destruct (bad_cx c1 HB1) as (r & n & no & al & HS & ->). cbn [lex cx]. rewrite lx_number by assumption. cbn [bind]. rewrite with_lexer_cx.
  pose proof (cx_bad _ n no al (span_suffix v r HS)) as HB2. destruct (nonempty_val _ _); [eauto|].
  destruct (flag_bad _ 123 HB2) as (b & c2 & -> & HB3). cbn [bind]. destruct b; [|eexists; eexists; split; [reflexivity|now apply on_error_bad]].
  destruct (nested_bad c2 HB3) as (p & c3 & -> & HB4). cbn [bind]. eauto.
Qed.
Lemma locale_bad : keeps_bad parse_locale.
Proof. intros c s HB. unfold parse_locale. destruct (flag_bad c 76 HB) as (b & c1 & -> & HB1). cbn [bind]. eauto. Qed.
Lemma type_bad : keeps_bad parse_type.
Proof.
  intros c s HB. destruct (bad_cx c HB) as (r & n & no & al & HS & ->). destruct (scan_one type_letters r) as [o r'] eqn:E. rewrite (type_stage r o r') by assumption.
  eexists. eexists. split; [reflexivity|]. apply cx_bad. eapply scan_one_suffix; eassumption.
Qed.

(** * Validation *)
Definition width_verr (s : specifier) : bool :=
  match m_width s, m_width_position s with
  | Some 0, _ => true
  | _, Some w => outside w || negb (is_integral (arg_type params w))
  | _, None => false
  end.
Definition precision_verr (p : option ptype) (s : specifier) : bool :=
  match m_precision s, m_precision_position s with
  | None, None => false
  | _, position =>
      match p with
      | Some PString | Some PFloatingPoint => match position with Some w => outside w || negb (is_integral (arg_type params w)) | None => false end
      | _ => true
      end
  end.
Definition verr (s : specifier) : bool :=
  let p := arg_type params (m_position s) in
  outside (m_position s) ||
  match m_fill s with Some f => (f =? 123) || (f =? 125) || (wrap bits f >=? 128) | None => false end ||
  match m_sign s with SDefault => false | _ => negb (is_numeric (m_type s)) end ||
  (m_alternate_form s && (negb (is_numeric (m_type s)) || match m_type s with TDecimal => true | _ => false end)) ||
  (m_zero_padding s && negb (is_numeric (m_type s))) || width_verr s || precision_verr p s ||
  (m_locale_specific_form s && match p with Some PIntegral | Some PFloatingPoint | Some PBoolean => false | _ => true end) ||
  match p, m_type s with Some _, TNone | None, _ => false | Some q, t => type_error q t end.
Lemma on_error_twice a b c : on_error_if a (on_error_if b c) = on_error_if (b || a) c.
Proof. destruct c. unfold on_error_if. cbn. now rewrite orb_assoc. Qed.
Lemma on_error_false c : on_error_if false c = c.
Proof. destruct c. unfold on_error_if. cbn. now rewrite orb_false_r. Qed.
Lemma width_validate s c :
  match m_width s, m_width_position s with
  | Some 0, _ => on_error_if true c
  | _, Some w => let '(q, c4') := parameter_type params c w in on_error_if (negb (is_integral q)) c4'
  | _, None => c
  end = on_error_if (width_verr s) c.
Proof.
  unfold width_verr. destruct (m_width s) as [w|]; [destruct w|]; destruct (m_width_position s) as [q|]; rewrite ?parameter_type_exact, ?on_error_twice, ?on_error_false; reflexivity.
Qed.
Lemma precision_validate p s c :
  match m_precision s, m_precision_position s with
  | None, None => c
  | _, position =>
      match p with
      | Some PString | Some PFloatingPoint =>
          match position with
          | Some w => let '(q, c5') := parameter_type params c w in on_error_if (negb (is_integral q)) c5'
          | None => c
          end
      | _ => on_error_if true c
      end
  end = on_error_if (precision_verr p s) c.
Proof.
  unfold precision_verr. destruct (m_precision s); destruct (m_precision_position s) as [q|]; try (now rewrite on_error_false);
    destruct p as [[]|]; rewrite ?parameter_type_exact, ?on_error_twice, ?on_error_false; reflexivity.
Qed.
Lemma validate_exact c s : validate bits params c s = on_error_if (verr s) c.
Proof.
  unfold validate, verr. rewrite parameter_type_exact. cbn zeta. set (p := arg_type params (m_position s)).
  pose proof (fun c => precision_validate p s c) as P. cbv zeta in P. rewrite width_validate, P, !on_error_twice. clear P. destruct p as [p|].
  - destruct (m_type s); rewrite ?on_error_twice, ?orb_false_r, ?orb_assoc; reflexivity.
  - now rewrite ?orb_false_r, ?orb_assoc.
Qed.

(** * All options *)
Definition upd_options (n : Z) (o : options) (s : specifier) : specifier :=
  upd (o_type o) upd_type (upd_locale (o_locale o) (upd_precision (n + count_auto (amount_refs (o_width o))) (o_precision o) (upd_width n (o_width o)
    (upd_flags (o_alternate o) (o_zero o) (upd (o_sign o) upd_sign (upd (o_align o) upd_align (upd (o_fill o) upd_fill s))))))).
Definition options_refs (o : options) : list (option (list Z)) := amount_refs (o_width o) ++ amount_refs (o_precision o).
Definition options_err (n : Z) (no al : bool) (o : options) : bool :=
  amount_err n no al (o_width o) ||
  amount_err (n + count_auto (amount_refs (o_width o))) (refs_none no (amount_refs (o_width o))) (refs_all al (amount_refs (o_width o))) (o_precision o).
Lemma count_auto_app a b : count_auto (a ++ b) = count_auto a + count_auto b.
Proof using. unfold count_auto. rewrite filter_app, app_length. apply Nat2Z.inj_add. Qed.
Lemma refs_none_app no a b : refs_none no (a ++ b) = refs_none (refs_none no a) b.
Proof. unfold refs_none. now rewrite existsb_app, orb_assoc. Qed.
Lemma refs_all_app no a b : refs_all no (a ++ b) = refs_all (refs_all no a) b.
Proof. unfold refs_all. now rewrite existsb_app, orb_assoc. Qed.
Lemma count_auto_amount a : 0 <= count_auto (amount_refs a) <= 1.
Proof using. clear. destruct a as [[d|[p|]]|]; unfold count_auto; cbn [amount_refs filter automatic length]; lia. Qed.

Definition after_options (r : list Z) (n : Z) (no al e : bool) (o : options) : pctx :=
  cx r (n + count_auto (options_refs o)) (refs_none no (options_refs o)) (refs_all al (options_refs o)) (e || options_err n no al o).
Lemma options_some r o r' n no al e s : suffix v r -> 0 <= n -> n + 1 < 2 ^ 63 -> scan_options r = Some (o, r') ->
  exists c', parse_options bits params (cx r n no al e) s = Ok (c', upd_options n o s) /\ suffix v r' /\
  (if e || options_err n no al o || verr (upd_options n o s) then bad c'
   else if fst (scan_flag 125 r') then c' = on_error_if (verr (upd_options n o s)) (after_options (snd (scan_flag 125 r')) n no al e o) else bad c').
Proof.
  intros HS HN HN1. unfold scan_options. destruct (scan_fill r) as [fill s1] eqn:E1. destruct (scan_one [60; 62; 94] s1) as [align s2] eqn:E2.
  destruct (scan_one [43; 45; 32] s2) as [sign s3] eqn:E3. destruct (scan_flag 35 s3) as [alt s4] eqn:E4. destruct (scan_flag 48 s4) as [zero s5] eqn:E5.
  destruct (scan_width s5) as [[width s6]|] eqn:E6; [|discriminate]. destruct (scan_precision s6) as [[precision s7]|] eqn:E7; [|discriminate].
  destruct (scan_flag 76 s7) as [locale s8] eqn:E8. destruct (scan_one type_letters s8) as [type s9] eqn:E9. intros H.
  assert (EO : o = Options fill align sign alt zero width precision locale type /\ r' = s9) by (split; congruence). destruct EO as [-> ->]. clear H.
  assert (S1 : suffix v s1) by (eapply scan_fill_suffix; eassumption). assert (S2 : suffix v s2) by (eapply scan_one_suffix; eassumption). assert (S3 : suffix v s3) by (eapply scan_one_suffix; eassumption).
  assert (S4 : suffix v s4) by (eapply scan_flag_suffix; eassumption). assert (S5 : suffix v s5) by (eapply scan_flag_suffix; eassumption). assert (S6 : suffix v s6) by (eapply scan_width_suffix; eassumption).
  assert (S7 : suffix v s7) by (eapply scan_precision_suffix; eassumption). assert (S8 : suffix v s8) by (eapply scan_flag_suffix; eassumption). assert (S9 : suffix v s9) by (eapply scan_one_suffix; eassumption).
  pose proof (count_auto_amount width) as HC.
  unfold parse_options. rewrite (fill_stage r fill s1 align s2) by assumption. cbn [bind]. rewrite (sign_stage s2 sign s3) by assumption. cbn [bind].
  rewrite (flags_stage s3 alt s4 zero s5) by assumption. cbn [bind]. rewrite (width_stage s5 width s6) by (assumption || (unfold in_range; lia)). cbn [bind]. unfold after_amount at 1.
  rewrite (precision_stage s6 precision s7) by (assumption || (unfold in_range; lia)). cbn [bind]. unfold after_amount at 1. rewrite (locale_stage s7 locale s8) by assumption. cbn [bind].
  rewrite (type_stage s8 type s9) by assumption. cbn [bind]. rewrite validate_exact.
  unfold upd_options, after_options, options_refs, options_err. cbn [o_fill o_align o_sign o_alternate o_zero o_width o_precision o_locale o_type].
  rewrite count_auto_app, refs_none_app, refs_all_app.
  set (sp := upd type upd_type _). set (n1 := n + count_auto (amount_refs width)) in *. set (no1 := refs_none no (amount_refs width)). set (al1 := refs_all al (amount_refs width)).
  rewrite <- orb_assoc. set (e7 := e || (amount_err n no al width || amount_err n1 no1 al1 precision)). cbn [on_error_if m_error cx]. 
  rewrite Z.add_assoc. fold n1.
  destruct (e7 || verr sp) eqn:EB.
  { exists (on_error_if (verr sp) (cx s9 (n1 + count_auto (amount_refs precision)) (refs_none no1 (amount_refs precision)) (refs_all al1 (amount_refs precision)) e7)).
    split; [unfold on_error_if; cbn [cx m_error]; rewrite !EB; reflexivity|]. split; [exact S9|]. split; [exact EB|]. exists s9. auto. }
  apply orb_false_iff in EB. destruct EB as [EB1 EB2]. rewrite EB2, on_error_false.
  destruct (scan_flag 125 s9) as [b r2] eqn:EF. rewrite (cx_flag s9 125 b r2) by assumption. cbn [bind fst snd]. cbn [m_error cx]. rewrite EB1.
  eexists. split; [reflexivity|]. split; [exact S9|]. destruct b; cbn [negb].
  - rewrite !on_error_false. reflexivity.
  - apply on_error_bad'; [reflexivity|]. eexists. split; [|reflexivity]. eapply scan_flag_suffix; eassumption.
Qed.
Lemma tail_bad c s : bad c -> exists c' s', (let! (c6, s6) := parse_locale c s in let! (c7, s7) := parse_type c6 s6 in
   let c8 := validate bits params c7 s7 in if m_error c8 then Ok (c8, s7) else let! (closed, c9) := ctx_consume_if c8 125 in Ok (on_error_if (negb closed) c9, s7)) = Ok (c', s') /\ bad c'.
Proof.
  intros HB. destruct (locale_bad c s HB) as (c1 & s1 & -> & HB1). cbn [bind]. destruct (type_bad c1 s1 HB1) as (c2 & s2 & -> & HB2). cbn [bind]. rewrite validate_exact.
  pose proof (on_error_bad (verr s2) c2 HB2) as HB3. cbn zeta. rewrite (proj1 HB3). eauto.
Qed.
Lemma options_none r n no al e s : suffix v r -> 0 <= n -> n + 1 < 2 ^ 63 -> scan_options r = None ->
  exists c' s', parse_options bits params (cx r n no al e) s = Ok (c', s') /\ bad c'.
Proof.
  intros HS HN HN1. unfold scan_options. destruct (scan_fill r) as [fill s1] eqn:E1. destruct (scan_one [60; 62; 94] s1) as [align s2] eqn:E2.
  destruct (scan_one [43; 45; 32] s2) as [sign s3] eqn:E3. destruct (scan_flag 35 s3) as [alt s4] eqn:E4. destruct (scan_flag 48 s4) as [zero s5] eqn:E5.
  assert (S1 : suffix v s1) by (eapply scan_fill_suffix; eassumption). assert (S2 : suffix v s2) by (eapply scan_one_suffix; eassumption). assert (S3 : suffix v s3) by (eapply scan_one_suffix; eassumption).
  assert (S4 : suffix v s4) by (eapply scan_flag_suffix; eassumption). assert (S5 : suffix v s5) by (eapply scan_flag_suffix; eassumption). intros H.
  unfold parse_options. rewrite (fill_stage r fill s1 align s2) by assumption. cbn [bind]. rewrite (sign_stage s2 sign s3) by assumption. cbn [bind].
  rewrite (flags_stage s3 alt s4 zero s5) by assumption. cbn [bind].
  destruct (scan_width s5) as [[width s6]|] eqn:E6.
  - assert (S6 : suffix v s6) by (eapply scan_width_suffix; eassumption). rewrite (width_stage s5 width s6) by (assumption || (unfold in_range; lia)). cbn [bind]. unfold after_amount at 1.
    destruct (scan_precision s6) as [[precision s7]|] eqn:E7; [destruct (scan_flag 76 s7); destruct (scan_one type_letters l); discriminate|].
    pose proof (count_auto_amount width) as HC.
    match goal with |- context [parse_precision params (cx s6 ?n0 ?a ?b ?c) ?s0] => destruct (precision_none s6 n0 a b c s0 S6 ltac:(unfold in_range; lia) E7) as (c' & s' & -> & HB) end.
    cbn [bind]. apply tail_bad. exact HB.
  - match goal with |- context [parse_width params (cx s5 ?n0 ?a ?b ?c) ?s0] => destruct (width_none s5 n0 a b c s0 S5 ltac:(unfold in_range; lia) E6) as (c' & s' & -> & HB) end.
    cbn [bind]. destruct (precision_bad c' s' HB) as (c2 & s2' & -> & HB2). cbn [bind]. apply tail_bad. exact HB2.
Qed.
Lemma sign_bad : keeps_bad parse_sign.
Proof.
  intros c s HB. destruct (bad_cx c HB) as (r & n & no & al & HS & ->). destruct (scan_one [43; 45; 32] r) as [o r'] eqn:E. rewrite (sign_stage r o r') by assumption.
  eexists. eexists. split; [reflexivity|]. apply cx_bad. eapply scan_one_suffix; eassumption.
Qed.
Lemma flags_bad : keeps_bad parse_alternate_form_and_zero_padding.
Proof.
  intros c s HB. destruct (bad_cx c HB) as (r & n & no & al & HS & ->). destruct (scan_flag 35 r) as [a r1] eqn:E1. destruct (scan_flag 48 r1) as [z r2] eqn:E2.
  rewrite (flags_stage r a r1 z r2) by assumption. eexists. eexists. split; [reflexivity|]. apply cx_bad. eapply scan_flag_suffix; [|exact E2]. eapply scan_flag_suffix; eassumption.
Qed.
Lemma options_bad : keeps_bad (parse_options bits params).
Proof.
  intros c s HB. unfold parse_options. destruct (fill_bad c s HB) as (c1 & s1 & -> & H1). cbn [bind]. destruct (sign_bad c1 s1 H1) as (c2 & s2 & -> & H2). cbn [bind].
  destruct (flags_bad c2 s2 H2) as (c3 & s3 & -> & H3). cbn [bind]. destruct (width_bad c3 s3 H3) as (c4 & s4 & -> & H4). cbn [bind].
  destruct (precision_bad c4 s4 H4) as (c5 & s5 & -> & H5). cbn [bind]. now apply tail_bad.
Qed.
End Stages.
