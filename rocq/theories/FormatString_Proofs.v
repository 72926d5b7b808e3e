(** Proofs for C40. *)
From Verif Require Import Common Bits Lexer_Model Lexer_Spec Lexer_Props Format_Model FormatString_Model FormatString_Spec.
Definition nonempty_val {A} (pre : list A) (v : Z) : option Z := match pre with [] => None | _ => Some v end.

(** * The lexer over a text [v] with [r] remaining *)
Definition suffix (v r : list Z) : Prop := exists p, v = p ++ r.
Definition lx (v r : list Z) : lexer := Lexer v (Z.of_nat (length v) - Z.of_nat (length r)).
Lemma suffix_tail v c r : suffix v (c :: r) -> suffix v r.
Proof. intros [p ->]. exists (p ++ [c]). now rewrite <- app_assoc. Qed.
Lemma suffix_app v a r : suffix v (a ++ r) -> suffix v r.
Proof. intros [p ->]. exists (p ++ a). now rewrite <- app_assoc. Qed.
Lemma suffix_len v r : suffix v r -> (length r <= length v)%nat.
Proof. intros [p ->]. rewrite app_length. lia. Qed.

Section Lex.
Variable v : list Z.
Hypothesis HL : Z.of_nat (length v) < 2 ^ 63.

Lemma lx_ok r : suffix v r -> lexer_ok (lx v r) /\ remaining (lx v r) = r.
Proof.
  intros HS. pose proof (suffix_len v r HS). split.
  - unfold lexer_ok, lx, size. cbn [view index]. lia.
  - unfold remaining, lx. cbn [view index]. destruct HS as [p ->]. rewrite app_length. replace (Z.to_nat (Z.of_nat (length p + length r) - Z.of_nat (length r))) with (length p) by lia.
    rewrite skipn_app, skipn_all2, Nat.sub_diag by lia. reflexivity.
Qed.
Lemma lx_eq l r : suffix v r -> lexer_ok l -> view l = v -> remaining l = r -> l = lx v r.
Proof.
  intros HS [H1 H2] EV ER. destruct l as [w i]. cbn [view index] in *. subst w. unfold lx. f_equal. unfold remaining in ER. cbn [view index] in ER.
  unfold size in H2. cbn [view index] in H2. rewrite <- ER, skipn_length. lia.
Qed.
Lemma lx_next c r : suffix v (c :: r) -> Lexer v (u64 (index (lx v (c :: r)) + 1)) = lx v r.
Proof.
  intros HS. destruct (lx_ok _ HS) as [HO HR]. destruct (remaining_next _ c r HO HR) as (_ & HO' & HR' & _).
  apply (lx_eq _ r); [now apply suffix_tail in HS|exact HO'|reflexivity|exact HR'].
Qed.
Lemma lx_consume r : suffix v r -> consume (lx v r) = match r with c :: r' => (Some c, lx v r') | [] => (None, lx v []) end.
Proof.
  intros HS. destruct (lx_ok r HS) as [HO HR]. destruct r as [|c r].
  - unfold consume. unfold lx at 1 2, size. cbn [view index length]. rewrite Z.geb_leb. destruct (Z.leb_spec (Z.of_nat (length v)) (Z.of_nat (length v) - Z.of_nat 0)); [reflexivity|lia].
  - destruct (remaining_next _ c r HO HR) as (E & _). rewrite E. f_equal. now apply lx_next.
Qed.
Lemma lx_peek r : suffix v r -> peek (lx v r) 0 = Ok (match r with c :: _ => Some c | [] => None end).
Proof. intros HS. destruct (lx_ok r HS) as [HO HR]. rewrite peek_here by assumption. now rewrite HR. Qed.
Lemma lx_peek1 r : suffix v r -> peek (lx v r) 1 = Ok (match r with _ :: c :: _ => Some c | _ => None end).
Proof.
  intros HS. destruct (lx_ok r HS) as [HO HR]. pose proof HO as [_ HI]. rewrite peek_exact; [|assumption|lia|].
  2:{ unfold size in HI. change (2 ^ 64) with (2 * 2 ^ 63). cbn [view lx] in HI. lia. }
  destruct HS as [p EV]. unfold lx. cbn [view index]. rewrite EV, app_length.
  replace (Z.to_nat (Z.of_nat (length p + length r) - Z.of_nat (length r) + 1)) with (length p + 1)%nat by lia.
  rewrite nth_error_app2 by lia. replace (length p + 1 - length p)%nat with 1%nat by lia. destruct r as [|c [|d r]]; reflexivity.
Qed.
Lemma lx_char r ch : suffix v r -> consume_if_char (lx v r) ch =
  Ok (match r with c :: r' => if c =? ch then (true, lx v r') else (false, lx v r) | [] => (false, lx v []) end).
Proof.
  intros HS. unfold consume_if_char. rewrite lx_peek by assumption. cbn [bind]. destruct r as [|c r]; [reflexivity|].
  destruct (c =? ch); [|reflexivity]. do 2 f_equal. now apply lx_next.
Qed.
Definition digitb (c : Z) : bool := is_digit c.
Lemma digitb_iff c : digitb c = true <-> digit_char c.
Proof. apply digit_iff. Qed.
Lemma span_digits_run r : is_run digit_char r (fst (span digitb r)) (snd (span digitb r)).
Proof.
  destruct (span_ok digitb r) as (E & F & H). split; [exact E|]. split.
  - apply Forall_forall. intros c Hc. rewrite forallb_forall in F. apply digitb_iff. auto.
  - destruct (snd (span digitb r)) as [|c x]; [exact I|]. intros HD. apply digitb_iff in HD. congruence.
Qed.
Lemma run_unique P s p r p' r' : is_run P s p r -> is_run P s p' r' -> p = p' /\ r = r'.
Proof.
  intros (-> & F & H) (E & F' & H'). revert p' E F'. induction F as [|c p Hc F IH]; intros p' E F'.
  - destruct p' as [|c' p']; [auto|]. cbn [app] in E. subst r. inversion F'; subst. contradiction.
  - destruct p' as [|c' p'].
    + cbn [app] in E. subst r'. contradiction.
    + cbn [app] in E. injection E as <- E. inversion F'; subst. destruct (IH p' E ltac:(assumption)) as [-> ->]. auto.
Qed.
Lemma span_suffix r : suffix v r -> suffix v (snd (span digitb r)).
Proof. intros HS. destruct (span_ok digitb r) as (E & _). rewrite E in HS. now apply suffix_app in HS. Qed.
Definition val (d : list Z) : Z := number 10 d mod 2 ^ 64.
Lemma lx_number r : suffix v r -> consume_number (lx v r) = Ok (nonempty_val (fst (span digitb r)) (val (fst (span digitb r))), lx v (snd (span digitb r))).
Proof.
  intros HS. destruct (lx_ok r HS) as [HO HR]. unfold consume_number. rewrite number_gloop.
  destruct (gloop_span is_digit (fun number c => u64 (u64 (number * 10) + u64 (c - 48))) (S (length (view (lx v r)))) (lx v r) false 0 HO) as (l' & E & HO' & HV & HRem & _).
  { unfold remaining. rewrite skipn_length. lia. }
  rewrite HR in E, HRem. change is_digit with digitb in *. pose proof (span_digits_run r) as (_ & HD & _). pose proof (span_suffix r HS) as HS'.
  assert (EV : fold_left (fun number c => u64 (u64 (number * 10) + u64 (c - 48))) (fst (span digitb r)) 0 = val (fst (span digitb r))).
  { unfold val, number. change 0 with (u64 0) at 1. rewrite (fold_ext_in _ (fun n c => u64 (u64 (n * 10) + digit_value c))); [rewrite fold_wrap; reflexivity|].
    intros n c Hc. rewrite Forall_forall in HD. specialize (HD c Hc). unfold digit_char, ascii_digit in HD.
    unfold digit_value. destruct (Z.leb_spec c 57); [|lia]. unfold u64, wrap. now rewrite Zplus_mod_idemp_r. }
  rewrite E, EV. cbn [orb]. f_equal. f_equal; [|apply lx_eq; assumption]. destruct (fst (span digitb r)); reflexivity.
Qed.

End Lex.

(** * Scanner: the syntactic part of the parser, on lists *)
Definition is_align (c : Z) : bool := (c =? 60) || (c =? 62) || (c =? 94).
Definition scan_fill (s : list Z) : option Z * list Z :=
  match s with c0 :: (c1 :: _) as tl => if is_align c1 then (Some c0, tl) else (None, s) | _ => (None, s) end.
Definition scan_one (set : list Z) (s : list Z) : option Z * list Z :=
  match s with c :: r => if existsb (Z.eqb c) set then (Some c, r) else (None, s) | [] => (None, []) end.
Definition scan_flag (ch : Z) (s : list Z) : bool * list Z :=
  match s with c :: r => if c =? ch then (true, r) else (false, s) | [] => (false, []) end.
Definition digits_opt (d : list Z) : option (list Z) := match d with [] => None | _ => Some d end.
Definition scan_nested (s : list Z) : option (option (list Z) * list Z) :=
  match snd (span digitb s) with
  | c :: r => if c =? 125 then Some (digits_opt (fst (span digitb s)), r) else None
  | [] => None
  end.
Definition scan_width (s : list Z) : option (option amount * list Z) :=
  match fst (span digitb s) with
  | (_ :: _) as d => Some (Some (Number d), snd (span digitb s))
  | [] =>
      match s with
      | c :: r =>
          if c =? 123 then match scan_nested r with Some (p, r') => Some (Some (Nested p), r') | None => None end
          else Some (None, s)
      | [] => Some (None, [])
      end
  end.
Definition scan_precision (s : list Z) : option (option amount * list Z) :=
  match s with
  | c :: r => if c =? 46 then match scan_width r with Some (Some a, r') => Some (Some a, r') | _ => None end else Some (None, s)
  | [] => Some (None, [])
  end.
Definition scan_options (s : list Z) : option (options * list Z) :=
  let (fill, s1) := scan_fill s in
  let (align, s2) := scan_one [60; 62; 94] s1 in
  let (sign, s3) := scan_one [43; 45; 32] s2 in
  let (alt, s4) := scan_flag 35 s3 in
  let (zero, s5) := scan_flag 48 s4 in
  match scan_width s5 with
  | None => None
  | Some (width, s6) =>
      match scan_precision s6 with
      | None => None
      | Some (precision, s7) =>
          let (locale, s8) := scan_flag 76 s7 in
          let (type, s9) := scan_one type_letters s8 in
          Some (Options fill align sign alt zero width precision locale type, s9)
      end
  end.

(** Soundness of the scanner. *)
Lemma scan_fill_sound s f r : scan_fill s = (f, r) -> s = opt f (fun c => [c]) ++ r /\ (f <> None -> exists c x, r = c :: x /\ is_align c = true) /\
  (f = None -> match s with _ :: c :: _ => is_align c = false | _ => True end).
Proof.
  unfold scan_fill. destruct s as [|c0 [|c1 x]]; try (intros E; injection E as <- <-; split; [reflexivity|split; [congruence|auto]]).
  destruct (is_align c1) eqn:EA; intros E; injection E as <- <-; (split; [reflexivity|split; [|auto]]); [intros _; eauto|congruence|congruence].
Qed.
Lemma scan_one_sound set s f r : scan_one set s = (f, r) -> s = opt f (fun c => [c]) ++ r /\ opt_ok (fun c => In c set) f /\
  (f = None -> match r with c :: _ => ~ In c set | [] => True end).
Proof.
  unfold scan_one. destruct s as [|c x]; [intros E; injection E as <- <-; cbn; auto|].
  destruct (existsb (Z.eqb c) set) eqn:EX; intros E; injection E as <- <-; (split; [reflexivity|]).
  - apply existsb_exists in EX. destruct EX as (y & Hy & E). apply Z.eqb_eq in E. subst y. split; [exact Hy|discriminate].
  - split; [exact I|]. intros _ HI. assert (X : existsb (Z.eqb c) set = true) by (apply existsb_exists; exists c; split; [exact HI|apply Z.eqb_refl]). congruence.
Qed.
Lemma scan_flag_sound ch s b r : scan_flag ch s = (b, r) -> s = (if b then [ch] else []) ++ r /\ (b = false -> match r with c :: _ => c <> ch | [] => True end).
Proof.
  unfold scan_flag. destruct s as [|c x]; [intros E; injection E as <- <-; cbn; auto|].
  destruct (Z.eqb_spec c ch) as [->|Hc]; intros E; injection E as <- <-; (split; [reflexivity|auto]). discriminate.
Qed.
Lemma span_digits_ok s : fst (span digitb s) <> [] -> digits_ok (fst (span digitb s)).
Proof. intros H. split; [exact H|]. apply span_digits_run. Qed.
Lemma scan_nested_sound s p r : scan_nested s = Some (p, r) -> s = opt p (fun d => d) ++ [125] ++ r /\ opt_ok digits_ok p.
Proof.
  unfold scan_nested. destruct (span_ok digitb s) as (E & _). pose proof (span_digits_ok s) as HD.
  destruct (snd (span digitb s)) as [|c x]; [discriminate|]. destruct (Z.eqb_spec c 125) as [->|]; [|discriminate]. intros H. injection H as <- <-.
  split; [rewrite E at 1; destruct (fst (span digitb s)); reflexivity|]. destruct (fst (span digitb s)) as [|d ds]; [exact I|]. apply HD. discriminate.
Qed.
Lemma scan_width_sound s a r : scan_width s = Some (a, r) -> s = opt a amount_text ++ r /\ opt_ok amount_ok a /\
  (match s with c :: _ => c <> 48 | [] => True end -> opt_ok (fun a => match a with Number d => hd 0 d <> 48 | _ => True end) a) /\
  (a = None -> match r with c :: _ => ~ digit_char c /\ c <> 123 | [] => True end).
Proof.
  unfold scan_width. destruct (span_ok digitb s) as (E & _). pose proof (span_digits_ok s) as HD. pose proof (span_digits_run s) as HRun.
  destruct (fst (span digitb s)) as [|d ds] eqn:EF.
  - destruct s as [|c x]; [intros H; injection H as <- <-; cbn; auto|].
    assert (HN : ~ digit_char c). { destruct HRun as (ES & _ & HN). cbn [app] in ES. rewrite <- ES in HN. exact HN. }
    destruct (Z.eqb_spec c 123) as [->|Hc].
    + destruct (scan_nested x) as [[p r']|] eqn:EN; [|discriminate]. intros H. injection H as <- <-. apply scan_nested_sound in EN. destruct EN as [-> HP].
      cbn [opt amount_text opt_ok amount_ok]. split; [cbn [app]; now rewrite <- app_assoc|]. split; [exact HP|]. split; [auto|discriminate].
    + intros H. injection H as <- <-. cbn. auto.
  - intros H. assert (EA : a = Some (Number (d :: ds)) /\ r = snd (span digitb s)) by (split; congruence). destruct EA as [-> ->]. clear H. cbn [opt amount_text opt_ok amount_ok]. split; [exact E|]. split; [apply HD; discriminate|]. split; [|discriminate].
    rewrite E. cbn [app hd]. auto.
Qed.
Lemma scan_precision_sound s a r : scan_precision s = Some (a, r) -> s = opt a (fun a => [46] ++ amount_text a) ++ r /\ opt_ok amount_ok a /\
  (a = None -> match r with c :: _ => c <> 46 | [] => True end).
Proof.
  unfold scan_precision. destruct s as [|c x]; [intros H; injection H as <- <-; cbn; auto|]. destruct (Z.eqb_spec c 46) as [->|Hc].
  - destruct (scan_width x) as [[[b|] y]|] eqn:EW; try discriminate. intros H. injection H as <- <-. apply scan_width_sound in EW. destruct EW as (-> & HA & _).
    split; [reflexivity|]. split; [exact HA|discriminate].
  - intros H. injection H as <- <-. cbn. auto.
Qed.
Lemma is_align_in c : is_align c = true <-> In c [60; 62; 94].
Proof. unfold is_align. rewrite !orb_true_iff, !Z.eqb_eq. cbn [In]. intuition. Qed.
Lemma scan_options_sound s o r : scan_options s = Some (o, r) -> s = options_text o ++ r /\ options_ok o /\
  (o_fill o = None -> match s with _ :: c :: _ => ~ In c [60; 62; 94] | _ => True end).
Proof.
  unfold scan_options. destruct (scan_fill s) as [fill s1] eqn:E1. destruct (scan_one [60; 62; 94] s1) as [align s2] eqn:E2.
  destruct (scan_one [43; 45; 32] s2) as [sign s3] eqn:E3. destruct (scan_flag 35 s3) as [alt s4] eqn:E4. destruct (scan_flag 48 s4) as [zero s5] eqn:E5.
  destruct (scan_width s5) as [[width s6]|] eqn:E6; [|discriminate]. destruct (scan_precision s6) as [[precision s7]|] eqn:E7; [|discriminate].
  destruct (scan_flag 76 s7) as [locale s8] eqn:E8. destruct (scan_one type_letters s8) as [type s9] eqn:E9. intros H. injection H as <- <-.
  apply scan_fill_sound in E1. destruct E1 as (T1 & F1 & N1). apply scan_one_sound in E2. destruct E2 as (T2 & O2 & N2). apply scan_one_sound in E3. destruct E3 as (T3 & O3 & N3).
  apply scan_flag_sound in E4. destruct E4 as (T4 & N4). apply scan_flag_sound in E5. destruct E5 as (T5 & N5). apply scan_width_sound in E6. destruct E6 as (T6 & O6 & Z6 & N6).
  apply scan_precision_sound in E7. destruct E7 as (T7 & O7 & N7). apply scan_flag_sound in E8. destruct E8 as (T8 & N8). apply scan_one_sound in E9. destruct E9 as (T9 & O9 & N9).
  unfold options_text, options_ok. cbn [o_fill o_align o_sign o_alternate o_zero o_width o_precision o_locale o_type]. split; [|split].
  - rewrite T1, T2, T3, T4, T5, T6, T7, T8, T9. now rewrite !app_assoc.
  - split.
    { intros HF HA. destruct (F1 HF) as (c & x & E & HC). specialize (N2 HA). subst align. cbn [opt app] in T2. rewrite E in T2. rewrite <- T2 in N2. apply N2. now apply is_align_in. }
    split; [exact O2|]. split; [exact O3|]. split; [exact O6|]. split; [|split; [exact O7|exact O9]].
    intros HZ. apply Z6. apply N5. exact HZ.
  - intros HF. specialize (N1 HF). destruct s as [|c0 [|c1 x]]; auto. intros HI. apply is_align_in in HI. congruence.
Qed.

(** Completeness of the scanner: what the text of each part can begin with. *)
Definition head_is (P : Z -> Prop) (s : list Z) : Prop := match s with c :: _ => P c | [] => True end.
Definition H_type (c : Z) : Prop := In c type_letters \/ c = 125.
Definition H_locale (c : Z) : Prop := c = 76 \/ H_type c.
Definition H_precision (c : Z) : Prop := c = 46 \/ H_locale c.
Definition H_width (c : Z) : Prop := digit_char c \/ c = 123 \/ H_precision c.
Definition H_alternate (c : Z) : Prop := c = 35 \/ H_width c.
Definition H_sign (c : Z) : Prop := c = 43 \/ c = 45 \/ c = 32 \/ H_alternate c.
Ltac heads := unfold H_sign, H_alternate, H_width, H_precision, H_locale, H_type, type_letters, digit_char, ascii_digit in *; cbn [In] in *; lia.
Lemma head_is_impl (P Q : Z -> Prop) s : (forall c, P c -> Q c) -> head_is P s -> head_is Q s.
Proof. destruct s; cbn; auto. Qed.
Lemma head_app (P : Z -> Prop) a s : head_is P a -> (a = [] -> head_is P s) -> head_is P (a ++ s).
Proof. destruct a; cbn; auto. Qed.
Lemma head_opt {A} (P : Z -> Prop) (o : option A) f s : opt_ok (fun a => head_is P (f a)) o -> head_is P s -> head_is P (opt o f ++ s).
Proof. intros H HS. apply head_app; [destruct o; [exact H|exact I]|auto]. Qed.
Lemma scan_one_complete set f r : opt_ok (fun c => In c set) f -> (f = None -> head_is (fun c => ~ In c set) r) ->
  scan_one set (opt f (fun c => [c]) ++ r) = (f, r).
Proof.
  destruct f as [c|]; cbn [opt opt_ok app]; intros HI HN.
  - unfold scan_one. assert (E : existsb (Z.eqb c) set = true) by (apply existsb_exists; exists c; split; [exact HI|apply Z.eqb_refl]). now rewrite E.
  - unfold scan_one. specialize (HN eq_refl). destruct r as [|c r]; [reflexivity|]. cbn in HN.
    destruct (existsb (Z.eqb c) set) eqn:E; [|reflexivity]. apply existsb_exists in E. destruct E as (y & Hy & EY). apply Z.eqb_eq in EY. subst y. contradiction.
Qed.
Lemma scan_flag_complete ch b r : (b = false -> head_is (fun c => c <> ch) r) -> scan_flag ch ((if b then [ch] else []) ++ r) = (b, r).
Proof.
  destruct b; cbn [app]; intros H; unfold scan_flag; [now rewrite Z.eqb_refl|]. specialize (H eq_refl). destruct r as [|c r]; [reflexivity|]. cbn in H.
  destruct (Z.eqb_spec c ch); [contradiction|reflexivity].
Qed.
Lemma span_complete d r : Forall digit_char d -> head_is (fun c => ~ digit_char c) r -> span digitb (d ++ r) = (d, r).
Proof.
  intros HD HR. apply span_unique.
  - apply forallb_forall. intros c Hc. apply digitb_iff. rewrite Forall_forall in HD. auto.
  - destruct r as [|c r]; [exact I|]. cbn in HR. destruct (digitb c) eqn:E; [|reflexivity]. apply digitb_iff in E. contradiction.
Qed.
Lemma scan_nested_complete p r : opt_ok digits_ok p -> scan_nested (opt p (fun d => d) ++ [125] ++ r) = Some (p, r).
Proof.
  intros HP. unfold scan_nested. rewrite span_complete.
  - cbn [snd fst app]. rewrite Z.eqb_refl. destruct p as [d|]; [|reflexivity]. cbn [opt opt_ok] in *. destruct HP as [HN _]. destruct d; [congruence|reflexivity].
  - destruct p as [d|]; [apply HP|constructor].
  - cbn. unfold digit_char, ascii_digit. lia.
Qed.
Lemma scan_amount_complete a r : amount_ok a -> head_is (fun c => ~ digit_char c) r -> scan_width (amount_text a ++ r) = Some (Some a, r).
Proof.
  intros HA HR. unfold scan_width. destruct a as [d|p]; cbn [amount_text amount_ok] in *.
  - destruct HA as [HN HD]. rewrite span_complete by assumption. cbn [fst snd]. destruct d; [congruence|reflexivity].
  - rewrite <- !app_assoc. cbn [app span]. assert (E : digitb 123 = false) by reflexivity. rewrite E. cbn [fst]. rewrite Z.eqb_refl.
    change (125 :: r) with ([125] ++ r). now rewrite scan_nested_complete.
Qed.
Lemma scan_width_complete a r : opt_ok amount_ok a -> head_is (fun c => ~ digit_char c) r -> (a = None -> head_is (fun c => c <> 123) r) ->
  scan_width (opt a amount_text ++ r) = Some (a, r).
Proof.
  destruct a as [a|]; cbn [opt opt_ok]; intros HA HR HN; [now apply scan_amount_complete|]. cbn [app]. specialize (HN eq_refl).
  unfold scan_width. destruct r as [|c r]; [reflexivity|]. cbn [span]. cbn in HR, HN. destruct (digitb c) eqn:E; [apply digitb_iff in E; contradiction|].
  cbn [fst]. destruct (Z.eqb_spec c 123); [contradiction|reflexivity].
Qed.
Lemma scan_precision_complete a r : opt_ok amount_ok a -> head_is (fun c => ~ digit_char c /\ c <> 46) r ->
  scan_precision (opt a (fun a => [46] ++ amount_text a) ++ r) = Some (a, r).
Proof.
  intros HA HR. unfold scan_precision. destruct a as [a|]; cbn [opt opt_ok] in *.
  - rewrite <- app_assoc. cbn [app]. rewrite Z.eqb_refl. rewrite scan_amount_complete; [reflexivity|exact HA|]. eapply head_is_impl; [|exact HR]. intros c [H _]. exact H.
  - cbn [app]. destruct r as [|c r]; [reflexivity|]. cbn in HR. destruct (Z.eqb_spec c 46); [tauto|reflexivity].
Qed.
Lemma scan_options_complete o r : options_ok o -> no_fill_confusion o r -> scan_options (options_text o ++ [125] ++ r) = Some (o, [125] ++ r).
Proof.
  intros (HF & HAl & HSg & HW & HZ & HP & HT) HC. unfold no_fill_confusion in HC. unfold scan_options.
  destruct o as [fill align sign alt zero width precision locale type]. cbn [o_fill o_align o_sign o_alternate o_zero o_width o_precision o_locale o_type] in *.
  unfold options_text in *. cbn [o_fill o_align o_sign o_alternate o_zero o_width o_precision o_locale o_type] in *.
  set (t9 := opt type (fun c => [c]) ++ [125] ++ r). set (t8 := (if locale then [76] else []) ++ t9).
  set (t7 := opt precision (fun a => [46] ++ amount_text a) ++ t8). set (t6 := opt width amount_text ++ t7). set (t5 := (if zero then [48] else []) ++ t6).
  set (t4 := (if alt then [35] else []) ++ t5). set (t3 := opt sign (fun c => [c]) ++ t4). set (t2 := opt align (fun c => [c]) ++ t3).
  assert (ET : (opt fill (fun c => [c]) ++ opt align (fun c => [c]) ++ opt sign (fun c => [c]) ++ (if alt then [35] else []) ++ (if zero then [48] else []) ++
     opt width amount_text ++ opt precision (fun a => [46] ++ amount_text a) ++ (if locale then [76] else []) ++ opt type (fun c => [c])) ++ [125] ++ r = opt fill (fun c => [c]) ++ t2).
  { unfold t2, t3, t4, t5, t6, t7, t8, t9. rewrite <- !app_assoc. reflexivity. }
  rewrite ET in *.
  assert (H9 : head_is H_type t9) by (unfold t9; apply head_opt; [destruct type; [left; exact HT|exact I]|right; reflexivity]).
  assert (H8 : head_is H_locale t8) by (unfold t8; apply head_app; [destruct locale; cbn; unfold H_locale; auto|intros _; eapply head_is_impl; [|exact H9]; unfold H_locale; auto]).
  assert (H7 : head_is H_precision t7) by (unfold t7; apply head_opt; [destruct precision; [left; reflexivity|exact I]|eapply head_is_impl; [|exact H8]; unfold H_precision; auto]).
  assert (H6 : head_is H_width t6).
  { unfold t6. apply head_opt; [|eapply head_is_impl; [|exact H7]; unfold H_width; auto]. destruct width as [[d|p]|]; [|right; left; reflexivity|exact I].
    cbn [opt_ok amount_text]. destruct d as [|c d]; [exact I|]. left. destruct HW as [_ HD]. now inversion HD. }
  assert (H5 : head_is H_width t5) by (unfold t5; apply head_app; [destruct zero; [left; unfold digit_char, ascii_digit; lia|exact I]|intros _; exact H6]).
  assert (H4 : head_is H_alternate t4) by (unfold t4; apply head_app; [destruct alt; cbn; unfold H_alternate; auto|intros _; eapply head_is_impl; [|exact H5]; unfold H_alternate; auto]).
  assert (H3 : head_is H_sign t3).
  { unfold t3. apply head_opt; [|eapply head_is_impl; [|exact H4]; unfold H_sign; auto]. destruct sign as [c|]; [|exact I]. cbn in *. unfold H_sign. lia. }
  assert (EF : scan_fill (opt fill (fun c => [c]) ++ t2) = (fill, t2)).
  { destruct fill as [c|]; cbn [opt app].
    - destruct align as [al|]; [|elim HF; [discriminate|reflexivity]]. unfold t2. cbn [opt app scan_fill]. cbn [opt_ok] in HAl. apply is_align_in in HAl. now rewrite HAl.
    - specialize (HC eq_refl). cbn [opt app] in HC. unfold scan_fill. destruct t2 as [|c0 [|c1 x]]; try reflexivity.
      destruct (is_align c1) eqn:E; [|reflexivity]. apply is_align_in in E. contradiction. }
  rewrite EF. unfold t2 at 1. rewrite scan_one_complete; [|exact HAl|intros _; eapply head_is_impl; [|exact H3]; intros c Hc; heads].
  unfold t3 at 1. rewrite scan_one_complete; [|exact HSg|intros _; eapply head_is_impl; [|exact H4]; intros c Hc; heads].
  unfold t4 at 1. rewrite scan_flag_complete; [|intros _; eapply head_is_impl; [|exact H5]; intros c Hc; heads].
  unfold t5 at 1. rewrite scan_flag_complete.
  2:{ intros E0. specialize (HZ E0). unfold t6. destruct width as [[d|p]|]; cbn [opt_ok opt amount_text] in *; [|cbn; lia|].
      - destruct d as [|c d]; [destruct HW; congruence|]. cbn in *. exact HZ.
      - cbn [app]. eapply head_is_impl; [|exact H7]. intros c Hc. heads. }
  unfold t6 at 1. rewrite scan_width_complete; [|exact HW|eapply head_is_impl; [|exact H7]; intros c Hc; heads|intros _; eapply head_is_impl; [|exact H7]; intros c Hc; heads].
  unfold t7 at 1. rewrite scan_precision_complete; [|exact HP|eapply head_is_impl; [|exact H8]; intros c Hc; heads].
  unfold t8 at 1. rewrite scan_flag_complete; [|intros _; eapply head_is_impl; [|exact H9]; intros c Hc; heads].
  unfold t9. rewrite scan_one_complete; [reflexivity|exact HT|intros _; cbn; lia].
Qed.
