(** Proofs for C40: one replacement field. *)
From Verif Require Import Common Bits Lexer_Model Lexer_Spec Lexer_Props Format_Model FormatString_Model FormatString_Spec FormatString_Proofs FormatString_Stages.

(** * The specifier built by the updates *)
Definition base (position : Z) (p : option ptype) (idx : Z) : specifier :=
  set_parse_index (set_type (set_position default_specifier position) (infer p) CLower) idx.
Ltac red_spec := unfold set_size, set_type, set_locale, set_precision, set_width, set_zero, set_alternate, set_sign, set_alignment, set_fill, set_parse_index, set_position;
  cbn [m_position m_fill m_alignment m_sign m_alternate_form m_zero_padding m_width m_width_position m_precision m_precision_position m_locale_specific_form m_type m_case m_parse_index m_size].
Lemma upd_options_base start n p f o : f_options f = Some o -> options_ok o ->
  set_size (upd_options (width_ref_start n f) o (base (position_of n (f_position f)) (Some p) (start + 1 + Z.of_nat (length (opt (f_position f) (fun d => d))) + 1))) (Z.of_nat (length (field_text f)))
  = field_specifier start n p f.
Proof.
  intros EO (_ & HA & HS & _ & _ & _ & _). unfold field_specifier. rewrite EO. unfold precision_ref_start.
  destruct o as [fill align sign alt zero width precision locale type]. unfold upd_options. cbn [o_fill o_align o_sign o_alternate o_zero o_width o_precision o_locale o_type] in *.
  set (k := width_ref_start n f). set (k2 := k + count_auto (amount_refs width)). set (len := Z.of_nat (length (field_text f))). clearbody k k2 len.
  set (pos := position_of n (f_position f)). set (idx := start + 1 + _ + 1). clearbody pos idx.
  assert (ES : forall s, upd sign upd_sign s = set_sign s (match sign with Some c => meaning_sign (Some c) | None => m_sign s end)) by (intros s; destruct s, sign; reflexivity).
  assert (EA : forall s, upd align upd_align s = set_alignment s (match align with Some c => meaning_align (Some c) | None => m_alignment s end)) by (intros s; destruct s, align; reflexivity).
  assert (EF : forall s, upd fill upd_fill s = set_fill s (match fill with Some c => Some c | None => m_fill s end)) by (intros s; destruct s, fill; reflexivity).
  assert (EZ : forall s, upd_flags alt zero s = set_zero (set_alternate s (alt || m_alternate_form s)) ((zero && match m_alignment s with ADefault => true | _ => false end) || m_zero_padding s)).
  { intros s. unfold upd_flags. destruct alt; cbn [orb]; destruct s as [a1 a2 al a3 a4 a5 a6 a7 a8 a9 a10 a11 a12 a13 a14]; cbn; destruct al, zero; reflexivity. }
  assert (EW : forall s, upd_width k width s = set_width s (match width with Some (Number d) => Some (val d) | _ => m_width s end) (match width with Some (Nested q) => Some (position_of k q) | _ => m_width_position s end)).
  { intros s. destruct s, width as [[d|q]|]; reflexivity. }
  assert (EP : forall s, upd_precision k2 precision s = set_precision s (match precision with Some (Number d) => Some (val d) | _ => m_precision s end) (match precision with Some (Nested q) => Some (position_of k2 q) | _ => m_precision_position s end)).
  { intros s. destruct s, precision as [[d|q]|]; reflexivity. }
  assert (EL : forall s, upd_locale locale s = set_locale s (locale || m_locale_specific_form s)) by (intros s; destruct s, locale; reflexivity).
  assert (ET : forall s, upd type upd_type s = set_type s (match type with Some c => letter_type c | None => m_type s end) (match type with Some c => if upper c then CUpper else m_case s | None => m_case s end)) by (intros s; destruct s, type; reflexivity).
  unfold base, default_specifier. red_spec.
  rewrite EF. red_spec.
  rewrite EA. red_spec.
  rewrite ES. red_spec.
  rewrite EZ. red_spec.
  rewrite EW. red_spec.
  rewrite EP. red_spec.
  rewrite EL. red_spec.
  rewrite ET. red_spec.
  rewrite !orb_false_r. f_equal; first [reflexivity|now destruct fill|now destruct align|now destruct sign|now destruct width as [[d|q]|]|now destruct precision as [[d|q]|]
    |destruct type; [reflexivity|now destruct p]|idtac].
  f_equal. destruct align as [c|]; [|reflexivity]. cbn [opt_ok In] in HA. decompose [or] HA; try contradiction; subst c; reflexivity.
Qed.
Lemma plain_base start n p f : f_options f = None ->
  set_size (base (position_of n (f_position f)) (Some p) (start + 1 + Z.of_nat (length (opt (f_position f) (fun d => d))))) (Z.of_nat (length (field_text f)))
  = field_specifier start n p f.
Proof. intros EO. unfold field_specifier. rewrite EO, Z.add_0_r. destruct p; reflexivity. Qed.
Lemma user_base start n f : f_options f = Some no_options ->
  set_size (base (position_of n (f_position f)) (Some PUserDefined) (start + 1 + Z.of_nat (length (opt (f_position f) (fun d => d))) + 1)) (Z.of_nat (length (field_text f)))
  = field_specifier start n PUserDefined f.
Proof. intros EO. unfold field_specifier. rewrite EO. reflexivity. Qed.

(** * Validation against the specification *)
Lemma lookup_some {A} (l : list A) k : (k < length l)%nat -> lookup l k <> None.
Proof. revert k. induction l as [|a l IH]; intros [|k] H; cbn [length] in *; [lia|lia|discriminate|]. cbn. apply IH. lia. Qed.
Lemma outside_iff params n : 0 <= n -> outside params n = false <-> exists p, arg_type params n = Some p.
Proof.
  intros HN. unfold outside, arg_type. rewrite Z.geb_leb. destruct (Z.leb_spec (Z.of_nat (length params)) n).
  - rewrite (proj2 (Z.ltb_ge _ _)) by lia. split; [discriminate|]. intros [p H0]. discriminate.
  - rewrite (proj2 (Z.ltb_lt _ _)) by lia. split; [|reflexivity]. intros _. destruct (lookup params (Z.to_nat n)) eqn:E; [eauto|]. exfalso. revert E. apply lookup_some. lia.
Qed.
Lemma position_nonneg n r : 0 <= n -> 0 <= position_of n r.
Proof. destruct r as [d|]; cbn [position_of]; [|auto]. intros _. apply Z.mod_pos_bound. reflexivity. Qed.
Lemma nested_verr params n : 0 <= n -> outside params n || negb (is_integral (arg_type params n)) = false <-> arg_type params n = Some PIntegral.
Proof.
  intros HN. rewrite orb_false_iff, negb_false_iff. split.
  - intros [_ H]. destruct (arg_type params n) as [[]|]; try discriminate. reflexivity.
  - intros H. rewrite H. split; [|reflexivity]. apply outside_iff; [exact HN|eauto].
Qed.
Lemma wrap_ascii bits c : 8 <= bits -> - 2 ^ (bits - 1) <= c < 2 ^ bits -> (wrap bits c >=? 128) = false <-> 0 <= c < 128.
Proof.
  intros HB HC. assert (HP : 2 ^ 8 <= 2 ^ bits) by (apply Z.pow_le_mono_r; lia). change (2 ^ 8) with 256 in HP.
  assert (HQ : 2 ^ bits = 2 * 2 ^ (bits - 1)) by (rewrite <- Z.pow_succ_r by lia; f_equal; lia).
  unfold wrap. rewrite Z.geb_leb, Z.leb_gt. destruct (Z.ltb_spec c 0).
  - replace (c mod 2 ^ bits) with (c + 2 ^ bits); [lia|]. apply (Z.mod_unique _ _ (-1)); lia.
  - rewrite Z.mod_small by lia. lia.
Qed.
Lemma width_ref_nonneg n f : 0 <= n -> 0 <= width_ref_start n f.
Proof. unfold width_ref_start, count_auto. lia. Qed.
Lemma precision_ref_nonneg n f o : 0 <= n -> 0 <= precision_ref_start n f o.
Proof. intros H. unfold precision_ref_start. pose proof (width_ref_nonneg n f H). unfold count_auto. lia. Qed.
Lemma amount_position_nonneg n a k : 0 <= n -> amount_position n a = Some k -> 0 <= k.
Proof. intros HN H. destruct a as [[d|q]|]; try discriminate. injection H as <-. now apply position_nonneg. Qed.

Lemma verr_iff bits params start n p f o : 8 <= bits -> 0 <= n -> f_options f = Some o -> options_ok o -> p <> PUserDefined ->
  opt_ok (fun c => - 2 ^ (bits - 1) <= c < 2 ^ bits) (o_fill o) ->
  arg_type params (position_of n (f_position f)) = Some p ->
  verr bits params (field_specifier start n p f) = false <-> options_admitted params p f n o.
Proof.
  intros HB HN EO (_ & HAl & HSg & _ & _ & _ & HTy) HU HFr HP. unfold verr, options_admitted. unfold field_specifier. rewrite EO.
  cbn [m_position m_fill m_alignment m_sign m_alternate_form m_zero_padding m_width m_width_position m_precision m_precision_position m_locale_specific_form m_type m_case m_parse_index m_size].
  rewrite HP. set (t := match o_type o with Some c => letter_type c | None => default_type p end).
  change is_numeric with shown_as_number. rewrite !orb_false_iff.
  assert (C1 : outside params (position_of n (f_position f)) = false) by (apply outside_iff; [now apply position_nonneg|eauto]).
  assert (C2 : match o_fill o with Some f0 => (f0 =? 123) || (f0 =? 125) || (wrap bits f0 >=? 128) | None => false end = false <-> opt_ok (fun c => c <> 123 /\ c <> 125 /\ 0 <= c < 128) (o_fill o)).
  { destruct (o_fill o) as [c|]; cbn [opt_ok] in *; [|tauto]. rewrite !orb_false_iff, !Z.eqb_neq, (wrap_ascii bits c HB HFr). tauto. }
  assert (C3 : match meaning_sign (o_sign o) with SDefault => false | _ => negb (shown_as_number t) end = false <-> (o_sign o <> None -> shown_as_number t = true)).
  { destruct (o_sign o) as [c|]; [|cbn; split; [congruence|auto]]. cbn [opt_ok In] in HSg. decompose [or] HSg; try contradiction; subst c; cbn [meaning_sign]; rewrite negb_false_iff; (split; [auto|intros H; apply H; discriminate]). }
  assert (C4 : o_alternate o && (negb (shown_as_number t) || match t with TDecimal => true | _ => false end) = false <-> (o_alternate o = true -> shown_as_number t = true /\ t <> TDecimal)).
  { destruct (o_alternate o); cbn [andb]; [|split; [congruence|auto]]. rewrite orb_false_iff, negb_false_iff. split.
    - intros [H1 H2] _. split; [exact H1|]. intros E. rewrite E in H2. discriminate.
    - intros H. destruct (H eq_refl) as [H1 H2]. split; [exact H1|]. destruct t; congruence. }
  assert (C5 : (o_zero o && match o_align o with None => true | Some _ => false end) && negb (shown_as_number t) = false <-> (o_zero o = true -> o_align o = None -> shown_as_number t = true)).
  { destruct (o_zero o); cbn [andb]; [|split; [congruence|auto]]. destruct (o_align o); cbn [andb]; [split; [congruence|auto]|]. rewrite negb_false_iff. split; auto. }
  assert (C6 : width_verr params (field_specifier start n p f) = false <-> amount_number (o_width o) <> Some 0 /\ integral_at params (amount_position (width_ref_start n f) (o_width o))).
  { unfold width_verr, field_specifier. rewrite EO. cbn [m_width m_width_position]. pose proof (amount_position_nonneg (width_ref_start n f) (o_width o)) as HK.
    destruct (o_width o) as [[d|q]|]; cbn [amount_number amount_position integral_at] in *.
    - destruct (number 10 d mod 2 ^ 64); [split; [discriminate|intros [H _]; congruence]|split; [intros _; split; [discriminate|exact I]|auto]|split; [intros _; split; [discriminate|exact I]|auto]].
    - rewrite nested_verr by (apply HK; [now apply width_ref_nonneg|reflexivity]). split; [intros H; split; [discriminate|exact H]|tauto].
    - split; [intros _; split; [discriminate|exact I]|auto]. }
  assert (C7 : precision_verr params (Some p) (field_specifier start n p f) = false <-> (o_precision o <> None -> p = PString \/ p = PFloatingPoint) /\ integral_at params (amount_position (precision_ref_start n f o) (o_precision o))).
  { unfold precision_verr, field_specifier. rewrite EO. cbn [m_precision m_precision_position]. pose proof (amount_position_nonneg (precision_ref_start n f o) (o_precision o)) as HK.
    destruct (o_precision o) as [[d|q]|]; cbn [amount_number amount_position integral_at] in *.
    - destruct p; (split; [intros H; first [discriminate|split; [auto|exact I]]|intros [H _]; first [reflexivity|destruct H as [H|H]; [discriminate|discriminate H|discriminate H]]]).
    - assert (HQ : 0 <= position_of (precision_ref_start n f o) q) by (apply HK; [now apply precision_ref_nonneg|reflexivity]).
      destruct p; rewrite ?(nested_verr params _ HQ); (split; [intros H; first [discriminate|split; [auto|exact H]]|intros [H H']; first [exact H'|destruct H as [H|H]; [discriminate|discriminate H|discriminate H]]]).
    - split; [intros _; split; [congruence|exact I]|reflexivity]. }
  assert (C8 : o_locale o && match p with PIntegral | PFloatingPoint | PBoolean => false | _ => true end = false <-> (o_locale o = true -> p = PIntegral \/ p = PFloatingPoint \/ p = PBoolean)).
  { destruct (o_locale o); cbn [andb]; [|split; [congruence|auto]]. destruct p; (split; [intros H; first [discriminate|auto]|intros H; first [reflexivity|destruct (H eq_refl) as [E|[E|E]]; discriminate E]]). }
  assert (C9 : match t with TNone => false | _ => type_error p t end = false <-> opt_ok (fun c => In c (letters_for p)) (o_type o)).
  { unfold t. destruct (o_type o) as [c|]; cbn [opt_ok] in *.
    - unfold type_letters in HTy. cbn [In] in HTy. clear - HTy HU. 
      destruct p; cbn [letters_for In type_error]; decompose [or] HTy; try contradiction; subst c; cbn [letter_type]; (split; [intros H; first [discriminate|lia]|intros H; first [reflexivity|lia]]).
    - destruct p; cbn; tauto. }
  unfold field_specifier in C6, C7. rewrite EO in C6, C7. rewrite C2, C3, C4, C5, C6, C7, C8, <- C9. clear C2 C3 C4 C5 C6 C7 C8 C9. clearbody t. destruct t; tauto.
Qed.

(** * One field *)
Section FieldParse.
Variable v : list Z.
Hypothesis HL : Z.of_nat (length v) < 2 ^ 63.
Variables (bits : Z) (params : list ptype).
Hypothesis HB : 8 <= bits.
Notation cx := (cx v). Notation bad := (bad v).

Definition flags_ok (no al : bool) (rs : list (option (list Z))) : Prop := refs_none no rs && refs_all al rs = false.
Lemma flags_prefix no al a b : flags_ok no al (a ++ b) -> flags_ok no al a.
Proof.
  unfold flags_ok. rewrite refs_none_app, refs_all_app. unfold refs_none at 1, refs_all at 1. intros H. apply andb_false_iff in H. apply andb_false_iff.
  destruct H as [H|H]; apply orb_false_iff in H; destruct H as [H _]; auto.
Qed.
(** The field [f] starts at the opening brace before [r]. *)
Definition valid (r : list Z) (n : Z) (no al : bool) (f : field) (p : ptype) (rest : list Z) : Prop :=
  123 :: r = field_text f ++ rest /\ field_ok f /\ field_admitted params n f p rest /\ flags_ok no al (field_refs f).
Definition start_of (r : list Z) : Z := Z.of_nat (length v) - Z.of_nat (length r) - 1.

Lemma index_lx r : index (lx v r) = Z.of_nat (length v) - Z.of_nat (length r).
Proof. reflexivity. Qed.
Lemma refs_none1 no p : refs_none no [p] = none_after no p.
Proof. unfold refs_none, none_after. cbn [existsb]. now rewrite orb_false_r. Qed.
Lemma refs_all1 al p : refs_all al [p] = all_after al p.
Proof. unfold refs_all, all_after. cbn [existsb]. now rewrite orb_false_r. Qed.
Lemma options_err_false n no al o : 0 <= n ->
  options_err params n no al o = false <-> (options_refs o = [] \/ flags_ok no al (options_refs o)) /\
    (forall k, amount_position n (o_width o) = Some k -> outside params k = false) /\
    (forall k, amount_position (n + count_auto (amount_refs (o_width o))) (o_precision o) = Some k -> outside params k = false).
Proof.
  intros HN. unfold options_err, options_refs, flags_ok. rewrite refs_none_app, refs_all_app. rewrite orb_false_iff.
  assert (X : forall n no al a, amount_err params n no al a = false <-> (amount_refs a = [] \/ refs_none no (amount_refs a) && refs_all al (amount_refs a) = false) /\ (forall k, amount_position n a = Some k -> outside params k = false)).
  { intros n0 no0 al0 a. destruct a as [[d|q]|]; cbn [amount_err amount_refs amount_position].
    - split; [intros _; split; [auto|discriminate]|auto].
    - rewrite refs_none1, refs_all1. unfold ref_err. rewrite orb_false_iff, andb_comm. split.
      + intros [H1 H2]. split; [auto|]. intros k E. injection E as <-. exact H2.
      + intros [[H|H] H2]; [discriminate|]. split; [exact H|]. now apply H2.
    - split; [intros _; split; [auto|discriminate]|auto]. }
  rewrite !X. split.
  - intros [[A1 A2] [B1 B2]]. split; [|auto]. destruct B1 as [E|B1]; [|auto]. rewrite E, app_nil_r. destruct A1 as [A1|A1]; [auto|]. right.
    unfold refs_none at 1, refs_all at 1. cbn [existsb]. now rewrite !orb_false_r.
  - intros [A [B1 B2]]. split; split; try assumption.
    + destruct A as [A|A]; [apply app_eq_nil in A; tauto|]. right. unfold refs_none at 1, refs_all at 1 in A. apply andb_false_iff in A. apply andb_false_iff.
      destruct A as [H|H]; apply orb_false_iff in H; tauto.
    + destruct A as [A|A]; [apply app_eq_nil in A; tauto|]. auto.
Qed.

(** The field's position, then its argument type. *)
Lemma field_head f rest r : 123 :: r = field_text f ++ rest -> r = opt (f_position f) (fun d => d) ++ opt (f_options f) (fun o => [58] ++ options_text o) ++ [125] ++ rest.
Proof. unfold field_text. cbn [app]. intros H. injection H as ->. now rewrite <- !app_assoc. Qed.
Lemma span_position f tail : opt_ok digits_ok (f_position f) -> head_is (fun c => ~ digit_char c) tail ->
  digits_opt (fst (span digitb (opt (f_position f) (fun d => d) ++ tail))) = f_position f /\ snd (span digitb (opt (f_position f) (fun d => d) ++ tail)) = tail.
Proof.
  intros HP HT. rewrite span_complete; [|destruct (f_position f); [apply HP|constructor]|exact HT]. cbn [fst snd]. split; [|reflexivity].
  destruct (f_position f) as [d|]; [|reflexivity]. destruct HP as [HN _]. destruct d; [congruence|reflexivity].
Qed.
Lemma on_error_cx r n no al e b : on_error_if b (cx r n no al e) = cx r n no al (e || b).
Proof. reflexivity. Qed.
Lemma starting r : suffix v (123 :: r) -> u64 (index (lx v r) - 1) = start_of r /\ 0 <= start_of r.
Proof.
  intros HS. apply suffix_len in HS. cbn [length] in HS. unfold start_of. rewrite index_lx. split; [|lia]. apply u64_small. change (2 ^ 64) with (2 * 2 ^ 63). lia.
Qed.
Lemma u64_sub a b : 0 <= b <= a -> a < 2 ^ 63 -> u64 (a - b) = a - b.
Proof. intros. apply u64_small. change (2 ^ 64) with (2 * 2 ^ 63). lia. Qed.
Lemma spec_complete r n no al f p rest : suffix v (123 :: r) -> 0 <= n -> n + 2 < 2 ^ 63 -> valid r n no al f p rest ->
  parse_specifier bits params (cx r n no al false) =
  Ok (cx rest (n + count_auto (field_refs f)) (refs_none no (field_refs f)) (refs_all al (field_refs f)) false, field_specifier (start_of r) n p f).
Proof.
  intros HS HN HN2 (ET & (HFP & HFO) & (HA & HAd) & HFl). pose proof (field_head _ _ _ ET) as ER. destruct (starting r HS) as [HSt HSt0].
  assert (HS1 : suffix v r) by (now apply suffix_tail in HS).
  unfold parse_specifier. cbn [lex cx]. rewrite HSt. rewrite next_position_exact by (try assumption; unfold in_range; lia). cbn [bind].
  assert (ESp : digits_opt (fst (span digitb r)) = f_position f /\ snd (span digitb r) = opt (f_options f) (fun o => [58] ++ options_text o) ++ [125] ++ rest).
  { rewrite ER. apply span_position; [exact HFP|]. destruct (f_options f); cbn; unfold digit_char, ascii_digit; lia. }
  destruct ESp as [E1 E2]. pose proof (span_suffix v r HS1) as HS2. rewrite E1, E2 in *. clear E1 E2.
  set (tail := opt (f_options f) (fun o => [58] ++ options_text o) ++ [125] ++ rest) in *.
  set (n1 := n + count_auto [f_position f]) in *. set (no1 := none_after no (f_position f)). set (al1 := all_after al (f_position f)).
  assert (HFl1 : al1 && no1 = false).
  { unfold field_refs in HFl. change (f_position f :: ?x) with ([f_position f] ++ x) in HFl. apply flags_prefix in HFl. unfold flags_ok in HFl. rewrite refs_none1, refs_all1 in HFl. now rewrite andb_comm. }
  rewrite HFl1. cbn [orb]. rewrite parameter_type_exact, on_error_cx, HA.
  assert (HO : outside params (position_of n (f_position f)) = false) by (apply outside_iff; [now apply position_nonneg|eauto]). rewrite HO. cbn [orb].
  cbn [lex cx]. fold (base (position_of n (f_position f)) (Some p) (index (lx v tail))).
  assert (HIx : index (lx v tail) = start_of r + 1 + Z.of_nat (length (opt (f_position f) (fun d => d)))).
  { rewrite index_lx. unfold start_of. pose proof (f_equal (@length Z) ER) as EL. fold tail in EL. rewrite app_length in EL. lia. }
  assert (HC1 : 0 <= count_auto [f_position f] <= 1) by (unfold count_auto; destruct (f_position f); cbn; lia).
  assert (HLen : Z.of_nat (length rest) + Z.of_nat (length (field_text f)) = Z.of_nat (length v) - start_of r).
  { unfold start_of. apply (f_equal (@length Z)) in ET. rewrite app_length in ET. cbn [length] in ET. pose proof (suffix_len _ _ HS). cbn [length] in *. lia. }
  pose proof (suffix_len _ _ HS) as HLs. cbn [length] in HLs.
  assert (HSz : u64 (index (lx v rest) - start_of r) = Z.of_nat (length (field_text f))).
  { rewrite u64_sub; rewrite index_lx; lia. }
  unfold field_refs. destruct (f_options f) as [o|] eqn:EO.
  - assert (HS3 : suffix v (options_text o ++ [125] ++ rest)). { unfold tail in HS2. cbn [opt app] in HS2. rewrite <- ?app_assoc in HS2. apply suffix_tail in HS2. exact HS2. }
    rewrite (cx_flag v HL tail 58 true (options_text o ++ [125] ++ rest)); [|assumption|unfold tail; cbn [opt app scan_flag]; now rewrite Z.eqb_refl]. cbn [bind]. cbn [lex cx].
    rewrite parameter_type_exact, on_error_cx, HA, HO. cbn [orb].
    assert (HIx' : index (lx v (options_text o ++ [125] ++ rest)) = start_of r + 1 + Z.of_nat (length (opt (f_position f) (fun d => d))) + 1).
    { rewrite <- HIx, !index_lx. unfold tail. cbn [opt app length]. rewrite Nat2Z.inj_succ. lia. }
    assert (EB : set_parse_index (base (position_of n (f_position f)) (Some p) (index (lx v tail))) (index (lx v (options_text o ++ [125] ++ rest))) =
      base (position_of n (f_position f)) (Some p) (start_of r + 1 + Z.of_nat (length (opt (f_position f) (fun d => d))) + 1)) by (rewrite HIx'; reflexivity).
    rewrite EB. clear EB.
    assert (HCase : p = PUserDefined \/ p <> PUserDefined) by (destruct p; auto; right; discriminate). destruct HCase as [->|HU].
    + subst o. change (options_text no_options) with (@nil Z) in *. cbn [app] in *. rewrite (cx_flag v HL (125 :: rest) 125 true rest); [|assumption|reflexivity].
      cbn [bind negb]. rewrite on_error_false. cbn [lex cx]. rewrite HSz, user_base by assumption. cbn [amount_refs no_options o_width o_precision app].
      do 2 f_equal. unfold n1, no1, al1. now rewrite refs_none1, refs_all1.
    + assert (HAd' : options_admitted params p f n o /\ no_fill_confusion o rest) by (destruct p; try exact HAd; congruence). destruct HAd' as [HAdm HNF].
      pose proof (scan_options_complete o rest HFO HNF) as HScan.
      destruct (options_some v HL bits params _ o _ n1 no1 al1 false (base (position_of n (f_position f)) (Some p) (start_of r + 1 + Z.of_nat (length (opt (f_position f) (fun d => d))) + 1)) HS3 ltac:(lia) ltac:(lia) HScan) as (c' & HPO & _ & HRes).
      change n1 with (width_ref_start n f) in *.
      assert (HV : verr bits params (upd_options (width_ref_start n f) o (base (position_of n (f_position f)) (Some p) (start_of r + 1 + Z.of_nat (length (opt (f_position f) (fun d => d))) + 1))) = false).
      { pose proof (upd_options_base (start_of r) n p f o EO HFO) as HUB.
        match goal with |- verr _ _ ?s = _ => change (verr bits params (set_size s (Z.of_nat (length (field_text f)))) = false) end. rewrite HUB.
        apply (verr_iff bits params (start_of r) n p f o HB HN EO HFO HU); [|exact HA|exact HAdm].
        destruct HAdm as (HFi & _). destruct (o_fill o) as [c|]; [|exact I]. cbn [opt_ok] in *.
        assert (2 ^ 8 <= 2 ^ bits) by (apply Z.pow_le_mono_r; lia). change (2 ^ 8) with 256 in *. assert (0 <= 2 ^ (bits - 1)) by (apply Z.pow_nonneg; lia). lia. }
      assert (HE : options_err params (width_ref_start n f) no1 al1 o = false).
      { apply options_err_false; [now apply width_ref_nonneg|]. destruct HAdm as (_ & _ & _ & _ & _ & HW & _ & HPr & _). split; [|split].
        - right. unfold field_refs in HFl. rewrite EO in HFl. change (f_position f :: ?x) with ([f_position f] ++ x) in HFl. unfold flags_ok in *. rewrite refs_none_app, refs_all_app in HFl.
          rewrite refs_none1, refs_all1 in HFl. exact HFl.
        - intros k Ek. rewrite Ek in HW. cbn [integral_at] in HW. apply outside_iff; [|eauto]. eapply amount_position_nonneg; [|exact Ek]. now apply width_ref_nonneg.
        - intros k Ek. fold (precision_ref_start n f o) in Ek. rewrite Ek in HPr. cbn [integral_at] in HPr. apply outside_iff; [|eauto]. eapply amount_position_nonneg; [|exact Ek]. now apply precision_ref_nonneg. }
      rewrite HE, HV in HRes. cbn [app] in HRes. cbn [scan_flag fst snd orb] in HRes. rewrite Z.eqb_refl in HRes. cbn [fst snd] in HRes. rewrite on_error_false in HRes. subst c'.
      assert (HM : forall X Y : res (pctx * specifier), match p with PUserDefined => X | _ => Y end = Y) by (intros; destruct p; try reflexivity; congruence). rewrite HM. clear HM.
      rewrite HPO. cbn [bind]. unfold after_options. cbn [lex cx]. rewrite HSz, upd_options_base by assumption. rewrite HE. cbn [orb].
      do 2 f_equal. unfold options_refs, no1, al1. rewrite <- refs_none1, <- refs_all1, <- refs_none_app, <- refs_all_app. change ([f_position f] ++ ?x) with (f_position f :: x).
      f_equal. unfold width_ref_start. rewrite <- Z.add_assoc, <- count_auto_app. reflexivity.
  - unfold tail in *. cbn [opt app] in *. rewrite (cx_flag v HL (125 :: rest) 58 false (125 :: rest)); [|assumption|reflexivity]. cbn [bind].
    rewrite (cx_flag v HL (125 :: rest) 125 true rest); [|assumption|reflexivity]. cbn [bind negb]. rewrite on_error_false. cbn [lex cx]. rewrite HSz.
    rewrite HIx, plain_base by assumption. do 2 f_equal. unfold n1, no1, al1. now rewrite refs_none1, refs_all1.
Qed.
Hypothesis HC : Forall (fun c => - 2 ^ (bits - 1) <= c < 2 ^ bits) v.
Lemma suffix_forall (P : Z -> Prop) r : suffix v r -> Forall P v -> Forall P r.
Proof. intros [q ->] H. apply Forall_app in H. tauto. Qed.
Lemma run_text r : r = opt (digits_opt (fst (span digitb r))) (fun d => d) ++ snd (span digitb r) /\ opt_ok digits_ok (digits_opt (fst (span digitb r))).
Proof.
  destruct (span_ok digitb r) as (E & _). pose proof (span_digits_ok r) as HD. destruct (fst (span digitb r)) as [|d ds]; cbn [digits_opt opt opt_ok]; split; auto. apply HD. discriminate.
Qed.
Definition closing (c : pctx) (s : specifier) : res (pctx * specifier) := let! (closed, c4) := ctx_consume_if c 125 in Ok (on_error_if (negb closed) c4, s).
Lemma closing_bad c s : bad c -> exists c', closing c s = Ok (c', s) /\ bad c'.
Proof. intros HBc. unfold closing. destruct (flag_bad v HL c 125 HBc) as (b & c1 & -> & H1). cbn [bind]. eexists. split; [reflexivity|]. now apply on_error_bad. Qed.
Lemma closing_cx r n no al s : suffix v r ->
  match scan_flag 125 r with
  | (true, r') => closing (cx r n no al false) s = Ok (cx r' n no al false, s) /\ r = 125 :: r'
  | (false, _) => exists c', closing (cx r n no al false) s = Ok (c', s) /\ bad c'
  end.
Proof.
  intros HS. unfold closing. destruct (scan_flag 125 r) as [b r'] eqn:E. rewrite (cx_flag v HL r 125 b r') by assumption. cbn [bind]. pose proof (scan_flag_suffix v r 125 b r' HS E) as HS'. apply scan_flag_sound in E. destruct E as [-> _].
  destruct b; cbn [negb]; [rewrite on_error_false; auto|]. eexists. split; [reflexivity|]. apply on_error_bad'; [reflexivity|]. eexists. split; [exact HS'|reflexivity].
Qed.
(** Once an error is recorded it stays. *)
Definition after_position (position : Z) (c2 : pctx) (s : specifier) : res (pctx * specifier) :=
  let! (colon, c3) := ctx_consume_if c2 58 in
  if colon then
    let s' := set_parse_index s (index (lex c3)) in
    let '(q, c4) := parameter_type params c3 position in
    match q with
    | Some PUserDefined => closing c4 s'
    | _ => parse_options bits params c4 s'
    end
  else closing c3 s.
Lemma after_position_bad position c s : bad c -> exists c' s', after_position position c s = Ok (c', s') /\ bad c'.
Proof.
  intros HBc. unfold after_position. destruct (flag_bad v HL c 58 HBc) as (b & c1 & -> & H1). cbn [bind]. destruct b.
  - rewrite parameter_type_exact. pose proof (on_error_bad v (outside params position) c1 H1) as H2. cbn zeta.
    assert (HO : forall s0, exists c' s', parse_options bits params (on_error_if (outside params position) c1) s0 = Ok (c', s') /\ bad c') by (intros; now apply options_bad).
    destruct (arg_type params position) as [[]|]; try apply HO. destruct (closing_bad _ (set_parse_index s (index (lex c1))) H2) as (c' & -> & H3). eauto.
  - destruct (closing_bad c1 s H1) as (c' & -> & H3). eauto.
Qed.
Lemma parse_specifier_eq c : parse_specifier bits params c =
  (let! (position, c1) := next_position c in
   let '(p, c2) := parameter_type params c1 position in
   let! (c5, s5) := after_position position c2 (base position p (index (lex c2))) in
   Ok (c5, set_size s5 (u64 (index (lex c5) - u64 (index (lex c) - 1))))).
Proof.
  unfold parse_specifier, after_position, closing, base. destruct (next_position c) as [[position c1]|]; cbn [bind]; [|reflexivity].
  destruct (parameter_type params c1 position) as [p c2]. destruct (ctx_consume_if c2 58) as [[colon c3]|]; cbn [bind]; [|reflexivity]. reflexivity.
Qed.
Lemma user_dec (p : ptype) : p = PUserDefined \/ p <> PUserDefined.
Proof. destruct p; auto; right; discriminate. Qed.
Lemma spec_sound r n no al : suffix v (123 :: r) -> 0 <= n -> n + 2 < 2 ^ 63 ->
  exists c' s', parse_specifier bits params (cx r n no al false) = Ok (c', s') /\
    (bad c' \/ exists f p rest, valid r n no al f p rest).
Proof.
  intros HS HN HN2. assert (HS1 : suffix v r) by (now apply suffix_tail in HS). rewrite parse_specifier_eq.
  rewrite next_position_exact by (try assumption; unfold in_range; lia). cbn [bind]. rewrite parameter_type_exact.
  destruct (run_text r) as [ER HDig]. pose proof (span_suffix v r HS1) as HS2. set (p0 := digits_opt (fst (span digitb r))) in *. set (r1 := snd (span digitb r)) in *. clearbody p0 r1.
  set (pos := position_of n p0). set (n1 := n + count_auto [p0]). set (no1 := none_after no p0). set (al1 := all_after al p0).
  assert (HC1 : 0 <= count_auto [p0] <= 1) by (unfold count_auto; destruct p0; cbn; lia).
  rewrite on_error_cx. cbn [orb]. destruct (al1 && no1 || outside params pos) eqn:EE.
  { destruct (after_position_bad pos (cx r1 n1 no1 al1 true) (base pos (arg_type params pos) (index (lex (cx r1 n1 no1 al1 true)))) (cx_bad v r1 n1 no1 al1 HS2)) as (c' & s' & -> & HBd).
    cbn [bind]. eauto. }
  apply orb_false_iff in EE. destruct EE as [EF EO]. apply outside_iff in EO; [|now apply position_nonneg]. destruct EO as [p HA].
  assert (HO : outside params pos = false) by (apply outside_iff; [now apply position_nonneg|eauto]).
  assert (HFl : flags_ok no al [p0]) by (unfold flags_ok; rewrite refs_none1, refs_all1, andb_comm; exact EF).
  rewrite HA. unfold after_position. destruct (scan_flag 58 r1) as [colon r2] eqn:E58. rewrite (cx_flag v HL r1 58 colon r2) by assumption. cbn [bind].
  pose proof (scan_flag_suffix v r1 58 colon r2 HS2 E58) as HS3. apply scan_flag_sound in E58. destruct E58 as [ER1 _]. destruct colon; cbn [app] in ER1; [subst r1|subst r2].
  - rewrite parameter_type_exact, on_error_cx, HA, HO. cbn [orb]. cbn zeta.
    destruct (user_dec p) as [->|HU].
    + match goal with |- context [closing (cx r2 n1 no1 al1 false) ?s0] => pose proof (closing_cx r2 n1 no1 al1 s0 HS3) as HCl end.
      destruct (scan_flag 125 r2) as [[] r3].
      * destruct HCl as [-> ER2]. cbn [bind]. eexists. eexists. split; [reflexivity|]. right. exists (Field p0 (Some no_options)), PUserDefined, r3. split; [|split; [|split]].
        -- rewrite ER, ER2. unfold field_text. cbn [f_position f_options opt]. change (options_text no_options) with (@nil Z). cbn [app]. now rewrite <- app_assoc.
        -- split; [exact HDig|]. unfold f_options, opt_ok, options_ok. cbn. intuition congruence.
        -- split; [exact HA|]. reflexivity.
        -- exact HFl.
      * destruct HCl as (c' & -> & HBd). cbn [bind]. eauto.
    + assert (HM : forall X Y : res (pctx * specifier), match p with PUserDefined => X | _ => Y end = Y) by (intros; destruct p; try reflexivity; congruence). rewrite HM. clear HM.
      set (s0 := set_parse_index (base pos (Some p) (index (lex (cx (58 :: r2) n1 no1 al1 false)))) (index (lex (cx r2 n1 no1 al1 false)))).
      destruct (scan_options r2) as [[o r3]|] eqn:ESc.
      * destruct (options_some v HL bits params r2 o r3 n1 no1 al1 false s0 HS3 ltac:(lia) ltac:(lia) ESc) as (c' & -> & HS4 & HRes). cbn [bind]. eexists. eexists. split; [reflexivity|].
        destruct (false || options_err params n1 no1 al1 o || verr bits params (upd_options n1 o s0)) eqn:EErr; [auto|].
        destruct (scan_flag 125 r3) as [b r4] eqn:E125. cbn [fst snd] in HRes. destruct b; [|auto]. clear HRes. right. cbn [orb] in EErr. apply orb_false_iff in EErr. destruct EErr as [EE1 EE2].
        apply scan_flag_sound in E125. destruct E125 as [ER3 _]. cbn [app] in ER3. apply scan_options_sound in ESc. destruct ESc as (ER2 & HOok & HNF).
        set (f := Field p0 (Some o)). exists f, p, r4.
        assert (HT : 123 :: r = field_text f ++ r4). { rewrite ER, ER2, ER3. unfold field_text, f. cbn [f_position f_options opt]. rewrite <- !app_assoc. reflexivity. }
        split; [exact HT|]. split; [split; [exact HDig|exact HOok]|]. split; [split; [exact HA|]|].
        -- cbn [f_options f]. assert (HR : options_admitted params p f n o /\ no_fill_confusion o r4).
           { split.
             - apply (verr_iff bits params (start_of r) n p f o HB HN eq_refl HOok HU); [|exact HA|].
               + destruct (o_fill o) as [c|] eqn:EFi; [|exact I]. cbn [opt_ok]. pose proof (suffix_forall _ _ HS3 HC) as HF. rewrite ER2 in HF. unfold options_text in HF. rewrite EFi in HF. cbn [opt app] in HF. now inversion HF.
               + rewrite <- (upd_options_base (start_of r) n p f o eq_refl HOok). change (width_ref_start n f) with n1. change (position_of n (f_position f)) with pos.
                 transitivity (verr bits params (upd_options n1 o s0)); [|exact EE2].
                 match goal with |- verr _ _ (set_size (upd_options _ _ ?b1) _) = verr _ _ (upd_options _ _ ?b2) => assert (EB : b1 = b2) end.
                 { unfold s0, base, set_parse_index. cbn [lex cx]. red_spec. f_equal. rewrite index_lx. unfold start_of. pose proof (f_equal (@length Z) ER) as EL. rewrite app_length in EL. cbn [length] in EL.
                   cbn [f_position f]. rewrite EL. rewrite Nat2Z.inj_add, Nat2Z.inj_succ. lia. }
                 rewrite EB. reflexivity.
             - intros HFi. specialize (HNF HFi). rewrite ER2, ER3 in HNF. exact HNF. }
           destruct p; try exact HR. congruence.
        -- unfold f, field_refs. cbn [f_position f_options]. apply options_err_false in EE1; [|unfold n1; lia]. destruct EE1 as (EE1 & _). fold (options_refs o). change (p0 :: options_refs o) with ([p0] ++ options_refs o).
           unfold flags_ok. rewrite refs_none_app, refs_all_app. destruct EE1 as [E0|E0].
           ++ rewrite E0. unfold refs_none at 1, refs_all at 1. cbn [existsb]. rewrite !orb_false_r. exact HFl.
           ++ rewrite refs_none1, refs_all1. exact E0.
      * destruct (options_none v HL bits params r2 n1 no1 al1 false s0 HS3 ltac:(lia) ltac:(lia) ESc) as (c' & s' & -> & HBd). cbn [bind]. eauto.
  - cbn [lex cx]. match goal with |- context [closing (cx r1 n1 no1 al1 false) ?s0] => pose proof (closing_cx r1 n1 no1 al1 s0 HS2) as HCl end.
    destruct (scan_flag 125 r1) as [[] r3].
    + destruct HCl as [-> ER2]. cbn [bind]. eexists. eexists. split; [reflexivity|]. right. exists (Field p0 None), p, r3. split; [|split; [|split]].
      * rewrite ER, ER2. unfold field_text. cbn [f_position f_options opt]. rewrite <- !app_assoc. reflexivity.
      * split; [exact HDig|exact I].
      * split; [exact HA|exact I].
      * exact HFl.
    + destruct HCl as (c' & -> & HBd). cbn [bind]. eauto.
Qed.
End FieldParse.
