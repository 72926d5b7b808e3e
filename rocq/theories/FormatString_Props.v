(** C40: format strings - grammar, acceptance and substitution. *)
From Verif Require Import Common Bits Lexer_Spec Format_Model Format_Spec Format_Props FormatString_Model FormatString_Spec FormatString_Proofs FormatString_Stages FormatString_Field FormatString_Loop.

(** * Parsing is exact *)
Definition characters (bits : Z) (s : list Z) : Prop := Forall (fun c => - 2 ^ (bits - 1) <= c < 2 ^ bits) s.
(** Every text is either a format string for the given argument types, in which case the parser yields
    the specifiers it denotes, or it is rejected. *)
Theorem parse_format_exact : forall bits params s, 8 <= bits -> Z.of_nat (length s) < 2 ^ 62 -> characters bits s ->
  (forall ss, parse_format bits params s = Ok (Some ss) <-> exists ps, format_string params s ps ss) /\
  (parse_format bits params s = Ok None <-> ~ exists ps ss, format_string params s ps ss).
Proof.
  intros bits params s HB HL HC. destruct (parse_sound bits params s HB HL HC) as (o & E & HO).
  split.
  - intros ss. split.
    + intros E'. rewrite E in E'. injection E' as ->. exact HO.
    + intros [ps HF]. eapply parse_complete; eassumption.
  - split.
    + intros E' (ps & ss & HF). rewrite (parse_complete bits params s ps ss HB HL HF) in E'. discriminate.
    + intros HN. rewrite E. destruct o as [ss|]; [|reflexivity]. exfalso. apply HN. destruct HO as [ps HF]. eauto.
Qed.
(** No character of the text has to be excluded for acceptance. *)
Theorem parse_format_accepts : forall bits params s ps ss, 8 <= bits -> Z.of_nat (length s) < 2 ^ 62 ->
  format_string params s ps ss -> parse_format bits params s = Ok (Some ss).
Proof. exact parse_complete. Qed.
(** Without negative character codes the positions, widths and precisions are decimal numerals. *)
Theorem digits_are_ascii : forall d, digits_ok d -> Forall (fun c => 0 <= c) d -> d <> [] /\ Forall ascii_digit d.
Proof.
  intros d [HN HD] HP. split; [exact HN|]. rewrite Forall_forall in *. intros c Hc. destruct (HD c Hc) as [H|H]; [exact H|]. specialize (HP c Hc). cbv beta in HP. lia.
Qed.
(** The pieces spell the text. *)
Theorem pieces_text : forall params start n s ps ss, pieces params start n s ps ss -> s = flat_map piece_text ps.
Proof. induction 1; cbn [flat_map piece_text app]; try congruence. Qed.

(** * Unbalanced braces *)
Definition plain (s : list Z) : Prop := ~ In 123 s /\ ~ In 125 s.
Lemma pieces_skip params a : forall start n s ps ss, plain a -> pieces params start n (a ++ s) ps ss -> exists start' ps', pieces params start' n s ps' ss.
Proof.
  induction a as [|c a IH]; intros start n s ps ss [H1 H2] HP; [cbn in HP; eauto|]. cbn [app] in HP. cbn [In] in *.
  inversion HP as [|? ? ? ? ? ? A1 A2 HP' |? ? ? ? ? HP' E|? ? ? ? ? HP' E|? ? f ? ? ? ? ? ? ? E]; subst; try (elim H1; now left); try (elim H2; now left).
  apply (IH (start + 1) n s ps0 ss); [split; tauto|assumption].
Qed.
Lemma reject bits params a s : 8 <= bits -> Z.of_nat (length (a ++ s)) < 2 ^ 62 -> characters bits (a ++ s) -> plain a ->
  (forall start n ps ss, ~ pieces params start n s ps ss) -> parse_format bits params (a ++ s) = Ok None.
Proof.
  intros HB HL HC HP HN. apply parse_format_exact; try assumption. intros (ps & ss & HF & _). destruct (pieces_skip params a 0 0 s ps ss HP HF) as (st & ps' & H). exact (HN _ _ _ _ H).
Qed.
(** A closing brace that is not doubled, outside a field. *)
Theorem lone_closing_brace_rejected : forall bits params a b, 8 <= bits -> Z.of_nat (length (a ++ 125 :: b)) < 2 ^ 62 -> characters bits (a ++ 125 :: b) ->
  plain a -> hd 0 b <> 125 -> parse_format bits params (a ++ 125 :: b) = Ok None.
Proof.
  intros bits params a b HB HL HC HA Hb. apply reject; try assumption. intros st n ps ss HP.
  inversion HP as [|? ? ? ? ? ? A1 A2 |? ? ? ? ? HP' E|? ? ? ? ? HP' E|? ? f ? ? ? ? ? ? ? E]; subst; try congruence; try (cbn in Hb; congruence).
Qed.
(** An opening brace that is neither doubled nor closed. *)
Theorem unclosed_brace_rejected : forall bits params a b, 8 <= bits -> Z.of_nat (length (a ++ 123 :: b)) < 2 ^ 62 -> characters bits (a ++ 123 :: b) ->
  plain a -> hd 0 b <> 123 -> ~ In 125 b -> parse_format bits params (a ++ 123 :: b) = Ok None.
Proof.
  intros bits params a b HB HL HC HA Hb Hn. apply reject; try assumption. intros st n ps ss HP.
  inversion HP as [|? ? ? ? ? ? A1 A2 |? ? ? ? ? HP' E|? ? ? ? ? HP' E|? ? f ? ? ? ? ? ? ? E]; subst; try congruence; try (cbn in Hb; congruence).
  apply Hn. rewrite !in_app_iff. cbn [In]. tauto.
Qed.

(** * Substitution *)
(** Arguments that a C++ program can pass. *)
Definition arg_ok (a : arg) : Prop :=
  match a with
  | ACharacter w sg v | AInteger w sg v => native_int w /\ int_ok w sg v
  | APointer v => 0 <= v < 2 ^ 64
  | _ => True
  end.
(** The output of a field: the argument at its position, formatted. *)
Definition field_output (char_max : Z) (args : list arg) (sp : specifier) (x : list Z) : Prop :=
  exists a, nth_error args (Z.to_nat (m_position sp)) = Some a /\ format_arg char_max args sp a = Ok x.
Lemma lookup_nth {A} (l : list A) n : lookup l n = nth_error l n.
Proof. revert n. induction l as [|a l IH]; intros [|n]; cbn; auto. Qed.
Lemma arg_type_nth args n p : arg_type (map type_of_arg args) n = Some p -> n < Z.of_nat (length args) /\ exists a, nth_error args (Z.to_nat n) = Some a /\ type_of_arg a = p.
Proof.
  unfold arg_type. rewrite map_length. destruct (Z.ltb_spec n (Z.of_nat (length args))); [|discriminate]. rewrite lookup_nth, nth_error_map.
  destruct (nth_error args (Z.to_nat n)) as [a|]; [|discriminate]. cbn. intros E. injection E as E. eauto.
Qed.
(** Widths are machine words. *)
Lemma resolve_bounds args q w : Forall arg_ok args -> resolve args q = Some w -> 0 <= w < 2 ^ 64.
Proof.
  intros HA. unfold resolve, context_arg. destruct (q <? Z.of_nat (length args)); [|discriminate]. rewrite lookup_nth. destruct (nth_error args (Z.to_nat q)) as [a|] eqn:E; [|discriminate].
  assert (HO : arg_ok a) by (rewrite Forall_forall in HA; apply HA; eapply nth_error_In; exact E).
  assert (HP : forall k, native_int k -> 2 ^ k <= 2 ^ 64 /\ 2 ^ (k - 1) <= 2 ^ 64) by (intros k Hk; split; apply Z.pow_le_mono_r; unfold native_int in Hk; lia).
  destruct a as [k sg x| | |k sg x| | |]; try discriminate; destruct HO as [HK HI]; destruct (HP k HK) as [B1 B2]; destruct sg; cbn [int_ok] in HI.
  - rewrite Z.geb_leb. destruct (Z.leb_spec 0 x); [|discriminate]. intros H0. assert (w = x) by congruence. subst w. lia.
  - intros H0. assert (w = x) by congruence. subst w. lia.
  - rewrite Z.geb_leb. destruct (Z.leb_spec 0 x); [|discriminate]. intros H0. assert (w = x) by congruence. subst w. lia.
  - intros H0. assert (w = x) by congruence. subst w. lia.
Qed.
Lemma width_bounds args sp : Forall arg_ok args -> (forall w, m_width sp = Some w -> 0 <= w < 2 ^ 64) -> 0 <= resolve_width args sp 0 < 2 ^ 64.
Proof.
  intros HA HW. unfold resolve_width. destruct (m_width_position sp) as [q|].
  - destruct (resolve args q) as [w|] eqn:E; cbn [value_or]; [|lia]. eapply resolve_bounds; eassumption.
  - destruct (m_width sp) as [w|]; cbn [value_or]; [auto|lia].
Qed.
(** The presentation types an argument can end up with. *)
Lemma admitted_type params start n f p rest : field_ok f -> field_admitted params n f p rest ->
  match p with
  | PCharacter | PIntegral => m_type (field_specifier start n p f) = TCharacter \/ exists b, numeric_base (m_type (field_specifier start n p f)) = Some b
  | PBoolean => m_type (field_specifier start n p f) = TString \/ m_type (field_specifier start n p f) = TCharacter \/ exists b, numeric_base (m_type (field_specifier start n p f)) = Some b
  | _ => True
  end.
Proof.
  intros HF [_ HA]. unfold field_specifier. cbn [m_type]. destruct (f_options f) as [o|]; [|cbn [o_type no_options]; destruct p; cbn; eauto].
  destruct p; try exact I; destruct HA as [(_ & _ & _ & _ & _ & _ & _ & _ & _ & HT) _]; (destruct (o_type o) as [c|]; [|cbn; eauto]); cbn [opt_ok letters_for In] in HT;
    decompose [or] HT; try contradiction; subst c; cbn; eauto.
Qed.
Lemma format_int_total w sg cm sp width x : native_int w -> int_ok w sg x -> 0 <= width < 2 ^ 64 ->
  (m_type sp = TCharacter \/ exists b, numeric_base (m_type sp) = Some b) -> exists s, format_integer w sg cm sp width x = Ok s.
Proof.
  intros Hw Hx HW [HT|[b HT]]; [|eapply format_integer_total; eassumption]. unfold format_integer, format_unsigned. rewrite HT. destruct sg; eauto.
Qed.
Lemma field_total cm args start n f p rest : Forall arg_ok args -> 0 <= n -> field_ok f -> field_admitted (map type_of_arg args) n f p rest ->
  exists x, field_output cm args (field_specifier start n p f) x.
Proof.
  intros HA HN HF HAd. pose proof (admitted_type _ start n f p rest HF HAd) as HT. destruct HAd as [HP _]. apply arg_type_nth in HP. destruct HP as (_ & a & Ha & Hp).
  assert (HO : arg_ok a) by (rewrite Forall_forall in HA; apply HA; eapply nth_error_In; exact Ha).
  set (sp := field_specifier start n p f) in *.
  assert (HW : 0 <= resolve_width args sp 0 < 2 ^ 64).
  { apply width_bounds; [exact HA|]. intros w Ew. unfold sp, field_specifier in Ew. cbn [m_width] in Ew. unfold amount_number in Ew.
    match type of Ew with match ?x with _ => _ end = _ => destruct x as [[d|]|] end; try discriminate. assert (E : w = number 10 d mod 2 ^ 64) by congruence. rewrite E. apply Z.mod_pos_bound. reflexivity. }
  assert (HPos : m_position sp = position_of n (f_position f)) by reflexivity. clearbody sp.
  assert (HX : exists x, format_arg cm args sp a = Ok x).
  { unfold format_arg. destruct a as [w sg x|s|x|w sg x|out|b|out]; cbn [type_of_arg] in Hp; subst p; cbn [arg_ok] in HO; eauto.
    - destruct HO. apply format_int_total; assumption.
    - unfold format_pointer. apply format_int_total; [unfold native_int; lia|exact HO|exact HW|right; exists 16; reflexivity].
    - destruct HO. apply format_int_total; assumption.
    - unfold format_bool. destruct HT as [HT|HT]; [rewrite HT; eauto|].
      assert (HE : exists s, format_integer 32 false cm sp (resolve_width args sp 0) (if b then 1 else 0) = Ok s) by (apply format_int_total; [unfold native_int; lia|cbn [int_ok]; change (2 ^ 32) with 4294967296; destruct b; lia|exact HW|exact HT]).
      destruct HE as [s HE]. destruct (m_type sp); eauto. }
  destruct HX as [x HX]. exists x, a. rewrite HPos. auto.
Qed.
Lemma suffix_lookup view r : suffix view r -> forall k, lookup view (Z.to_nat (Z.of_nat (length view) - Z.of_nat (length r) + Z.of_nat k)) = nth_error r k.
Proof.
  intros [q ->] k. rewrite lookup_nth, app_length. replace (Z.to_nat (Z.of_nat (length q + length r) - Z.of_nat (length r) + Z.of_nat k)) with (length q + k)%nat by lia.
  rewrite nth_error_app2 by lia. f_equal. lia.
Qed.
Lemma substitute cm args view : Forall arg_ok args -> forall start n r ps ss, pieces (map type_of_arg args) start n r ps ss ->
  start = Z.of_nat (length view) - Z.of_nat (length r) -> 0 <= n -> suffix view r -> forall fuel, (length r < fuel)%nat ->
  exists out, format_loop fuel cm args view start ss = Ok out /\ renders (field_output cm args) ps ss out.
Proof.
  intros HA start n r ps ss HP. induction HP as [start n|start n c s ps ss H1 H2 HP IH|start n s ps ss HP IH|start n s ps ss HP IH|start n f p s ps ss HF HAd HP IH]; intros HSt HN HS fuel HFu;
    (destruct fuel as [|fuel]; [lia|]); pose proof (suffix_len _ _ HS) as HSL; pose proof (suffix_lookup _ _ HS) as HLk; rewrite <- HSt in HLk.
  - exists []. split; [|constructor]. cbn [format_loop]. rewrite Z.geb_leb, (proj2 (Z.leb_le _ _)); [reflexivity|]. cbn [length] in HSt. lia.
  - cbn [length] in *. destruct (IH ltac:(lia) HN ltac:(now apply suffix_tail in HS) fuel ltac:(lia)) as (out & E & HR). exists (c :: out). split; [|now constructor].
    cbn [format_loop]. rewrite Z.geb_leb, (proj2 (Z.leb_gt _ _)) by lia. pose proof (HLk 0%nat) as L0. cbn [nth_error Z.of_nat] in L0. rewrite Z.add_0_r in L0. rewrite L0.
    destruct (Z.eqb_spec c 123); [contradiction|]. destruct (Z.eqb_spec c 125); [contradiction|]. now rewrite E.
  - cbn [length] in *. destruct (IH ltac:(lia) HN ltac:(now apply suffix_tail, suffix_tail in HS) fuel ltac:(lia)) as (out & E & HR). exists (123 :: out). split; [|now constructor].
    cbn [format_loop]. rewrite Z.geb_leb, (proj2 (Z.leb_gt _ _)) by lia. pose proof (HLk 0%nat) as L0. pose proof (HLk 1%nat) as L1. cbn [nth_error Z.of_nat] in L0, L1. rewrite Z.add_0_r in L0. rewrite L0.
    change (123 =? 123) with true. cbn match. change (Z.pos (Pos.of_succ_nat 0)) with 1 in L1. rewrite L1. change (123 =? 123) with true. cbn match. now rewrite E.
  - cbn [length] in *. destruct (IH ltac:(lia) HN ltac:(now apply suffix_tail, suffix_tail in HS) fuel ltac:(lia)) as (out & E & HR). exists (125 :: out). split; [|now constructor].
    cbn [format_loop]. rewrite Z.geb_leb, (proj2 (Z.leb_gt _ _)) by lia. pose proof (HLk 0%nat) as L0. cbn [nth_error Z.of_nat] in L0. rewrite Z.add_0_r in L0. rewrite L0.
    change (125 =? 123) with false. change (125 =? 125) with true. cbn match. now rewrite E.
  - pose proof (field_text_nonempty f) as HNE. rewrite app_length in *.
    destruct (IH ltac:(lia) ltac:(unfold count_auto; lia) ltac:(now apply suffix_app in HS) fuel ltac:(lia)) as (out & E & HR).
    destruct (field_total cm args start n f p s HA HN HF HAd) as (x & HX). exists (x ++ out). split; [|now constructor].
    pose proof (field_second f s) as HSec. 
    assert (ET : exists c r, field_text f ++ s = 123 :: c :: r).
    { assert (HL2 : (2 <= length (field_text f ++ s))%nat) by (rewrite app_length; lia). unfold field_text in *. cbn [app] in *. 
      match type of HL2 with (2 <= length (123%Z :: ?l))%nat => destruct l as [|c r]; [cbn in HL2; lia|eauto] end. }
    destruct ET as (c & r & ET). rewrite ET in HSec, HLk. specialize (HSec HF).
    cbn [format_loop]. rewrite Z.geb_leb, (proj2 (Z.leb_gt _ _)) by lia. pose proof (HLk 0%nat) as L0. pose proof (HLk 1%nat) as L1. cbn [nth_error Z.of_nat] in L0, L1. rewrite Z.add_0_r in L0. rewrite L0.
    change (123 =? 123) with true. cbn match. change (Z.pos (Pos.of_succ_nat 0)) with 1 in L1. rewrite L1. destruct (Z.eqb_spec c 123); [contradiction|].
    destruct HX as (a & Ha & HX). unfold context_arg.
    assert (HR2 : m_position (field_specifier start n p f) <? Z.of_nat (length args) = true).
    { destruct HAd as [HAd _]. apply arg_type_nth in HAd. apply Z.ltb_lt. apply HAd. }
    rewrite HR2, lookup_nth, Ha, HX. cbn [bind]. change (m_size (field_specifier start n p f)) with (Z.of_nat (length (field_text f))). now rewrite E.
Qed.

(** A format string is turned into its literal text, with doubled braces as single ones, and the output
    of each field in place; formatting never fails. *)
Theorem format_exact : forall bits cm msg s args ps ss, 8 <= bits -> Z.of_nat (length s) < 2 ^ 62 -> Forall arg_ok args ->
  format_string (map type_of_arg args) s ps ss ->
  exists out, format_to bits cm msg s args = Ok out /\ renders (field_output cm args) ps ss out.
Proof.
  intros bits cm msg s args ps ss HB HL HA HF. unfold format_to. rewrite (parse_complete _ _ _ ps ss HB HL HF). cbn [bind]. destruct HF as (HP & _).
  apply (substitute cm args s HA 0 0 s ps ss HP); [lia|lia|exists []; reflexivity|lia].
Qed.
(** Every other text gives the error text. *)
Theorem format_rejected : forall bits cm msg s args, 8 <= bits -> Z.of_nat (length s) < 2 ^ 62 -> characters bits s ->
  (~ exists ps ss, format_string (map type_of_arg args) s ps ss) -> format_to bits cm msg s args = Ok (ignored_text ++ msg).
Proof. intros bits cm msg s args HB HL HC HN. unfold format_to. rewrite (proj2 (proj2 (parse_format_exact bits _ s HB HL HC)) HN). reflexivity. Qed.
(** Text whose braces are doubled is reproduced, whatever the arguments. *)
Theorem format_doubled : forall bits cm msg s args, 8 <= bits -> Z.of_nat (length (doubled s)) < 2 ^ 62 -> Forall arg_ok args ->
  format_to bits cm msg (doubled s) args = Ok s.
Proof.
  intros bits cm msg s args HB HL HA.
  assert (HP : forall start, exists ps, pieces (map type_of_arg args) start 0 (doubled s) ps [] /\ all_refs ps = [] /\ forall out, renders (field_output cm args) ps [] out -> out = s).
  { clear HL. induction s as [|c s IH]; intros start.
    - exists []. split; [constructor|]. split; [reflexivity|]. intros out H. now inversion H.
    - unfold doubled. cbn [flat_map]. fold (doubled s). destruct (Z.eqb_spec c 123) as [->|H1]; [|destruct (Z.eqb_spec c 125) as [->|H2]]; cbn [orb app].
      + destruct (IH (start + 2)) as (ps & HP & HR & HO). exists (OpenBrace :: ps). split; [now constructor|]. split; [exact HR|]. intros out H. inversion H; subst. f_equal. auto.
      + destruct (IH (start + 2)) as (ps & HP & HR & HO). exists (CloseBrace :: ps). split; [now constructor|]. split; [exact HR|]. intros out H. inversion H; subst. f_equal. auto.
      + destruct (IH (start + 1)) as (ps & HP & HR & HO). exists (Literal c :: ps). split; [now constructor|]. split; [exact HR|]. intros out H. inversion H; subst. f_equal. auto. }
  destruct (HP 0) as (ps & HPs & HR & HO). destruct (format_exact bits cm msg (doubled s) args ps [] HB HL HA) as (out & E & HRen).
  - split; [exact HPs|]. split; [rewrite HR; left; constructor|cbn; lia].
  - rewrite E. f_equal. now apply HO.
Qed.

(** * What a field shows, for integers and strings: with the width its specifier denotes - a number, or
    the value of the argument it refers to (nothing when that is negative or not an integer). *)
Definition wanted (args : list arg) (number position : option Z) (fallback : Z) : Z :=
  match position with
  | Some q =>
      match nth_error args (Z.to_nat q) with
      | Some (AInteger _ _ v) | Some (ACharacter _ _ v) => if v <? 0 then fallback else v
      | _ => fallback
      end
  | None => match number with Some w => w | None => fallback end
  end.
Lemma resolve_wanted args q fallback : Forall arg_ok args -> 0 <= q -> value_or (resolve args q) fallback = wanted args None (Some q) fallback.
Proof.
  intros HA HQ. unfold resolve, context_arg, wanted. destruct (Z.ltb_spec q (Z.of_nat (length args))) as [H|H].
  - rewrite lookup_nth. destruct (nth_error args (Z.to_nat q)) as [a|] eqn:E; [|reflexivity].
    assert (HO : arg_ok a) by (rewrite Forall_forall in HA; apply HA; eapply nth_error_In; exact E).
    destruct a as [k sg x| | |k sg x| | |]; try reflexivity; destruct HO as [_ HI]; destruct sg; cbn [int_ok] in HI; rewrite ?Z.geb_leb; destruct (Z.ltb_spec x 0); try lia;
      try (destruct (Z.leb_spec 0 x); try lia); reflexivity.
  - assert (E : nth_error args (Z.to_nat q) = None) by (apply nth_error_None; lia). now rewrite E.
Qed.
Definition spec_ok (sp : specifier) : Prop :=
  (forall q, m_width_position sp = Some q -> 0 <= q) /\ (forall q, m_precision_position sp = Some q -> 0 <= q) /\
  (forall w, m_width sp = Some w -> 0 <= w < 2 ^ 64) /\ (forall w, m_precision sp = Some w -> 0 <= w < 2 ^ 64).
Theorem fields_spec_ok : forall params start n s ps ss, 0 <= n -> pieces params start n s ps ss -> Forall spec_ok ss.
Proof.
  intros params start n s ps ss HN HP. revert HN. induction HP; intros HN; auto. constructor; [|apply IHHP; unfold count_auto; lia].
  assert (A : forall k a q, 0 <= k -> amount_position k a = Some q -> 0 <= q) by (intros; eapply amount_position_nonneg; eassumption).
  assert (B : forall a w, amount_number a = Some w -> 0 <= w < 2 ^ 64).
  { intros a w E. destruct a as [[d|]|]; try discriminate. assert (E' : w = number 10 d mod 2 ^ 64) by (unfold amount_number in E; congruence). rewrite E'. apply Z.mod_pos_bound. reflexivity. }
  unfold spec_ok, field_specifier. cbn [m_width_position m_precision_position m_width m_precision]. 
  split; [intros q; apply A; now apply width_ref_nonneg|]. split; [intros q; apply A; now apply precision_ref_nonneg|]. split; apply B.
Qed.
Theorem integer_field : forall cm args sp w sg v b x, Forall arg_ok args -> spec_ok sp -> nth_error args (Z.to_nat (m_position sp)) = Some (AInteger w sg v) ->
  numeric_base (m_type sp) = Some b -> field_output cm args sp x ->
  exists left_ zeros right_ digits,
    let fill := match m_fill sp with Some c => c | None => 32 end in
    let prefix := sign_text (m_sign sp) v ++ base_text (m_alternate_form sp) (m_type sp) (m_case sp) in
    x = repeat fill left_ ++ prefix ++ repeat 48 zeros ++ digits ++ repeat fill right_ /\
    positional b (match m_case sp with CUpper => true | CLower => false end && (b =? 16)) (Z.abs v) digits /\
    placed (m_alignment sp) (m_zero_padding sp) left_ zeros right_ /\
    Z.of_nat (length x) = Z.max (wanted args (m_width sp) (m_width_position sp) 0) (Z.of_nat (length (prefix ++ digits))).
Proof.
  intros cm args sp w sg v b x HA HSp HN HB (a & Ha & HX). rewrite HN in Ha. injection Ha as <-. unfold format_arg in HX.
  assert (HO : arg_ok (AInteger w sg v)) by (rewrite Forall_forall in HA; apply HA; eapply nth_error_In; exact HN). destruct HO as [Hw Hv].
  destruct HSp as (P1 & P2 & P3 & P4). pose proof (width_bounds args sp HA P3) as HW.
  assert (EW : resolve_width args sp 0 = wanted args (m_width sp) (m_width_position sp) 0).
  { unfold resolve_width. destruct (m_width_position sp) as [q|]; [rewrite resolve_wanted by auto; reflexivity|]. now destruct (m_width sp). }
  rewrite EW in *. destruct (format_integer_exact w sg cm sp _ v b Hw Hv HW HB) as (l & z & r & d & E & HPos & HRest). cbv zeta in *. rewrite E in HX.
  exists l, z, r, d. assert (EX : x = repeat (value_or (m_fill sp) 32) l ++ (sign_text (m_sign sp) v ++ base_text (m_alternate_form sp) (m_type sp) (m_case sp)) ++ repeat 48 z ++ d ++ repeat (value_or (m_fill sp) 32) r) by congruence.
  split; [exact EX|]. split; [exact HPos|]. destruct HRest as [HPl HLn]. split; [exact HPl|]. rewrite EX. exact HLn.
Qed.
Theorem string_field : forall cm args sp v x, Forall arg_ok args -> spec_ok sp -> nth_error args (Z.to_nat (m_position sp)) = Some (AString v) -> Z.of_nat (length v) < 2 ^ 64 ->
  field_output cm args sp x ->
  exists left_ right_,
    let fill := match m_fill sp with Some c => c | None => 32 end in
    let shown := firstn (Z.to_nat (wanted args (m_precision sp) (m_precision_position sp) (Z.of_nat (length v)))) v in
    x = repeat fill left_ ++ shown ++ repeat fill right_ /\ placed_text (m_alignment sp) left_ right_ /\
    Z.of_nat (length x) = Z.max (wanted args (m_width sp) (m_width_position sp) 0) (Z.of_nat (length shown)).
Proof.
  intros cm args sp v x HA HSp HN HLv (a & Ha & HX). rewrite HN in Ha. injection Ha as <-. unfold format_arg in HX. destruct HSp as (P1 & P2 & P3 & P4). pose proof (width_bounds args sp HA P3) as HW.
  assert (HNP : 2 ^ 64 - 1 = npos) by reflexivity. generalize dependent npos. intros npos HX HNP.
  assert (EW : forall fb, resolve_width args sp fb = wanted args (m_width sp) (m_width_position sp) fb).
  { intros fb. unfold resolve_width. destruct (m_width_position sp) as [q|]; [rewrite resolve_wanted by auto; reflexivity|]. now destruct (m_width sp). }
  assert (EP : forall fb, resolve_precision args sp fb = wanted args (m_precision sp) (m_precision_position sp) fb).
  { intros fb. unfold resolve_precision. destruct (m_precision_position sp) as [q|]; [rewrite resolve_wanted by auto; reflexivity|]. now destruct (m_precision sp). }
  rewrite EW in *. rewrite EP in HX.
  assert (HPn : 0 <= wanted args (m_precision sp) (m_precision_position sp) npos).
  { rewrite <- EP. unfold resolve_precision. destruct (m_precision_position sp) as [q|].
    - destruct (resolve args q) as [w|] eqn:E; cbn [value_or]; [|lia]. pose proof (resolve_bounds args q w HA E). lia.
    - destruct (m_precision sp) as [w|] eqn:E; cbn [value_or]; [|lia]. specialize (P4 w eq_refl). lia. }
  assert (HF : firstn (Z.to_nat (wanted args (m_precision sp) (m_precision_position sp) npos)) v = firstn (Z.to_nat (wanted args (m_precision sp) (m_precision_position sp) (Z.of_nat (length v)))) v).
  { assert (HA1 : firstn (Z.to_nat npos) v = v) by (apply firstn_all2; lia).
    assert (HA2 : firstn (Z.to_nat (Z.of_nat (length v))) v = v) by (rewrite Nat2Z.id; apply firstn_all).
    unfold wanted. destruct (m_precision_position sp) as [q|].
    - destruct (nth_error args (Z.to_nat q)) as [[k sg y| | |k sg y| | |]|]; rewrite ?HA1, ?HA2; try reflexivity; destruct (y <? 0); rewrite ?HA1, ?HA2; reflexivity.
    - destruct (m_precision sp); [reflexivity|]. now rewrite HA1, HA2. }
  destruct (format_string_value_exact sp _ (Some (wanted args (m_precision sp) (m_precision_position sp) npos)) v (proj1 HW)) as (l & r & E & HPl & HLn).
  { intros p Ep. assert (p = wanted args (m_precision sp) (m_precision_position sp) npos) by congruence. subst p. exact HPn. }
  cbv zeta in *. rewrite E in HX. rewrite HF in *. exists l, r. assert (EX : x = repeat (value_or (m_fill sp) 32) l ++ firstn (Z.to_nat (wanted args (m_precision sp) (m_precision_position sp) (Z.of_nat (length v)))) v ++ repeat (value_or (m_fill sp) 32) r) by congruence.
  split; [exact EX|]. split; [exact HPl|]. rewrite EX. exact HLn.
Qed.

(** A pointer is its address in hexadecimal, always with the prefix 0x (0X). *)
Theorem pointer_field : forall cm args sp v x, Forall arg_ok args -> spec_ok sp -> nth_error args (Z.to_nat (m_position sp)) = Some (APointer v) ->
  field_output cm args sp x ->
  exists left_ zeros right_ digits,
    let fill := match m_fill sp with Some c => c | None => 32 end in
    let prefix := sign_text (m_sign sp) v ++ [48; match m_case sp with CUpper => 88 | CLower => 120 end] in
    x = repeat fill left_ ++ prefix ++ repeat 48 zeros ++ digits ++ repeat fill right_ /\
    positional 16 (match m_case sp with CUpper => true | CLower => false end) v digits /\
    placed (m_alignment sp) (m_zero_padding sp) left_ zeros right_ /\
    Z.of_nat (length x) = Z.max (wanted args (m_width sp) (m_width_position sp) 0) (Z.of_nat (length (prefix ++ digits))).
Proof.
  intros cm args sp v x HA HSp HN (a & Ha & HX). rewrite HN in Ha. injection Ha as <-. unfold format_arg in HX.
  assert (HO : arg_ok (APointer v)) by (rewrite Forall_forall in HA; apply HA; eapply nth_error_In; exact HN). cbn in HO.
  destruct HSp as (P1 & P2 & P3 & P4). pose proof (width_bounds args sp HA P3) as HW.
  assert (EW : resolve_width args sp 0 = wanted args (m_width sp) (m_width_position sp) 0).
  { unfold resolve_width. destruct (m_width_position sp) as [q|]; [rewrite resolve_wanted by auto; reflexivity|]. now destruct (m_width sp). }
  rewrite EW in *. unfold format_pointer in HX.
  assert (N64 : native_int 64) by (unfold native_int; auto).
  destruct (format_integer_exact 64 false cm (with_pointer_options sp) _ v 16 N64 HO HW eq_refl) as (l & z & r & d & E & HPos & HPl & HLn).
  cbv zeta in *. rewrite E in HX. unfold with_pointer_options in E, HPos, HPl, HLn, HX. cbn [m_fill m_sign m_alternate_form m_type m_case m_alignment m_zero_padding] in E, HPos, HPl, HLn, HX.
  assert (EB : base_text true THex (m_case sp) = [48; match m_case sp with CUpper => 88 | CLower => 120 end]) by (now destruct (m_case sp)).
  rewrite EB in *. exists l, z, r, d.
  assert (EX : x = repeat (value_or (m_fill sp) 32) l ++ (sign_text (m_sign sp) v ++ [48; match m_case sp with CUpper => 88 | CLower => 120 end]) ++ repeat 48 z ++ d ++ repeat (value_or (m_fill sp) 32) r) by congruence.
  split; [exact EX|]. split; [|split; [exact HPl|]].
  - rewrite Z.abs_eq in HPos by lia. rewrite Z.eqb_refl, andb_true_r in HPos. exact HPos.
  - rewrite EX. exact HLn.
Qed.
(** An argument of a user-defined type: what its formatter writes. *)
Theorem user_field : forall cm args sp out x, nth_error args (Z.to_nat (m_position sp)) = Some (AUser out) -> field_output cm args sp x -> x = out.
Proof. intros cm args sp out x HN (a & Ha & HX). rewrite HN in Ha. injection Ha as <-. cbn in HX. congruence. Qed.

(** * Differences from the documented grammar (after std::format) *)
(** The parser looks for a fill character before it looks for the closing brace: "{:}<" is rejected
    although it is the field {:} followed by a less-than sign. *)
Theorem fill_lookahead_refuted : parse_format 8 [PIntegral] [123; 58; 125] = Ok (Some [field_specifier 0 0 PIntegral (Field None (Some no_options))]) /\
  parse_format 8 [PIntegral] ([123; 58; 125] ++ [60]) = Ok None.
Proof. split; reflexivity. Qed.
(** With a signed char, a byte above 127 is read as part of a position: "{5\xff}" refers to argument 1. *)
Theorem negative_digit_refuted : parse_format 8 [PIntegral; PString] [123; 53; -1; 125] = Ok (Some [field_specifier 0 0 PString (Field (Some [53; -1]) None)]) /\
  position_of 0 (Some [53; -1]) = 1.
Proof. split; reflexivity. Qed.
(** Positions are read modulo 2^64: "{18446744073709551617}" refers to argument 1. *)
Theorem wrapped_position_refuted :
  exists ss, parse_format 8 [PIntegral; PString] [123; 49;56;52;52;54;55;52;52;48;55;51;55;48;57;53;53;49;54;49;55; 125] = Ok (Some ss) /\ map m_position ss = [1].
Proof.
  exists [field_specifier 0 0 PString (Field (Some [49;56;52;52;54;55;52;52;48;55;51;55;48;57;53;53;49;54;49;55]) None)]. split; vm_compute; reflexivity.
Qed.

(** Concrete cases, and that the hypotheses above are met. *)
Example C40_cases :
  (* "a{}{{}}" with 42 *)
  format_to 8 127 [] [97; 123; 125; 123; 123; 125; 125] [AInteger 32 true 42] = Ok [97; 52; 50; 123; 125] /\
  (* "{1}-{0}" *)
  format_to 8 127 [] [123; 49; 125; 45; 123; 48; 125] [AInteger 32 true 42; AString [120]] = Ok [120; 45; 52; 50] /\
  (* "{:*^{}.{}}" with "hello", 7, 3 *)
  format_to 8 127 [] [123; 58; 42; 94; 123; 125; 46; 123; 125; 125] [AString [104;101;108;108;111]; AInteger 32 true 7; AInteger 32 true 3] = Ok [42; 42; 104; 101; 108; 42; 42] /\
  (* "{} {0}" mixes automatic and explicit *)
  parse_format 8 [PIntegral] [123; 125; 32; 123; 48; 125] = Ok None /\
  (* "{:d}" of a string *)
  parse_format 8 [PString] [123; 58; 100; 125] = Ok None /\
  (* "{1}" with one argument *)
  parse_format 8 [PString] [123; 49; 125] = Ok None /\
  (exists ps ss, format_string [PIntegral] [97; 123; 58; 35; 120; 125] ps ss) /\
  characters 8 [97; 123; 125; -61; -87] /\ Forall arg_ok [AInteger 32 true 42; AString [120]] /\ plain [97; 98].
Proof.
  repeat (split; [vm_compute; reflexivity|]). split.
  { destruct (parse_sound 8 [PIntegral] [97; 123; 58; 35; 120; 125]) as (o & E & HO); [lia|reflexivity|repeat (constructor; [change (2 ^ (8 - 1)) with 128; change (2 ^ 8) with 256; lia|]); constructor|].
    assert (EV : exists ss, parse_format 8 [PIntegral] [97; 123; 58; 35; 120; 125] = Ok (Some ss)) by (vm_compute; eexists; reflexivity). destruct EV as [ss EV]. rewrite E in EV. assert (o = Some ss) by congruence. subst o.
    destruct HO as [ps HO]. eauto. }
  split; [unfold characters; repeat (constructor; [change (2 ^ (8 - 1)) with 128; change (2 ^ 8) with 256; lia|]); constructor|]. split.
  - constructor; [split; [unfold native_int; lia|unfold int_ok; change (2 ^ (32 - 1)) with 2147483648; lia]|]. constructor; [exact I|constructor].
  - unfold plain. cbn [In]. lia.
Qed.

Print Assumptions parse_format_exact.
Print Assumptions parse_format_accepts.
Print Assumptions digits_are_ascii.
Print Assumptions pieces_text.
Print Assumptions lone_closing_brace_rejected.
Print Assumptions unclosed_brace_rejected.
Print Assumptions format_exact.
Print Assumptions format_rejected.
Print Assumptions format_doubled.
Print Assumptions fields_spec_ok.
Print Assumptions integer_field.
Print Assumptions string_field.
Print Assumptions fill_lookahead_refuted.
Print Assumptions negative_digit_refuted.
Print Assumptions wrapped_position_refuted.
