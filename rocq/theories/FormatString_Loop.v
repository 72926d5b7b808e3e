(** Proofs for C40: the whole format string, and substitution. *)
From Verif Require Import Common Bits Lexer_Model Lexer_Spec Lexer_Props Format_Model FormatString_Model FormatString_Spec FormatString_Proofs FormatString_Stages FormatString_Field.

Lemma count_auto_text f : count_auto (field_refs f) <= Z.of_nat (length (field_text f)).
Proof.
  assert (A : forall a, count_auto (amount_refs a) <= Z.of_nat (length (opt a amount_text))).
  { intros [[d|q]|]; cbn [amount_refs opt amount_text]; unfold count_auto; cbn [filter]; [cbn [length]; lia| |cbn [length]; lia]. destruct (automatic q); cbn [length app]; lia. }
  assert (B : forall a, (length (opt a amount_text) <= length (opt a (fun a => [46%Z] ++ amount_text a)))%nat) by (intros [a|]; cbn [opt app length]; lia).
  unfold field_refs, field_text. change (f_position f :: ?x) with ([f_position f] ++ x). rewrite count_auto_app, !app_length. cbn [length].
  assert (count_auto [f_position f] <= 1) by (unfold count_auto; destruct (f_position f); cbn; lia).
  destruct (f_options f) as [o|]; cbn [opt]; [|unfold count_auto at 2; cbn [filter length]; lia].
  rewrite count_auto_app, app_length. unfold options_text. rewrite !app_length. pose proof (A (o_width o)). pose proof (A (o_precision o)). pose proof (B (o_precision o)). lia.
Qed.
Lemma field_text_nonempty f : (2 <= length (field_text f))%nat.
Proof. unfold field_text. rewrite !app_length. cbn [length]. lia. Qed.
Lemma flags_ok_app no al a b : flags_ok no al (a ++ b) <-> flags_ok (refs_none no a) (refs_all al a) b.
Proof. unfold flags_ok. now rewrite refs_none_app, refs_all_app. Qed.
Lemma uniform_flags rs : flags_ok false false rs <-> uniform rs.
Proof.
  unfold flags_ok, refs_none, refs_all, uniform. cbn [orb]. rewrite andb_false_iff.
  assert (A : existsb automatic rs = false <-> Forall (fun r => r <> None) rs).
  { induction rs as [|[d|] rs IH]; cbn [existsb automatic orb].
    - split; auto.
    - rewrite IH. split; intros H; [constructor; [discriminate|exact H]|now inversion H].
    - split; [discriminate|]. intros H. inversion H; congruence. }
  assert (B : existsb (fun p => negb (automatic p)) rs = false <-> Forall (fun r => r = None) rs).
  { clear A. induction rs as [|[d|] rs IH]; cbn [existsb automatic orb negb].
    - split; auto.
    - split; [discriminate|]. intros H. inversion H; congruence.
    - rewrite IH. split; intros H; [constructor; [reflexivity|exact H]|now inversion H]. }
  rewrite A, B. tauto.
Qed.

Lemma field_second f rest : match (field_text f ++ rest) with _ :: c :: _ => field_ok f -> c <> 123 | _ => True end.
Proof.
  unfold field_text. cbn [app]. destruct (f_position f) as [[|d ds]|] eqn:EP; cbn [opt app].
  - destruct (f_options f); cbn; intros [HP _]; rewrite EP in HP; cbn in HP; destruct HP; congruence.
  - intros [HP _]. rewrite EP in HP. destruct HP as [_ HP]. inversion HP as [|? ? Hd]; subst. unfold digit_char, ascii_digit in Hd. lia.
  - destruct (f_options f); cbn; intros; lia.
Qed.

Section Loop.
Variable v : list Z.
Variables (bits : Z) (params : list ptype).
Hypothesis HL62 : Z.of_nat (length v) < 2 ^ 62.
Hypothesis HB : 8 <= bits.
Notation cx := (cx v). Notation bad := (bad v).
Lemma HL : Z.of_nat (length v) < 2 ^ 63.
Proof. change (2 ^ 63) with (2 * 2 ^ 62). lia. Qed.
Definition at_ (r : list Z) : Z := Z.of_nat (length v) - Z.of_nat (length r).
Lemma with_lexer_cx' r r' n no al e : with_lexer (cx r n no al e) (lx v r') = cx r' n no al e.
Proof. reflexivity. Qed.
Lemma length_app_z {A} (a b : list A) : Z.of_nat (length (a ++ b)) = Z.of_nat (length a) + Z.of_nat (length b).
Proof. rewrite app_length. apply Nat2Z.inj_add. Qed.

(** One iteration, by the shape of the remaining text. *)
Lemma loop_nil fuel n no al acc : suffix v [] -> parse_loop (S fuel) bits params (cx [] n no al false) acc = Ok (cx [] n no al false, acc).
Proof. intros HS. cbn [parse_loop m_error cx lex]. rewrite lx_consume by (apply HL || assumption). reflexivity. Qed.
Lemma loop_literal fuel c r n no al acc : suffix v (c :: r) -> c <> 123 -> c <> 125 ->
  parse_loop (S fuel) bits params (cx (c :: r) n no al false) acc = parse_loop fuel bits params (cx r n no al false) acc.
Proof.
  intros HS H1 H2. cbn [parse_loop m_error cx lex]. rewrite lx_consume by (apply HL || assumption). rewrite with_lexer_cx'.
  destruct (Z.eqb_spec c 123); [contradiction|]. destruct (Z.eqb_spec c 125); [contradiction|]. reflexivity.
Qed.
Lemma loop_open fuel r n no al acc : suffix v (123 :: 123 :: r) ->
  parse_loop (S fuel) bits params (cx (123 :: 123 :: r) n no al false) acc = parse_loop fuel bits params (cx r n no al false) acc.
Proof.
  intros HS. cbn [parse_loop m_error cx lex]. rewrite lx_consume by (apply HL || assumption). rewrite with_lexer_cx'. cbn [Z.eqb].
  change (123 =? 123) with true. cbn match. rewrite (cx_flag v HL (123 :: r) 123 true r); [reflexivity|now apply suffix_tail in HS|reflexivity].
Qed.
Lemma loop_close fuel r n no al acc : suffix v (125 :: r) ->
  match scan_flag 125 r with
  | (true, r') => parse_loop (S fuel) bits params (cx (125 :: r) n no al false) acc = parse_loop fuel bits params (cx r' n no al false) acc
  | (false, _) => parse_loop (S fuel) bits params (cx (125 :: r) n no al false) acc = parse_loop fuel bits params (cx r n no al true) acc
  end.
Proof.
  intros HS. destruct (scan_flag 125 r) as [b r'] eqn:E. pose proof E as E0. cbn [parse_loop m_error cx lex]. rewrite lx_consume by (apply HL || assumption). rewrite with_lexer_cx'.
  change (125 =? 123) with false. change (125 =? 125) with true. cbn match. rewrite (cx_flag v HL r 125 b r'); [|now apply suffix_tail in HS|exact E]. cbn [bind].
  apply scan_flag_sound in E0. destruct E0 as [E0 _]. destruct b; [reflexivity|]. cbn [app] in E0. subst r'. reflexivity.
Qed.
Lemma loop_field fuel r n no al acc : suffix v (123 :: r) -> match r with c :: _ => c <> 123 | [] => True end ->
  parse_loop (S fuel) bits params (cx (123 :: r) n no al false) acc =
  if (64 <=? length acc)%nat then parse_loop fuel bits params (cx r n no al true) acc
  else let! (c3, s) := parse_specifier bits params (cx r n no al false) in parse_loop fuel bits params c3 (acc ++ [s]).
Proof.
  intros HS HH. cbn [parse_loop m_error cx lex]. rewrite lx_consume by (apply HL || assumption). rewrite with_lexer_cx'. change (123 =? 123) with true. cbn match.
  rewrite (cx_flag v HL r 123 false r); [reflexivity|now apply suffix_tail in HS|]. destruct r as [|c r]; [reflexivity|]. cbn [scan_flag]. destruct (Z.eqb_spec c 123); [contradiction|reflexivity].
Qed.
Lemma loop_bad fuel c acc : bad c -> parse_loop (S fuel) bits params c acc = Ok (c, acc).
Proof. intros [He _]. cbn [parse_loop]. now rewrite He. Qed.
Lemma loop_complete start n r ps ss : pieces params start n r ps ss -> start = at_ r -> suffix v r -> 0 <= n -> n + Z.of_nat (length r) <= Z.of_nat (length v) ->
  forall fuel no al acc, (length r < fuel)%nat -> flags_ok no al (all_refs ps) -> (length acc + length ss <= 64)%nat ->
  exists n' no' al', parse_loop fuel bits params (cx r n no al false) acc = Ok (cx [] n' no' al' false, acc ++ ss).
Proof.
  induction 1 as [start n|start n c s ps ss H1 H2 HP IH|start n s ps ss HP IH|start n s ps ss HP IH|start n f p s ps ss HF HA HP IH]; intros HSt HS HN HNL fuel no al acc HFu HFl HLen;
    (destruct fuel as [|fuel]; [lia|]).
  - rewrite loop_nil by assumption. rewrite app_nil_r. eauto.
  - rewrite loop_literal by assumption. cbn [length] in *. apply IH; try assumption; [subst start; unfold at_; cbn [length]; lia|now apply suffix_tail in HS|lia|lia].
  - rewrite loop_open by assumption. cbn [length] in *. apply IH; try assumption; [subst start; unfold at_; cbn [length]; lia|now apply suffix_tail, suffix_tail in HS|lia|lia].
  - pose proof (loop_close fuel (125 :: s) n no al acc HS) as HCl. cbn [scan_flag] in HCl. rewrite Z.eqb_refl in HCl. rewrite HCl. cbn [length] in *.
    apply IH; try assumption; [subst start; unfold at_; cbn [length]; lia|now apply suffix_tail, suffix_tail in HS|lia|lia].
  - pose proof (field_second f s) as H2. pose proof (field_text_nonempty f) as HNE. pose proof (count_auto_text f) as HCT. rewrite app_length in HNL, HFu. rewrite Nat2Z.inj_add in HNL.
    cbn [all_refs flat_map] in HFl. fold (all_refs ps) in HFl.
    assert (ET : exists r, field_text f ++ s = 123 :: r) by (unfold field_text; cbn [app]; eauto). destruct ET as [r ET]. 
    assert (HLr : length r = (length (field_text f) + length s - 1)%nat). { apply (f_equal (@length Z)) in ET. rewrite app_length in ET. cbn [length] in ET. lia. }
    rewrite ET in *. pose proof (suffix_len _ _ HS) as HSL. cbn [length] in HSL.
    rewrite loop_field; [|assumption|destruct r as [|c r']; [exact I|now apply H2]]. destruct (Nat.leb_spec 64 (length acc)); [cbn [length] in HLen; lia|].
    assert (HV : valid params r n no al f p s). { split; [now rewrite ET|]. split; [exact HF|]. split; [exact HA|]. now apply flags_prefix in HFl. }
    assert (HStart : start_of v r = start) by (subst start; unfold start_of, at_; cbn [length]; lia).
    rewrite (spec_complete v HL bits params HB r n no al f p s) by (assumption || lia). cbn [bind]. rewrite HStart.
    assert (HSs : suffix v s) by (rewrite <- ET in HS; now apply suffix_app in HS).
    destruct (IH ltac:(subst start; unfold at_; cbn [length]; lia) HSs ltac:(unfold count_auto; lia) ltac:(lia) fuel (refs_none no (field_refs f)) (refs_all al (field_refs f)) (acc ++ [field_specifier start n p f])) as (n' & no' & al' & E);
      [lia|now apply flags_ok_app|rewrite app_length; cbn [length] in *; lia|].
    rewrite E. rewrite <- app_assoc. cbn [app]. eauto.
Qed.
Hypothesis HC : Forall (fun c => - 2 ^ (bits - 1) <= c < 2 ^ bits) v.
Lemma loop_sound fuel : forall r n no al acc, suffix v r -> 0 <= n -> n + Z.of_nat (length r) <= Z.of_nat (length v) -> (length r < fuel)%nat ->
  flags_ok no al [] -> (length acc <= 64)%nat ->
  exists c res, parse_loop fuel bits params (cx r n no al false) acc = Ok (c, res) /\
    (bad c \/ exists ps ss, m_error c = false /\ pieces params (at_ r) n r ps ss /\ flags_ok no al (all_refs ps) /\ res = acc ++ ss /\ (length acc + length ss <= 64)%nat).
Proof.
  induction fuel as [|fuel IH]; intros r n no al acc HS HN HNL HFu HFl HLen; [lia|]. destruct r as [|c r].
  { rewrite loop_nil by assumption. eexists. eexists. split; [reflexivity|]. right. exists [], []. split; [reflexivity|]. split; [constructor|]. split; [exact HFl|]. split; [now rewrite app_nil_r|]. cbn [length]. lia. }
  cbn [length] in HNL, HFu. rewrite Nat2Z.inj_succ in HNL. pose proof (suffix_len _ _ HS) as HSL. cbn [length] in HSL.
  assert (HS1 : suffix v r) by (now apply suffix_tail in HS). assert (HF1 : exists f, fuel = S f) by (destruct fuel; [lia|eauto]).
  destruct (Z.eq_dec c 123) as [->|H1]; [|destruct (Z.eq_dec c 125) as [->|H2]].
  - destruct r as [|c r].
    + (* a lone opening brace at the end *)
      rewrite loop_field by (assumption || exact I). destruct HF1 as [f1 ->]. destruct (64 <=? length acc)%nat.
      { rewrite loop_bad by (now apply cx_bad). eexists. eexists. split; [reflexivity|]. left. now apply cx_bad. }
      destruct (spec_sound v HL bits params HB HC [] n no al HS HN ltac:(change (2 ^ 63) with (2 * 2 ^ 62); lia)) as (c' & s' & E & [HBd|(f & p & rest & ET & _)]).
      * rewrite E. cbn [bind]. rewrite loop_bad by assumption. eauto.
      * exfalso. apply (f_equal (@length Z)) in ET. rewrite app_length in ET. pose proof (field_text_nonempty f). cbn [length] in ET. lia.
    + destruct (Z.eq_dec c 123) as [->|Hc].
      * rewrite loop_open by assumption. cbn [length] in *.
        destruct (IH r n no al acc ltac:(now apply suffix_tail in HS1) HN ltac:(lia) ltac:(lia) HFl HLen) as (c' & res & E & HR). rewrite E. exists c', res. split; [reflexivity|].
        destruct HR as [HR|(ps & ss & He & HP & HF & Er & Hl)]; [auto|]. right. exists (OpenBrace :: ps), ss. split; [exact He|]. split; [|auto].
        constructor. replace (at_ (123 :: 123 :: r) + 2) with (at_ r) by (unfold at_; cbn [length]; lia). exact HP.
      * rewrite loop_field by assumption. destruct (Nat.leb_spec 64 (length acc)) as [HG|HG].
        { destruct HF1 as [f1 ->]. rewrite loop_bad by (now apply cx_bad). eexists. eexists. split; [reflexivity|]. left. now apply cx_bad. }
        assert (HN2 : n + 2 < 2 ^ 63) by (change (2 ^ 63) with (2 * 2 ^ 62); lia).
        destruct (spec_sound v HL bits params HB HC (c :: r) n no al HS HN HN2) as (c' & s' & E & [HBd|(f & p & rest & HV)]).
        { rewrite E. cbn [bind]. destruct HF1 as [f1 ->]. rewrite loop_bad by assumption. eauto. }
        rewrite (spec_complete v HL bits params HB (c :: r) n no al f p rest) by assumption. cbn [bind]. destruct HV as (ET & HFo & HFa & HFf).
        pose proof (field_text_nonempty f) as HNE. pose proof (count_auto_text f) as HCT.
        assert (HLr : S (S (length r)) = (length (field_text f) + length rest)%nat). { apply (f_equal (@length Z)) in ET. rewrite app_length in ET. cbn [length] in ET. lia. }
        assert (HSs : suffix v rest) by (rewrite ET in HS; now apply suffix_app in HS). cbn [length] in HNL, HFu.
        destruct (IH rest (n + count_auto (field_refs f)) (refs_none no (field_refs f)) (refs_all al (field_refs f)) (acc ++ [field_specifier (start_of v (c :: r)) n p f]) HSs
          ltac:(unfold count_auto; lia) ltac:(lia) ltac:(lia)) as (c2 & res & E2 & HR).
        { unfold flags_ok, refs_none at 1, refs_all at 1. cbn [existsb]. rewrite !orb_false_r. exact HFf. }
        { rewrite app_length. cbn [length]. lia. }
        rewrite E2. exists c2, res. split; [reflexivity|]. destruct HR as [HR|(ps & ss & He & HP & HF & Er & Hl)]; [auto|]. right.
        exists (Replace f :: ps), (field_specifier (at_ (123 :: c :: r)) n p f :: ss). split; [exact He|]. split; [|split; [|split]].
        -- rewrite ET. apply pieces_field; [exact HFo|exact HFa|]. replace (at_ (field_text f ++ rest) + Z.of_nat (length (field_text f))) with (at_ rest) by (unfold at_; rewrite app_length; lia). exact HP.
        -- cbn [all_refs flat_map]. now apply flags_ok_app.
        -- rewrite Er, <- app_assoc. cbn [app]. do 3 f_equal. unfold start_of, at_. cbn [length]. lia.
        -- rewrite app_length in Hl. cbn [length] in *. lia.
  - pose proof (loop_close fuel r n no al acc HS) as HCl. destruct (scan_flag 125 r) as [[] r'] eqn:EF.
    + rewrite HCl. apply scan_flag_sound in EF. destruct EF as [-> _]. cbn [app length] in *.
      destruct (IH r' n no al acc ltac:(now apply suffix_tail in HS1) HN ltac:(lia) ltac:(lia) HFl HLen) as (c' & res & E & HR). rewrite E. exists c', res. split; [reflexivity|].
      destruct HR as [HR|(ps & ss & He & HP & HF & Er & Hl)]; [auto|]. right. exists (CloseBrace :: ps), ss. split; [exact He|]. split; [|auto].
      constructor. replace (at_ (125 :: 125 :: r') + 2) with (at_ r') by (unfold at_; cbn [length]; lia). exact HP.
    + rewrite HCl. destruct HF1 as [f1 ->]. rewrite loop_bad by (now apply cx_bad). eexists. eexists. split; [reflexivity|]. left. now apply cx_bad.
  - rewrite loop_literal by assumption. destruct (IH r n no al acc HS1 HN ltac:(lia) ltac:(lia) HFl HLen) as (c' & res & E & HR). rewrite E. exists c', res. split; [reflexivity|].
    destruct HR as [HR|(ps & ss & He & HP & HF & Er & Hl)]; [auto|]. right. exists (Literal c :: ps), ss. split; [exact He|]. split; [|auto].
    constructor; try assumption. replace (at_ (c :: r) + 1) with (at_ r) by (unfold at_; cbn [length]; lia). exact HP.
Qed.
End Loop.

(** * parse_format *)
Theorem parse_complete bits params s ps ss : 8 <= bits -> Z.of_nat (length s) < 2 ^ 62 -> format_string params s ps ss -> parse_format bits params s = Ok (Some ss).
Proof.
  intros HB HL (HP & HU & H64). unfold parse_format. assert (HS : suffix s s) by (exists []; reflexivity).
  assert (E0 : Lexer s 0 = lx s s) by (unfold lx; f_equal; lia). rewrite E0. fold (cx s s 0 false false false).
  destruct (loop_complete s bits params HL HB 0 0 s ps ss HP ltac:(unfold at_; lia) HS ltac:(lia) ltac:(lia) (S (length s)) false false [] ltac:(lia) (proj2 (uniform_flags _) HU) H64) as (n' & no' & al' & E).
  rewrite E. reflexivity.
Qed.
Theorem parse_sound bits params s : 8 <= bits -> Z.of_nat (length s) < 2 ^ 62 -> Forall (fun c => - 2 ^ (bits - 1) <= c < 2 ^ bits) s ->
  exists o, parse_format bits params s = Ok o /\ match o with Some ss => exists ps, format_string params s ps ss | None => True end.
Proof.
  intros HB HL HC. unfold parse_format. assert (HS : suffix s s) by (exists []; reflexivity).
  assert (E0 : Lexer s 0 = lx s s) by (unfold lx; f_equal; lia). rewrite E0. fold (cx s s 0 false false false).
  destruct (loop_sound s bits params HL HB HC (S (length s)) s 0 false false [] HS ltac:(lia) ltac:(lia) ltac:(lia) eq_refl ltac:(cbn; lia)) as (c & res & E & HR).
  rewrite E. cbn [bind]. eexists. split; [reflexivity|]. destruct HR as [[He _]|(ps & ss & He & HP & HF & -> & Hl)]; rewrite He; [exact I|]. exists ps. split; [|split].
  - replace (at_ s s) with 0 in HP by (unfold at_; lia). exact HP.
  - now apply uniform_flags.
  - exact Hl.
Qed.
