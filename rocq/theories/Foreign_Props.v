(** Property C67: formatting strings of another character type. *)
From Verif Require Import Common Bits Unicode_Model Unicode_Spec Unicode_Proofs Unicode_Props
  Format_Model Format_Spec Format_Proofs Format_Props Foreign_Model.

Lemma destruct_last {A} (l : list A) : l = [] \/ exists m a, l = m ++ [a].
Proof. destruct l as [|x l] using rev_ind; [now left|right; now exists l, x]. Qed.

Lemma foreign_frame from to spec width precision value : 0 <= width -> (forall p, precision = Some p -> 0 <= p) ->
  let cut := match precision with Some p => firstn (Z.to_nat p) value | None => value end in
  let fill := value_or (m_fill spec) 32 in
  let shown := match Unicode_Model.convert from to cut with Some s => s | None => [] end in
  exists left_ right_,
    format_foreign from to spec width precision value = repeat fill left_ ++ shown ++ repeat fill right_ /\
    placed_text (m_alignment spec) left_ right_ /\
    Z.of_nat (left_ + right_) = Z.max 0 (width - Z.of_nat (length cut)).
Proof.
  intros Hw Hp. cbv zeta. unfold format_foreign, append_foreign.
  set (n := match precision with Some p => Z.min p (Z.of_nat (length value)) | None => Z.of_nat (length value) end).
  assert (Hn : 0 <= n <= Z.of_nat (length value)) by (unfold n; destruct precision as [p|]; [specialize (Hp p eq_refl)|]; lia).
  assert (ES : firstn (Z.to_nat n) value = match precision with Some p => firstn (Z.to_nat p) value | None => value end).
  { unfold n. destruct precision as [p|]; [|apply firstn_all2; lia]. specialize (Hp p eq_refl).
    destruct (Z.leb_spec p (Z.of_nat (length value))); [now rewrite Z.min_l by lia|]. rewrite Z.min_r by lia. rewrite !firstn_all2 by lia. reflexivity. }
  assert (HL : Z.of_nat (length (firstn (Z.to_nat n) value)) = n) by (rewrite firstn_length; lia).
  rewrite <- ES, HL. set (cut := firstn (Z.to_nat n) value) in *. clearbody cut.
  set (shown := match Unicode_Model.convert from to cut with Some s => s | None => [] end). clearbody shown.
  set (p := Z.max n width - n). assert (Hpp : 0 <= p /\ p = Z.max 0 (width - n)) by (unfold p; lia). clearbody p.
  unfold padding, placed_text. destruct (m_alignment spec).
  - exists O, (Z.to_nat p). cbn [repeat app]. repeat split; lia.
  - exists O, (Z.to_nat p). cbn [repeat app]. repeat split; lia.
  - exists (Z.to_nat p), O. cbn [repeat app]. rewrite app_nil_r. repeat split; lia.
  - exists (Z.to_nat (p / 2)), (Z.to_nat (if p mod 2 =? 0 then p / 2 else p / 2 + 1)).
    pose proof (Z.div_mod p 2 ltac:(lia)). pose proof (Z.mod_pos_bound p 2 ltac:(lia)).
    destruct (Z.eqb_spec (p mod 2) 0); repeat split; lia.
Qed.

(** Encodings are prefix-free, so a prefix that is well-formed text ends between characters. *)
Lemma text_prefix e ds : forall es r, Forall scalar ds -> Forall scalar es -> text (form e) ds ++ r = text (form e) es ->
  exists fs, es = ds ++ fs /\ r = text (form e) fs.
Proof.
  induction ds as [|d ds IH]; intros es r HD HE E.
  - now exists es.
  - inversion HD as [|? ? Hd HD']; subst.
    destruct es as [|x es].
    + exfalso. unfold text in E. cbn [flat_map] in E. apply app_eq_nil in E as [E _]. apply app_eq_nil in E as [E _].
      now apply form_nonempty in E.
    + inversion HE as [|? ? Hx HE']; subst. change (text (form e) (d :: ds)) with (form e d ++ text (form e) ds) in E.
      change (text (form e) (x :: es)) with (form e x ++ text (form e) es) in E. rewrite <- app_assoc in E.
      assert (HU : units_ok e (text (form e) ds ++ r)).
      { assert (HA : units_ok e (form e d ++ text (form e) ds ++ r)).
        { rewrite E. change (form e x ++ text (form e) es) with (text (form e) (x :: es)). now apply text_units. }
        now apply Forall_app in HA. }
      pose proof (decode_form e d _ HU Hd (form_units e d Hd)) as D1.
      pose proof (decode_form e x _ (text_units e es HE') Hx (form_units e x Hx)) as D2.
      rewrite E, D2 in D1. injection D1 as E1 E2. subst x. symmetry in E2.
      destruct (IH es r HD' HE' E2) as (fs & -> & ->). now exists fs.
Qed.

(** The precision cuts the value in its own units; if what is left is well-formed text it is shown
    transcoded, otherwise nothing is shown; either way the padding brings the value's units up to the
    width. *)
Theorem foreign_exact : forall from to spec width precision value, units_ok from value ->
  0 <= width -> (forall p, precision = Some p -> 0 <= p) ->
  let cut := match precision with Some p => firstn (Z.to_nat p) value | None => value end in
  let fill := value_or (m_fill spec) 32 in
  exists left_ shown right_,
    format_foreign from to spec width precision value = repeat fill left_ ++ shown ++ repeat fill right_ /\
    placed_text (m_alignment spec) left_ right_ /\
    Z.of_nat (left_ + right_) = Z.max 0 (width - Z.of_nat (length cut)) /\
    (forall cs, Forall scalar cs -> cut = text (form from) cs -> shown = text (form to) cs) /\
    (~ valid from cut -> shown = []).
Proof.
  intros from to spec width precision value HU Hw Hp cut fill.
  destruct (foreign_frame from to spec width precision value Hw Hp) as (l & r & E & HPl & HS).
  exists l. eexists. exists r. split; [exact E|]. split; [exact HPl|]. split; [exact HS|]. fold cut.
  assert (HC : units_ok from cut).
  { unfold cut. destruct precision; [|assumption]. unfold units_ok in *. apply Forall_forall. intros x Hx.
    rewrite Forall_forall in HU. apply HU. rewrite <- (firstn_skipn (Z.to_nat z) value). apply in_or_app. now left. }
  split.
  - intros cs HF EC. rewrite EC. now rewrite convert_exact.
  - intros HV. destruct (convert_rejects from to cut HC) as [_ HR]. now rewrite (HR HV).
Qed.

(** In particular text is never mangled: a well-formed value that the precision does not cut appears
    transcoded in full. *)
Theorem foreign_uncut : forall from to spec width precision cs, Forall scalar cs ->
  0 <= width -> (forall p, precision = Some p -> Z.of_nat (length (text (form from) cs)) <= p) ->
  exists left_ right_,
    format_foreign from to spec width precision (text (form from) cs) =
      repeat (value_or (m_fill spec) 32) left_ ++ text (form to) cs ++ repeat (value_or (m_fill spec) 32) right_ /\
    placed_text (m_alignment spec) left_ right_ /\
    Z.of_nat (left_ + right_) = Z.max 0 (width - Z.of_nat (length (text (form from) cs))).
Proof.
  intros from to spec width precision cs HF Hw Hp.
  destruct (foreign_exact from to spec width precision (text (form from) cs)) as (l & s & r & E & HPl & HS & HT & _);
    [now apply text_units|assumption|intros p Ep; specialize (Hp p Ep); lia|].
  assert (EC : match precision with Some p => firstn (Z.to_nat p) (text (form from) cs) | None => text (form from) cs end = text (form from) cs).
  { destruct precision as [p|]; [|reflexivity]. specialize (Hp p eq_refl). apply firstn_all2. lia. }
  rewrite EC in *. rewrite (HT cs HF eq_refl) in E. now exists l, r.
Qed.

(** A precision that ends at a character shows the characters before it. *)
Theorem foreign_cut_between_characters : forall from to spec cs ds, Forall scalar cs -> Forall scalar ds ->
  format_foreign from to spec 0 (Some (Z.of_nat (length (text (form from) cs)))) (text (form from) (cs ++ ds)) =
  text (form to) cs.
Proof.
  intros from to spec cs ds HF HD.
  destruct (foreign_exact from to spec 0 (Some (Z.of_nat (length (text (form from) cs)))) (text (form from) (cs ++ ds)))
    as (l & s & r & E & _ & HS & HT & _); [apply text_units, Forall_app; now split|lia|intros p Ep; injection Ep as <-; lia|].
  rewrite E, (HT cs HF).
  - assert (l = O /\ r = O) as [-> ->] by lia. cbn [repeat app]. apply app_nil_r.
  - unfold text. rewrite flat_map_app, Nat2Z.id, firstn_app, Nat.sub_diag, firstn_all. cbn [firstn]. apply app_nil_r.
Qed.

(** For ASCII text the character type makes no difference: the output is that of a value of the
    format string's own type. *)
Theorem foreign_ascii : forall from to spec width precision s, Forall (fun c => 0 <= c < 0x80) s ->
  0 <= width -> (forall p, precision = Some p -> 0 <= p) ->
  format_foreign from to spec width precision s = format_string_value spec width precision s.
Proof.
  intros from to spec width precision s HA Hw Hp.
  assert (G : forall e c, 0 <= c < 0x80 -> form e c = [c]).
  { intros e c Hc. destruct e; cbn [form]; unfold utf8, utf16, utf32; try reflexivity;
      (replace (c <? _) with true by (symmetry; apply Z.ltb_lt; lia)); reflexivity. }
  assert (T : forall e l, Forall (fun c => 0 <= c < 0x80) l -> text (form e) l = l).
  { intros e l Hl. induction Hl as [|c l Hc _ IH]; [reflexivity|]. unfold text in *. cbn [flat_map]. now rewrite G, IH. }
  assert (F : forall n, Forall (fun c => 0 <= c < 0x80) (firstn n s)).
  { intros n. rewrite <- (firstn_skipn n s) in HA. now apply Forall_app in HA. }
  assert (C : forall n, append_foreign from to s n = firstn (Z.to_nat n) s).
  { intros n. unfold append_foreign. rewrite <- (T from _ (F (Z.to_nat n))) at 1. rewrite convert_exact.
    - now apply T.
    - eapply Forall_impl; [|apply F]. intros c Hc. unfold scalar. cbn beta in Hc. lia. }
  unfold format_foreign, format_string_value. rewrite !C. reflexivity.
Qed.

(** What does not hold: the field may be narrower than the width asked for, because the width is
    compared with the number of units before transcoding... *)
Theorem foreign_width_refuted : exists from to spec width cs, Forall scalar cs /\ 0 <= width /\
  Z.of_nat (length (format_foreign from to spec width None (text (form from) cs))) < width.
Proof.
  exists (U8 true), U16, default_specifier, 3, [0x20ac]. split; [repeat constructor; unfold scalar; lia|]. split; [lia|].
  vm_compute. reflexivity.
Qed.
(** ... and it may be padded although it is already longer than the width. *)
Theorem foreign_padding_refuted : exists from to spec width cs, Forall scalar cs /\ 0 <= width /\
  width <= Z.of_nat (length (text (form to) cs)) /\
  format_foreign from to spec width None (text (form from) cs) <> text (form to) cs.
Proof.
  exists U16, (U8 true), default_specifier, 3, [0x20ac]. split; [repeat constructor; unfold scalar; lia|]. split; [lia|].
  split; [vm_compute; discriminate|]. vm_compute. discriminate.
Qed.
(** A precision inside a character drops the whole text, not that character only. *)
Theorem foreign_precision_drops_text : forall from to spec cs c n, Forall scalar cs -> scalar c ->
  (0 < n < length (form from c))%nat ->
  format_foreign from to spec 0 (Some (Z.of_nat (length (text (form from) cs) + n))) (text (form from) (cs ++ [c])) = [].
Proof.
  intros from to spec cs c n HF Hc Hn.
  assert (HU : units_ok from (text (form from) (cs ++ [c]))) by (apply text_units, Forall_app; split; [assumption|constructor; [assumption|constructor]]).
  destruct (foreign_exact from to spec 0 (Some (Z.of_nat (length (text (form from) cs) + n))) (text (form from) (cs ++ [c])) HU)
    as (l & s & r & E & _ & HS & _ & HV); [lia|intros p Ep; injection Ep as <-; lia|].
  rewrite Nat2Z.id in *.
  assert (EC : firstn (length (text (form from) cs) + n) (text (form from) (cs ++ [c])) = text (form from) cs ++ firstn n (form from c)).
  { unfold text. rewrite flat_map_app. cbn [flat_map]. rewrite app_nil_r, firstn_app_2. reflexivity. }
  rewrite EC in *. rewrite E, HV.
  - assert (l = O /\ r = O) as [-> ->] by lia. reflexivity.
  - intros (ds & HD & ED).
    assert (EP : text (form from) ds ++ skipn n (form from c) = text (form from) (cs ++ [c])).
    { rewrite <- ED, <- app_assoc, firstn_skipn. rewrite text_app. unfold text at 3. cbn [flat_map]. now rewrite app_nil_r. }
    destruct (text_prefix from ds (cs ++ [c]) _ HD ltac:(apply Forall_app; split; [assumption|constructor; [assumption|constructor]]) EP) as (fs & E1 & E2).
    assert (LS : (length (skipn n (form from c)) = length (form from c) - n)%nat) by apply skipn_length.
    destruct (destruct_last fs) as [->|(gs & g & ->)].
    + cbn in E2. rewrite E2 in LS. cbn in LS. lia.
    + rewrite app_assoc in E1. apply app_inj_tail in E1 as [-> ->]. apply (f_equal (@length Z)) in ED.
      rewrite text_app, !app_length, firstn_length in ED. lia.
Qed.

(** Three bytes of UTF-8 for one UTF-16 unit; the surrogate pair of a pizza; a lone surrogate. *)
Example C67_cases :
  let euro := [0xe2; 0x82; 0xac] in
  let right_ := Specifier 0 (Some 42) ARight SDefault false false None None None None false TString CLower 0 0 in
  format_foreign (U8 true) U16 right_ 5 None euro = [42; 42; 0x20ac] /\
  format_foreign U16 (U8 true) right_ 3 None [0x41; 0xd83c; 0xdf55] = [0x41; 0xf0; 0x9f; 0x8d; 0x95] /\
  format_foreign U16 (U8 true) right_ 3 (Some 2) [0x41; 0xd83c; 0xdf55] = [42] /\
  format_foreign U16 U32 right_ 2 None [0xd83c] = [42] /\
  scalar 0x1f355 /\ (0 < 1 < length (form U16 0x1f355))%nat.
Proof. repeat split; try reflexivity; try (right; lia); cbn; lia. Qed.

Print Assumptions foreign_exact.
Print Assumptions foreign_uncut.
Print Assumptions foreign_cut_between_characters.
Print Assumptions foreign_ascii.
Print Assumptions foreign_width_refuted.
Print Assumptions foreign_padding_refuted.
Print Assumptions foreign_precision_drops_text.
