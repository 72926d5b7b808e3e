(** Adding a field to the end of a format string. *)
From Verif Require Import Common Format_Model FormatString_Model FormatString_Spec FormatString_Proofs FormatString_Props.
Open Scope Z_scope.

(** * More arguments, more text *)
Lemma arg_type_more params more n p : arg_type params n = Some p -> arg_type (params ++ more) n = Some p.
Proof.
  unfold arg_type. rewrite app_length. destruct (Z.ltb_spec n (Z.of_nat (length params))); [|discriminate]. intros E.
  rewrite (proj2 (Z.ltb_lt _ _)) by lia. rewrite lookup_nth in *. rewrite nth_error_app1; [assumption|]. apply nth_error_Some. congruence.
Qed.
Lemma integral_more params more a : integral_at params a -> integral_at (params ++ more) a.
Proof. destruct a; cbn; [apply arg_type_more|auto]. Qed.
Lemma admitted_more params more n f p rest tail : hd 0 tail <> 60 -> hd 0 tail <> 62 -> hd 0 tail <> 94 ->
  field_admitted params n f p rest -> field_admitted (params ++ more) n f p (rest ++ tail).
Proof.
  intros T1 T2 T3 [HP HO]. split; [now apply arg_type_more|]. destruct (f_options f) as [o|]; [|exact I].
  assert (G : options_admitted params p f n o /\ no_fill_confusion o rest -> options_admitted (params ++ more) p f n o /\ no_fill_confusion o (rest ++ tail)).
  { intros [(A & B & C & D & E & F & G & H & K & L) HN]. split.
    - unfold options_admitted. repeat (split; [first [assumption|now apply integral_more]|]). assumption.
    - intros HF. specialize (HN HF). destruct (options_text o) as [|c [|c' r]]; cbn [app] in *; [|assumption|assumption].
      destruct rest as [|d rest]; cbn [app]; [|assumption]. destruct tail as [|d tail]; [exact I|]. cbn [hd] in *. cbn [In]. intuition lia. }
  destruct p; auto.
Qed.
(** Pieces followed by pieces *)
Lemma pieces_more params more tail ps' ss' : hd 0 tail <> 60 -> hd 0 tail <> 62 -> hd 0 tail <> 94 -> forall start n s ps ss, pieces params start n s ps ss ->
  pieces (params ++ more) (start + Z.of_nat (length s)) (n + count_auto (all_refs ps)) tail ps' ss' ->
  pieces (params ++ more) start n (s ++ tail) (ps ++ ps') (ss ++ ss').
Proof.
  intros T1 T2 T3 start n s ps ss HP. induction HP as [start n|start n c s ps ss H1 H2 HP IH|start n s ps ss HP IH|start n s ps ss HP IH|start n f p s ps ss HF HAd HP IH]; intros HT.
  - cbn [length app] in *. replace (start + Z.of_nat 0) with start in HT by lia. change (count_auto (all_refs [])) with 0 in HT. now rewrite Z.add_0_r in HT.
  - cbn [app]. constructor; [assumption|assumption|]. apply IH. cbn [length] in HT. replace (start + 1 + Z.of_nat (length s)) with (start + Z.of_nat (S (length s))) by lia. exact HT.
  - cbn [app]. constructor. apply IH. cbn [length] in HT. replace (start + 2 + Z.of_nat (length s)) with (start + Z.of_nat (S (S (length s)))) by lia. exact HT.
  - cbn [app]. constructor. apply IH. cbn [length] in HT. replace (start + 2 + Z.of_nat (length s)) with (start + Z.of_nat (S (S (length s)))) by lia. exact HT.
  - rewrite <- app_assoc. cbn [app]. constructor; [assumption|now apply admitted_more|]. apply IH.
    unfold all_refs in HT. cbn [flat_map] in HT. fold (all_refs ps) in HT. unfold count_auto in *. rewrite filter_app, app_length, Nat2Z.inj_add in HT. rewrite app_length, Nat2Z.inj_add in HT.
    rewrite <- !Z.add_assoc. exact HT.
Qed.

(** * What the fields show *)
Lemma context_more args more n a : context_arg args n = Some a -> context_arg (args ++ more) n = Some a.
Proof.
  unfold context_arg. rewrite app_length. destruct (Z.ltb_spec n (Z.of_nat (length args))); [|discriminate]. intros E.
  rewrite (proj2 (Z.ltb_lt _ _)) by lia. rewrite lookup_nth in *. rewrite nth_error_app1; [assumption|]. apply nth_error_Some. congruence.
Qed.
Lemma resolve_more args more a : integral_at (map type_of_arg args) a ->
  match a with Some q => resolve (args ++ more) q = resolve args q | None => True end.
Proof.
  destruct a as [q|]; [|trivial]. cbn [integral_at]. intros E. apply arg_type_nth in E. destruct E as (Hq & x & Hx & _). unfold resolve.
  assert (C : context_arg args q = Some x) by (unfold context_arg; rewrite (proj2 (Z.ltb_lt _ _)) by lia; now rewrite lookup_nth).
  now rewrite (context_more args more q x C), C.
Qed.
Lemma format_arg_more cm args more start n f p rest a : field_admitted (map type_of_arg args) n f p rest ->
  p <> PUserDefined \/ f_options f = None \/ f_options f = Some no_options ->
  let sp := field_specifier start n p f in format_arg cm (args ++ more) sp a = format_arg cm args sp a.
Proof.
  intros HA HU sp. assert (G : resolve_width (args ++ more) sp 0 = resolve_width args sp 0 /\ resolve_precision (args ++ more) sp npos = resolve_precision args sp npos).
  { destruct HA as [_ HO]. unfold resolve_width, resolve_precision, sp, field_specifier. cbn [m_width_position m_precision_position m_width m_precision].
    destruct (f_options f) as [o|]; [|split; reflexivity].
    assert (K : o = no_options \/ options_admitted (map type_of_arg args) p f n o).
    { destruct p; try (right; now destruct HO). destruct HU as [HU|[HU|HU]]; [congruence|congruence|left; congruence]. }
    destruct K as [->|(_ & _ & _ & _ & _ & W & _ & P & _)]; [split; reflexivity|].
    pose proof (resolve_more args more _ W) as RW. pose proof (resolve_more args more _ P) as RP.
    destruct (amount_position (width_ref_start n f) (o_width o)) as [q|]; [rewrite RW|]; (destruct (amount_position (precision_ref_start n f o) (o_precision o)) as [q'|]; [rewrite RP|]); split; reflexivity. }
  destruct G as [GW GP]. unfold format_arg. rewrite GW, GP. reflexivity.
Qed.
Lemma field_output_more cm args more start n f p rest x : field_admitted (map type_of_arg args) n f p rest ->
  let sp := field_specifier start n p f in field_output cm args sp x -> field_output cm (args ++ more) sp x.
Proof.
  intros HA sp (a & Ha & HX). exists a. split.
  - rewrite nth_error_app1; [assumption|]. apply nth_error_Some. congruence.
  - rewrite <- HX. apply (format_arg_more cm args more start n f p rest a HA).
    destruct HA as [_ HO]. destruct (f_options f) as [o|]; [|auto]. destruct p; try (left; discriminate). right. right. congruence.
Qed.
Lemma renders_more cm args more : forall start n s ps ss, pieces (map type_of_arg args) start n s ps ss -> forall out,
  renders (field_output cm args) ps ss out -> renders (field_output cm (args ++ more)) ps ss out.
Proof.
  intros start n s ps ss HP. induction HP as [start n|start n c s ps ss H1 H2 HP IH|start n s ps ss HP IH|start n s ps ss HP IH|start n f p s ps ss HF HAd HP IH]; intros out HR; inversion HR; subst; constructor; auto.
  eapply field_output_more; eassumption.
Qed.
Lemma renders_app (out : specifier -> list Z -> Prop) ps ss x : renders out ps ss x -> forall ps' ss' y, renders out ps' ss' y -> renders out (ps ++ ps') (ss ++ ss') (x ++ y).
Proof. induction 1; intros ps' ss' y HY; cbn [app]; [assumption|constructor; auto..|]. rewrite <- app_assoc. constructor; auto. Qed.
Lemma renders_unique (out : specifier -> list Z -> Prop) : (forall sp x y, out sp x -> out sp y -> x = y) -> forall ps ss x, renders out ps ss x -> forall y, renders out ps ss y -> x = y.
Proof.
  intros HU ps ss x HX. induction HX; intros y HY; inversion HY; subst; try reflexivity; try (f_equal; now apply IHHX).
  f_equal; [now apply (HU sp)|now apply IHHX].
Qed.
Lemma field_output_unique cm args sp x y : field_output cm args sp x -> field_output cm args sp y -> x = y.
Proof. intros (a & Ha & Hx) (b & Hb & Hy). congruence. Qed.

(** * ": {}" *)
Definition plain_field : field := Field None None.
Definition suffix : list Z := [58; 32; 123; 125].
Lemma no_refs ps : Forall (fun r => r = None) (all_refs ps) -> count_auto (all_refs ps) = Z.of_nat (length (all_refs ps)).
Proof. intros H. unfold count_auto. f_equal. induction H as [|r rs Hr H IH]; [reflexivity|]. cbn [filter length]. rewrite Hr. cbn. now rewrite IH. Qed.
Lemma format_string_suffix args e s ps ss : format_string (map type_of_arg args) s ps ss -> Forall (fun r => r = None) (all_refs ps) ->
  length (all_refs ps) = length args -> (length ss < 64)%nat ->
  format_string (map type_of_arg (args ++ [AString e])) (s ++ suffix) (ps ++ [Literal 58; Literal 32; Replace plain_field])
    (ss ++ [field_specifier (Z.of_nat (length s) + 2) (Z.of_nat (length args)) PString plain_field]).
Proof.
  intros (HP & HU & HL) HN HC HS. rewrite map_app. split; [|split].
  - apply pieces_more; [cbn; lia..|assumption|]. rewrite !Z.add_0_l. rewrite (no_refs ps HN), HC. unfold suffix. constructor; [lia|lia|]. constructor; [lia|lia|].
    replace (Z.of_nat (length s) + 1 + 1) with (Z.of_nat (length s) + 2) by lia. change [123; 125] with (field_text plain_field ++ []). constructor.
    + split; exact I.
    + split; [|exact I]. cbn [f_position plain_field position_of]. unfold arg_type. rewrite app_length, map_length. cbn [map length]. rewrite (proj2 (Z.ltb_lt _ _)) by lia.
      rewrite lookup_nth, Nat2Z.id, nth_error_app2 by (rewrite map_length; lia). rewrite map_length, Nat.sub_diag. reflexivity.
    + constructor.
  - left. unfold all_refs. rewrite flat_map_app. apply Forall_app. split; [exact HN|]. cbn. auto.
  - rewrite app_length. cbn [length]. lia.
Qed.
Lemma suffix_output bits cm msg s args e ps ss out : 8 <= bits -> Z.of_nat (length s) < 2 ^ 61 -> Forall arg_ok args -> Z.of_nat (length e) < 2 ^ 64 ->
  format_string (map type_of_arg args) s ps ss -> Forall (fun r => r = None) (all_refs ps) -> length (all_refs ps) = length args -> (length ss < 64)%nat ->
  renders (field_output cm args) ps ss out -> format_to bits cm msg (s ++ suffix) (args ++ [AString e]) = Ok (out ++ [58; 32] ++ e).
Proof.
  intros HB HL HA HE HF HN HC HS HR.
  assert (HL' : Z.of_nat (length (s ++ suffix)) < 2 ^ 62) by (rewrite app_length; cbn [suffix length]; assert (2 ^ 62 = 2 * 2 ^ 61) by reflexivity; assert (4 < 2 ^ 61) by reflexivity; lia).
  assert (HA' : Forall arg_ok (args ++ [AString e])) by (apply Forall_app; split; [assumption|repeat constructor]).
  pose proof (format_string_suffix args e s ps ss HF HN HC HS) as HF'.
  destruct (format_exact bits cm msg (s ++ suffix) (args ++ [AString e]) _ _ HB HL' HA' HF') as (out' & E & HR'). rewrite E. f_equal.
  refine (renders_unique _ (field_output_unique cm (args ++ [AString e])) _ _ _ HR' _ _).
  apply renders_app; [eapply renders_more; [exact (proj1 HF)|exact HR]|]. apply renders_literal, renders_literal.
  replace e with (e ++ []) at 2 by apply app_nil_r. apply renders_field; [|constructor].
  set (sp := field_specifier _ _ _ _).
  assert (NE : nth_error (args ++ [AString e]) (Z.to_nat (m_position sp)) = Some (AString e)).
  { unfold sp, field_specifier. cbn [m_position plain_field f_position position_of]. rewrite Nat2Z.id, nth_error_app2 by lia. now rewrite Nat.sub_diag. }
  exists (AString e). split; [exact NE|]. unfold format_arg. 
  assert (HX : field_output cm (args ++ [AString e]) sp (format_string_value sp (resolve_width (args ++ [AString e]) sp 0) (Some (resolve_precision (args ++ [AString e]) sp npos)) e)) by (exists (AString e); split; [exact NE|reflexivity]).
  assert (SO : spec_ok sp).
  { pose proof (fields_spec_ok _ _ _ _ _ _ (Z.le_refl 0) (proj1 HF')) as HSp. apply Forall_app in HSp. destruct HSp as [_ HSp]. inversion HSp; subst. assumption. }
  destruct (string_field cm _ sp e _ HA' SO NE HE HX) as (l & r & EX & _ & LX).
  change (m_width sp) with (@None Z) in LX. change (m_width_position sp) with (@None Z) in LX. change (m_precision sp) with (@None Z) in EX, LX. change (m_precision_position sp) with (@None Z) in EX, LX.
  change (m_fill sp) with (@None Z) in EX. cbv zeta in EX, LX. cbn [wanted] in EX, LX. rewrite Nat2Z.id, firstn_all in EX, LX.
  rewrite EX in LX |- *. rewrite !app_length, !repeat_length in LX. assert (l = 0%nat /\ r = 0%nat) by lia. destruct H as [-> ->]. cbn [repeat app]. now rewrite app_nil_r.
Qed.
