(** C29-C32, C42: theorems about JSON strings, documents, comparison and hashing. *)
From Coq Require Import SpecFloat.
From Verif Require Import Common Bits Unicode_Spec Unicode_Model Format_Spec Format_Model Format_Props.
From Verif Require Import Json_Model Json_Spec Json_String_Proofs Json_Parser_Proofs Json_Token_Proofs Json_Grammar_Proofs Json_Order_Proofs.

(** * C31: the parser *)

(** The parser terminates on every input: the recursion depth and number of iterations are bounded by
    twice the length of the input. *)
Theorem parser_terminates : forall fp sg o input fuel, (2 * length input + 2 <= fuel)%nat ->
  exists r, parse_internal fuel fp sg o input = Some r /\ r = parse fp sg o input.
Proof.
  intros fp sg o input fuel HF. exists (parse fp sg o input). split; [|reflexivity]. rewrite <- parse_total.
  unfold parse_internal. destruct (proj1 (terminates fp sg o (2 * length input + 2)) input ltac:(lia)) as [HN _].
  now rewrite (proj1 (parser_mono fp sg o _) fuel input HF HN).
Qed.

(** The parser accepts exactly the documents of the grammar, with the value the grammar gives them. *)
Theorem parse_exact : forall fp sg o input j, Forall byte input ->
  (parse fp sg o input = Some j <-> document fp o input j).
Proof. exact parse_iff. Qed.

(** Whether char is signed does not matter. *)
Theorem parse_char_sign : forall fp sg sg' o input, Forall byte input -> parse fp sg o input = parse fp sg' o input.
Proof.
  intros fp sg sg' o input HB. destruct (parse fp sg o input) as [j|] eqn:E.
  - symmetry. apply parse_exact; [assumption|]. now apply (parse_exact fp sg).
  - destruct (parse fp sg' o input) as [j|] eqn:E'; [|reflexivity]. apply parse_exact in E'; [|assumption].
    apply (parse_exact fp sg) in E'; [congruence|assumption].
Qed.

(** Enabling features never changes the result of a document already accepted. *)
Lemma gap_more o o' g : at_most o o' -> gap o g -> gap o' g.
Proof.
  intros (H1 & _ & _). induction 1; [apply gap_nil|apply gap_white; auto|apply gap_line; auto|apply gap_block; auto].
Qed.
Lemma junk_more o o' g : at_most o o' -> junk o g -> junk o' g.
Proof. intros (H1 & _ & _). intros [c HA N1 N2]. constructor; auto. Qed.
Lemma trailing_more o o' g : at_most o o' -> trailing o g -> trailing o' g.
Proof. intros HM. intros [|g' HA HG]; constructor; [now apply HM|]. now apply (gap_more o o'). Qed.
Lemma grammar_more fp o o' : at_most o o' ->
  (forall w j, value fp o w j -> value fp o' w j) /\ (forall w l, elements fp o w l -> elements fp o' w l) /\
  (forall w l, members fp o w l -> members fp o' w l) /\ (forall w k j, member fp o w k j -> member fp o' w k j).
Proof.
  intros HM. pose proof (fun g => gap_more o o' g HM) as G. pose proof (fun g => junk_more o o' g HM) as J. pose proof (fun g => trailing_more o o' g HM) as T.
  apply (grammar_mind fp o (fun w j _ => value fp o' w j) (fun w l _ => elements fp o' w l) (fun w l _ => members fp o' w l) (fun w k j _ => member fp o' w k j)); intros.
  - now apply v_token.
  - now apply v_string.
  - apply v_array_empty; auto.
  - now apply v_array.
  - apply v_object_empty; auto.
  - now apply (v_object fp o' w ms m).
  - apply e_last; auto.
  - apply e_more; auto.
  - apply e_more_junk; auto.
  - apply m_last; auto.
  - apply m_more; auto.
  - apply m_more_junk; auto.
  - apply mem; auto.
Qed.
Theorem features_only_add : forall fp sg o o' input j, Forall byte input -> at_most o o' ->
  parse fp sg o input = Some j -> parse fp sg o' input = Some j.
Proof.
  intros fp sg o o' input j HB HM E. apply parse_exact in E; [|assumption]. apply parse_exact; [assumption|].
  destruct E as (g & w & g' & -> & HG & HV & HG' & HA). exists g, w, g'. split; [reflexivity|].
  split; [now apply (gap_more o o')|]. split; [now apply (proj1 (grammar_more fp o o' HM))|]. split.
  - destruct HG' as [g' HG'|g' b HG' HC HB']; [constructor|apply final_line; [| |assumption]]; try (now apply (gap_more o o')). now apply HM.
  - destruct HA as [HA|HA]; [left; now apply HM|now right].
Qed.

(** Strict mode: exactly the grammar of RFC 8259 (with vertical tab as white space, and the platform's
    reading of fractions), containers only; no comment, no trailing comma. *)
Lemma gap_strict g : gap strict g <-> Forall white g.
Proof.
  split; [induction 1 as [|c g Hc _ IH|b g HA|b g HA]; [constructor|constructor; auto|discriminate HA|discriminate HA]|]. intros H. rewrite <- (app_nil_r g). apply gap_whites; [assumption|constructor].
Qed.
Scheme rfc_value_mind := Induction for rfc_value Sort Prop
with rfc_elements_mind := Induction for rfc_elements Sort Prop
with rfc_members_mind := Induction for rfc_members Sort Prop
with rfc_member_mind := Induction for rfc_member Sort Prop.
Combined Scheme rfc_mind from rfc_value_mind, rfc_elements_mind, rfc_members_mind, rfc_member_mind.
Lemma rfc_of_strict fp :
  (forall w j, value fp strict w j -> rfc_value fp w j) /\ (forall w l, elements fp strict w l -> rfc_elements fp w l) /\
  (forall w l, members fp strict w l -> rfc_members fp w l) /\ (forall w k j, member fp strict w k j -> rfc_member fp w k j).
Proof.
  apply (grammar_mind fp strict (fun w j _ => rfc_value fp w j) (fun w l _ => rfc_elements fp w l) (fun w l _ => rfc_members fp w l) (fun w k j _ => rfc_member fp w k j));
  intros; repeat match goal with H : gap strict _ |- _ => apply gap_strict in H end;
  try match goal with H : trailing strict _ |- _ => destruct H as [|? HA _]; [|discriminate HA]; rewrite app_nil_r end;
  try match goal with H : junk strict _ |- _ => destruct H as [? HA _ _]; discriminate HA end.
  - now apply r_token.
  - now apply r_string.
  - now apply r_array_empty.
  - now apply r_array.
  - now apply r_object_empty.
  - now apply (r_object fp w ms m).
  - now apply r_last.
  - now apply r_more.
  - now apply r_last_member.
  - now apply r_more_members.
  - now apply r_mem.
Qed.
Lemma strict_of_rfc fp :
  (forall w j, rfc_value fp w j -> value fp strict w j) /\ (forall w l, rfc_elements fp w l -> elements fp strict w l) /\
  (forall w l, rfc_members fp w l -> members fp strict w l) /\ (forall w k j, rfc_member fp w k j -> member fp strict w k j).
Proof.
  apply (rfc_mind fp (fun w j _ => value fp strict w j) (fun w l _ => elements fp strict w l) (fun w l _ => members fp strict w l) (fun w k j _ => member fp strict w k j));
  intros; repeat match goal with H : Forall white _ |- _ => apply gap_strict in H end.
  - now apply v_token.
  - now apply v_string.
  - now apply v_array_empty.
  - now apply v_array.
  - now apply v_object_empty.
  - now apply (v_object fp strict w ms m).
  - rewrite <- (app_nil_r s') . apply e_last; auto. constructor.
  - now apply e_more.
  - rewrite <- (app_nil_r s') . apply m_last; auto. constructor.
  - now apply m_more.
  - apply mem; auto; now apply gap_strict.
Qed.
Theorem strict_exact : forall fp sg input j, Forall byte input ->
  (parse fp sg strict input = Some j <-> strict_document fp input j).
Proof.
  intros fp sg input j HB. rewrite parse_exact by assumption. split.
  - intros (g & w & g' & -> & HG & HV & HG' & HA). exists g, w, g'. split; [reflexivity|]. split; [now apply gap_strict|].
    split; [now apply rfc_of_strict|]. split; [destruct HG' as [g' HG'|? ? _ HC]; [now apply gap_strict|discriminate HC]|].
    destruct HA as [HA|HA]; [discriminate HA|exact HA].
  - intros (g & w & g' & -> & HG & HV & HG' & HA). exists g, w, g'. split; [reflexivity|]. split; [now apply gap_strict|].
    split; [now apply strict_of_rfc|]. split; [constructor; now apply gap_strict|]. now right.
Qed.

(** The grammar gives a document at most one value. *)
Theorem document_unique : forall fp o input j j', Forall byte input -> document fp o input j -> document fp o input j' -> j = j'.
Proof.
  intros fp o input j j' HB H1 H2. apply (parse_exact fp true) in H1, H2; [|assumption|assumption]. congruence.
Qed.

(** Refuted: "with AllowComments, only comments are skipped".  After a comma, a malformed comment is
    skipped too: [1,/x2] is read as [1,2]. *)
Definition no_floats : fp_text := FpText (fun _ => None) (fun _ => []).
Theorem malformed_comment_rejected_refuted : exists input j,
  parse no_floats true (Features true false false) input = Some j /\
  input = [91; 49; 44; 47; 120; 50; 93] /\ j = JArray [JUnsigned 1; JUnsigned 2].
Proof. eexists _, _. split; [|split; reflexivity]. vm_compute. reflexivity. Qed.
(** A comment between a key and its colon is rejected even when comments are enabled. *)
Theorem comments_everywhere_refuted :
  parse no_floats true (Features true false false) [123; 34; 97; 34; 47; 42; 99; 42; 47; 58; 49; 125] = None /\
  parse no_floats true (Features true false false) [123; 34; 97; 34; 58; 47; 42; 99; 42; 47; 49; 125] = Some (JObject [([97], JUnsigned 1)]).
Proof. split; vm_compute; reflexivity. Qed.

(** Non-vacuity of the grammar: {"a":[1,-2,true], "a":null} with the last binding winning, and features. *)
Example parse_example : parse no_floats true strict
  [123; 34; 97; 34; 58; 91; 49; 44; 45; 50; 44; 116; 114; 117; 101; 93; 44; 32; 34; 97; 34; 58; 110; 117; 108; 108; 125] =
  Some (JObject [([97], JNull)]).
Proof. vm_compute. reflexivity. Qed.
Example strict_rejects : parse no_floats true strict [91; 49; 44; 93] = None /\ parse no_floats true strict [49] = None /\
  parse no_floats true strict [91; 47; 42; 42; 47; 93] = None /\
  parse no_floats true (Features false true false) [91; 49; 44; 93] = Some (JArray [JUnsigned 1]) /\
  parse no_floats true (Features false false true) [49] = Some (JUnsigned 1) /\
  parse no_floats true (Features true false false) [91; 47; 42; 42; 47; 93] = Some (JArray []).
Proof. repeat split; vm_compute; reflexivity. Qed.

(** * C29: strings *)

(** Construction accepts exactly the well-formed UTF-8 texts that are string literals (no unescaped
    quote or control character, only defined escapes), and stores what the literal denotes. *)
Theorem string_construction : forall sg w s, Forall byte w ->
  (convert_to_string sg w = Some s <-> utf8_text w /\ literal w s).
Proof. exact construct_iff. Qed.
Theorem string_construction_rejects : forall sg w s c, Forall byte w -> convert_to_string sg w = Some s -> In c w -> 0x20 <= c.
Proof.
  intros sg w s c HB E HI. apply string_construction in E; [|assumption]. destruct E as [_ E].
  assert (H4 : forall h v, hex4 h v -> In c h -> 0x20 <= c).
  { intros h v (x1 & x2 & x3 & x4 & a' & b' & c' & d' & -> & H1 & H2 & H3 & H4 & _) HI'. unfold hex_digit in *. cbn in HI'. decompose [or] HI'; try contradiction; subst; lia. }
  induction E as [|c0 w s H1 H2 H3 _ IH|e c0 w s HE _ IH|h v w s HH HS _ IH|h l hv lv v w s HH HL HV EH EL _ IH].
  - destruct HI.
  - inversion HB; subst. destruct HI as [->|HI]; [assumption|auto].
  - inversion HB as [|? ? _ HB1]; subst. inversion HB1; subst. destruct HI as [<-|[->|HI]]; [lia| |auto].
    unfold escapes in HE. cbn in HE. decompose [or] HE; try contradiction; match goal with X : (_, _) = (_, _) |- _ => injection X as <- _ end; lia.
  - rewrite !in_app_iff in HI. rewrite !Forall_app in HB. destruct HI as [HI|[HI|HI]]; [cbn in HI; decompose [or] HI; try contradiction; subst; lia|eauto|tauto].
  - rewrite !in_app_iff in HI. rewrite !Forall_app in HB.
    destruct HI as [HI|[HI|[HI|[HI|HI]]]]; [cbn in HI; decompose [or] HI; try contradiction; subst; lia|eauto|cbn in HI; decompose [or] HI; try contradiction; subst; lia|eauto|tauto].
Qed.
(** A stored string is well-formed UTF-8. *)
Theorem string_stored_valid : forall sg w s, Forall byte w -> convert_to_string sg w = Some s -> utf8_text s.
Proof. exact construct_text. Qed.

Lemma printable_byte w : Forall printable w -> Forall byte w.
Proof. intros H. eapply Forall_impl; [|exact H]. intros c Hc. unfold printable in Hc. unfold byte. lia. Qed.
Lemma serialized_string_value fp o sg s : utf8_text s -> exists w, serialize_string sg s = Ok ([34] ++ w ++ [34]) /\ Forall printable w /\
  value fp o ([34] ++ w ++ [34]) (JString s) /\ literal w s.
Proof.
  intros HU. destruct (serialize_string_spec sg s HU) as (w & E & HP & HL). exists w. split; [assumption|]. split; [assumption|]. split; [|assumption].
  apply v_string; [now apply printable_utf8|assumption].
Qed.
(** serialize gives printable ASCII in quotes, which denotes the string; parsing it (as a document of any
    type) and constructing from what stands between the quotes give the string back. *)
Theorem string_round_trip : forall fp sg sg' s, utf8_text s ->
  exists w, serialize fp sg (JString s) = Ok ([34] ++ w ++ [34]) /\ Forall (fun c => 0x20 <= c < 0x7f) w /\ literal w s /\
    convert_to_string sg' w = Some s /\
    parse fp sg' (Features false false true) ([34] ++ w ++ [34]) = Some (JString s).
Proof.
  intros fp sg sg' s HU. destruct (serialized_string_value fp (Features false false true) sg s HU) as (w & E & HP & HV & HL). exists w.
  split; [exact E|]. split; [eapply Forall_impl; [|exact HP]; intros c Hc; unfold printable in Hc; cbv beta; lia|]. split; [assumption|].
  pose proof (printable_byte w HP) as HB.
  split; [apply construct_iff; [assumption|]; split; [now apply printable_utf8|assumption]|].
  apply parse_exact; [rewrite !Forall_app; repeat split; try assumption; (constructor; [unfold byte; lia|constructor])|].
  exists [], ([34] ++ w ++ [34]), []. rewrite app_nil_r. split; [reflexivity|]. split; [constructor|]. split; [assumption|]. split; [constructor; constructor|]. now left.
Qed.
Example string_round_trip_example : utf8_text [226; 130; 172; 34; 10] /\
  serialize no_floats true (JString [226; 130; 172; 34; 10]) = Ok [34; 92; 117; 50; 48; 97; 99; 92; 34; 92; 110; 34].
Proof.
  split; [|vm_compute; reflexivity]. exists [0x20ac; 34; 10]. split; [repeat (constructor; [unfold scalar; lia|]); constructor|reflexivity].
Qed.
(** Refuted: a string that is not well-formed UTF-8 (which Json::resize can leave behind, cutting inside
    a character) cannot be serialized: an empty optional is dereferenced. *)
Theorem serialize_any_string_refuted : serialize no_floats true (JString [226; 130]) = UB.
Proof. vm_compute. reflexivity. Qed.

(** * C30: serialize, then parse *)
Lemma integer_value (sgd : bool) z : (if sgd then - 2 ^ 63 <= z < 2 ^ 63 else 0 <= z < 2 ^ 64) ->
  exists w, format_integer 64 sgd 127 integer_field 0 z = Ok w /\ Forall byte w /\
    integer_text w (if z <? 0 then JSigned z else JUnsigned z).
Proof.
  intros HZ. destruct (plain_format 64 sgd 127 TDecimal z 10) as (d & E & (F & V & N & L)); [right; right; right; reflexivity|unfold int_ok; destruct sgd; exact HZ|reflexivity|].
  eexists. split; [exact E|].
  assert (HD : decimal d) by (split; [assumption|split; assumption]).
  assert (HBd : Forall byte d) by (eapply Forall_impl; [|exact F]; intros c Hc; unfold digit_of in Hc; unfold byte; lia).
  destruct (Z.ltb_spec z 0) as [HN|HN].
  - split; [constructor; [unfold byte; lia|assumption]|]. cbn [app]. replace z with (- positional_value 10 d) by lia. constructor; [assumption|]. destruct sgd; lia.
  - split; [assumption|]. cbn [app]. replace z with (positional_value 10 d) by lia. constructor; [assumption|]. destruct sgd; lia.
Qed.

Definition serialized (fp : fp_text) (sg : bool) (j : json) : Prop :=
  exists w, serialize fp sg j = Ok w /\ Forall byte w /\ forall o, value fp o w (read_back j).

Lemma wf_object m : well_formed (JObject m) -> sorted_keys m /\ Forall (fun e => utf8_text (fst e) /\ well_formed (snd e)) m.
Proof.
  intros [HS H]. split; [assumption|]. clear HS. induction m as [|[k v] m IH]; constructor; [cbn; tauto|]. apply IH. tauto.
Qed.
Lemma wf_array l : well_formed (JArray l) -> Forall well_formed l.
Proof. intros H. induction l as [|v l IH]; constructor; [apply H|]. apply IH. apply H. Qed.
Lemma sorted_map (f : json -> json) m : sorted_keys m -> sorted_keys (map (fun e => (fst e, f (snd e))) m).
Proof.
  induction m as [|[k v] m IH]; [auto|]. cbn [map sorted_keys fst snd]. intros [HF HS]. split; [|auto].
  apply Forall_map. eapply Forall_impl; [|exact HF]. intros e He. exact He.
Qed.

Lemma serialize_value fp sg : forall j, well_formed j -> serialized fp sg j.
Proof.
  induction j as [|s|m IH|l IH|b|z|z|f] using json_induction; intros HW.
  - exists s_null. split; [reflexivity|]. split; [unfold s_null; repeat (constructor; [unfold byte; lia|]); constructor|]. intros o. apply v_token. apply tok_null.
  - destruct (serialized_string_value fp strict sg s HW) as (w & E & HP & _ & HL). exists ([34] ++ w ++ [34]). split; [exact E|].
    split; [rewrite !Forall_app; repeat split; [constructor; [unfold byte; lia|constructor]|now apply printable_byte|constructor; [unfold byte; lia|constructor]]|].
    intros o. apply v_string; [now apply printable_utf8|assumption].
  - apply wf_object in HW. destruct HW as [HS HF]. cbn [serialize].
    assert (G : exists body, (fix entries (m : list (list Z * json)) : res (list Z) :=
           match m with
           | [] => Ok []
           | (k, v) :: r =>
               let! key := serialize_string sg k in
               let! value := serialize fp sg v in
               let! rest := entries r in
               Ok (key ++ [58] ++ value ++ (match r with [] => [] | _ :: _ => [44] end) ++ rest)
           end) m = Ok body /\ Forall byte body /\ (m = [] /\ body = [] \/ forall o, members fp o body (map (fun e => (fst e, read_back (snd e))) m))).
    { clear HS. induction m as [|[k v] m IHm].
      - exists []. split; [reflexivity|]. split; [constructor|]. now left.
      - inversion IH as [|? ? Hv IH']; subst. inversion HF as [|? ? [HK HWv] HF']; subst. cbn [fst snd] in *.
        destruct (IHm IH' HF') as (body & E & HB & HM). destruct (Hv HWv) as (wv & Ev & HBv & HVv).
        destruct (serialized_string_value fp strict sg k HK) as (wk & Ek & HPk & _ & HLk).
        cbv beta iota. rewrite Ek. cbn [bind]. rewrite Ev. cbn [bind]. rewrite E. cbn [bind]. eexists. split; [reflexivity|].
        assert (HBk : Forall byte ([34] ++ wk ++ [34])).
        { rewrite !Forall_app; repeat split; [constructor; [unfold byte; lia|constructor]|now apply printable_byte|constructor; [unfold byte; lia|constructor]]. }
        split.
        { apply Forall_app. split; [assumption|]. apply Forall_app. split; [constructor; [unfold byte; lia|constructor]|]. apply Forall_app. split; [assumption|].
          apply Forall_app. split; [destruct m; repeat constructor; unfold byte; lia|assumption]. }
        right. intros o. cbn [map fst snd].
        assert (HMB : member fp o ([34] ++ wk ++ [34] ++ [] ++ [58] ++ [] ++ wv) k (read_back v)).
        { apply mem; [now apply printable_utf8|assumption|constructor|constructor|apply HVv]. }
        destruct HM as [[-> ->]|HM].
        + pose proof (m_last fp o [] _ k (read_back v) [] [] (gap_nil o) HMB (gap_nil o) (t_none o)) as R.
          cbn [app map] in *. rewrite !app_nil_r in *. rewrite <- !app_assoc. cbn [app]. exact R.
        + destruct m as [|e m]; [exfalso; specialize (HM o); inversion HM|].
          pose proof (m_more fp o [] _ k (read_back v) [] body _ (gap_nil o) HMB (gap_nil o) (HM o)) as R.
          cbn [app] in *. rewrite <- ?app_assoc in *. cbn [app] in *. try rewrite <- !app_assoc in R. exact R. }
    destruct G as (body & E & HB & HM). exists ([123] ++ body ++ [125]). cbn [serialize]. rewrite E. cbn [bind]. split; [reflexivity|].
    split; [rewrite !Forall_app; repeat split; [constructor; [unfold byte; lia|constructor]|assumption|constructor; [unfold byte; lia|constructor]]|].
    intros o. cbn [read_back]. destruct HM as [[-> ->]|HM]; [apply (v_object_empty fp o []); constructor|].
    eapply v_object; [apply HM|]. apply map_of_self. now apply sorted_map.
  - apply wf_array in HW. cbn [serialize].
    assert (G : exists body, (fix elements (l : list json) : res (list Z) :=
           match l with
           | [] => Ok []
           | v :: r =>
               let! value := serialize fp sg v in
               let! rest := elements r in
               Ok (value ++ (match r with [] => [] | _ :: _ => [44] end) ++ rest)
           end) l = Ok body /\ Forall byte body /\ (l = [] /\ body = [] \/ forall o, elements fp o body (map read_back l))).
    { induction l as [|v l IHl].
      - exists []. split; [reflexivity|]. split; [constructor|]. now left.
      - inversion IH as [|? ? Hv IH']; subst. inversion HW as [|? ? HWv HF']; subst.
        destruct (IHl IH' HF') as (body & E & HB & HM). destruct (Hv HWv) as (wv & Ev & HBv & HVv).
        cbv beta iota. rewrite Ev. cbn [bind]. rewrite E. cbn [bind]. eexists. split; [reflexivity|].
        split.
        { apply Forall_app. split; [assumption|]. apply Forall_app. split; [destruct l; repeat constructor; unfold byte; lia|assumption]. }
        right. intros o. cbn [map].
        destruct HM as [[-> ->]|HM].
        + pose proof (e_last fp o [] wv (read_back v) [] [] (gap_nil o) (HVv o) (gap_nil o) (t_none o)) as R.
          cbn [app map] in *. rewrite !app_nil_r in *. exact R.
        + destruct l as [|e l]; [exfalso; specialize (HM o); inversion HM|].
          exact (e_more fp o [] wv (read_back v) [] body _ (gap_nil o) (HVv o) (gap_nil o) (HM o)). }
    destruct G as (body & E & HB & HM). exists ([91] ++ body ++ [93]). cbn [serialize]. rewrite E. cbn [bind]. split; [reflexivity|].
    split; [rewrite !Forall_app; repeat split; [constructor; [unfold byte; lia|constructor]|assumption|constructor; [unfold byte; lia|constructor]]|].
    intros o. cbn [read_back]. destruct HM as [[-> ->]|HM]; [apply (v_array_empty fp o []); constructor|].
    apply v_array. apply HM.
  - unfold serialized. cbn [serialize read_back]. rewrite format_bool_text by reflexivity. destruct b; (eexists; split; [reflexivity|]; split; [cbv; repeat (constructor; [split; [discriminate|reflexivity]|]); constructor|]); intros o; apply v_token; constructor.
  - destruct (integer_value true z HW) as (w & E & HB & HI). exists w. split; [exact E|]. split; [assumption|]. intros o. apply v_token. cbn [read_back]. now apply tok_integer.
  - destruct (integer_value false z HW) as (w & E & HB & HI). exists w. split; [exact E|]. split; [assumption|]. intros o. apply v_token. cbn [read_back].
    cbn [well_formed] in HW. rewrite (proj2 (Z.ltb_ge z 0)) in HI by lia. now apply tok_integer.
  - destruct HW.
Qed.

(** == between a value and what is read back. *)
Lemma read_back_equal ff : forall j, well_formed j -> json_eq ff j (read_back j) = true /\ json_eq ff (read_back j) j = true.
Proof.
  induction j as [|s|m IH|l IH|b|z|z|f] using json_induction; intros HW; cbn [read_back].
  - split; reflexivity.
  - cbn [json_eq]. rewrite (proj2 (string_eqb_eq s s) eq_refl). split; reflexivity.
  - apply wf_object in HW. destruct HW as [_ HF]. cbn [json_eq]. induction m as [|[k v] m IHm]; [split; reflexivity|]. cbn [map fst snd].
    inversion IH as [|? ? Hv IH']; subst. inversion HF as [|? ? [HK HWv] HF']; subst. cbn [fst snd] in *. destruct (Hv HWv) as [E1 E2]. destruct (IHm IH' HF') as [E3 E4].
    rewrite (proj2 (string_eqb_eq k k) eq_refl), E1, E2, E3, E4. split; reflexivity.
  - apply wf_array in HW. cbn [json_eq]. induction l as [|v l IHl]; [split; reflexivity|]. cbn [map].
    inversion IH as [|? ? Hv IH']; subst. inversion HW as [|? ? HWv HF']; subst. destruct (Hv HWv) as [E1 E2]. destruct (IHl IH' HF') as [E3 E4].
    rewrite E1, E2, E3, E4. split; reflexivity.
  - destruct b; split; reflexivity.
  - cbn [well_formed] in HW. destruct (Z.ltb_spec z 0); cbn [json_eq]; [rewrite Z.eqb_refl; split; reflexivity|].
    assert (E1 : signed 64 z = z) by (unfold signed, wrap; rewrite Z.mod_small by lia; destruct (Z.ltb_spec z (2 ^ (64 - 1))); [reflexivity|change (2 ^ (64 - 1)) with (2 ^ 63) in *; lia]).
    assert (E2 : u64 z = z) by (unfold u64, wrap; apply Z.mod_small; lia).
    rewrite E1, E2, Z.eqb_refl. split; reflexivity.
  - cbn [json_eq]. rewrite Z.eqb_refl. split; reflexivity.
  - destruct HW.
Qed.

(** Every object or array without floating-point numbers is serialized, and the strict parser reads the
    same tree (non-negative integers as unsigned), which is == to the original. *)
Theorem round_trip : forall fp sg sg' ff j, well_formed j -> is_container j = true ->
  exists w, serialize fp sg j = Ok w /\ parse fp sg' strict w = Some (read_back j) /\
    json_eq ff j (read_back j) = true /\ json_eq ff (read_back j) j = true.
Proof.
  intros fp sg sg' ff j HW HC. destruct (serialize_value fp sg j HW) as (w & E & HB & HV). exists w. split; [exact E|]. split; [|now apply read_back_equal].
  apply parse_exact; [assumption|]. exists [], w, []. rewrite app_nil_r. split; [reflexivity|]. split; [constructor|]. split; [apply HV|]. split; [constructor; constructor|].
  right. apply container_iff. destruct j; try discriminate HC; reflexivity.
Qed.
(** Serializing what was read back gives the same text: serialize is a normal form. *)
Lemma serialize_read_back fp sg : forall j, well_formed j -> serialize fp sg (read_back j) = serialize fp sg j.
Proof.
  induction j as [|s|m IH|l IH|b|z|z|f] using json_induction; intros HW; cbn [read_back]; try reflexivity.
  - apply wf_object in HW. destruct HW as [_ HF]. cbn [serialize].
    match goal with |- bind ?a _ = bind ?b _ => assert (a = b) as ->; [|reflexivity] end.
    induction m as [|[k v] m IHm]; [reflexivity|]. cbn [map fst snd].
    inversion IH as [|? ? Hv IH']; subst. inversion HF as [|? ? [HK HWv] HF']; subst. cbn [fst snd] in *. rewrite (Hv HWv), (IHm IH' HF').
    destruct m; reflexivity.
  - apply wf_array in HW. cbn [serialize].
    match goal with |- bind ?a _ = bind ?b _ => assert (a = b) as ->; [|reflexivity] end.
    induction l as [|v l IHl]; [reflexivity|]. cbn [map].
    inversion IH as [|? ? Hv IH']; subst. inversion HW as [|? ? HWv HF']; subst. rewrite (Hv HWv), (IHl IH' HF'). destruct l; reflexivity.
  - destruct (Z.ltb_spec z 0); [reflexivity|]. cbn [serialize]. cbn [well_formed] in HW.
    destruct (plain_format 64 true 127 TDecimal z 10) as (d & E & P); [right; right; right; reflexivity|unfold int_ok; exact HW|reflexivity|].
    destruct (plain_format 64 false 127 TDecimal z 10) as (d' & E' & P'); [right; right; right; reflexivity|unfold int_ok; lia|reflexivity|].
    change (plain_field TDecimal) with integer_field in *. rewrite E, E'. now rewrite (positional_unique 10 false (Z.abs z) d' d ltac:(lia) P' P).
Qed.
Theorem serialize_stable : forall fp sg sg' j w, well_formed j -> is_container j = true -> serialize fp sg j = Ok w ->
  exists j', parse fp sg' strict w = Some j' /\ serialize fp sg j' = Ok w.
Proof.
  intros fp sg sg' j w HW HC E. destruct (round_trip fp sg sg' x87 j HW HC) as (w' & E' & EP & _). exists (read_back j).
  assert (w' = w) as <- by congruence. split; [assumption|]. now rewrite serialize_read_back.
Qed.
(** serialize is injective up to the signedness of integers. *)
Theorem serialize_injective : forall fp sg j j' w, well_formed j -> well_formed j' -> is_container j = true ->
  is_container j' = true -> serialize fp sg j = Ok w -> serialize fp sg j' = Ok w -> read_back j = read_back j'.
Proof.
  intros fp sg j j' w HW HW' HC HC' E E'. destruct (round_trip fp sg sg x87 j HW HC) as (w1 & E1 & EP & _).
  destruct (round_trip fp sg sg x87 j' HW' HC') as (w2 & E2 & EP2 & _). congruence.
Qed.
Example round_trip_example :
  let j := JObject [([97], JArray [JSigned (-9223372036854775808); JUnsigned 18446744073709551615; JBool true; JNull]); ([98], JString [195; 169])] in
  well_formed j /\ is_container j = true /\
  parse no_floats true strict (match serialize no_floats true j with Ok w => w | UB => [] end) = Some j.
Proof.
  cbv zeta. split; [|split; [reflexivity|vm_compute; reflexivity]]. cbn [well_formed sorted_keys].
  split; [split; [constructor; [cbn; lia|constructor]|split; [constructor|exact I]]|].
  split; [exists [97]; split; [constructor; [unfold scalar; lia|constructor]|reflexivity]|].
  split; [split; [lia|split; [lia|auto]]|].
  split; [exists [98]; split; [constructor; [unfold scalar; lia|constructor]|reflexivity]|].
  split; [|exact I]. exists [233]. split; [constructor; [unfold scalar; lia|constructor]|reflexivity].
Qed.
