(** C71: floating-point numbers in JSON texts. *)
From Coq Require Import SpecFloat QArith Qabs Qpower Qfield Lqa.
From Verif Require Import Common Unicode_Spec Unicode_Model Format_Model Format_Spec Format_Proofs Format_Props Float_Model Float_Spec Float_Proofs Float_Props Json_Model JsonFloat_Model JsonFloat_Props FloatRead_Spec FloatRead_Model FloatRead_Proofs FloatRead_Text_Proofs FloatRead_Props FloatRound_Props FloatPrint_Proofs.
From Verif Require Import Json_Spec Json_String_Proofs Json_Token_Proofs Json_Grammar_Proofs Json_Order_Proofs Json_Props JsonReal_Spec JsonReal_Proofs.
Local Open Scope Z_scope.

(** * What is accepted *)
(** With std::from_chars the parser takes a text for a floating-point number exactly if it is a number of RFC 8259 with a fraction
    or an exponent, below the limit of the format and not reported as underflow; the value is the nearest of the format. *)
Theorem json_real_exact : forall ld tiny fp w f, format_ok ld -> underflow_policy ld tiny -> (forall s, parse_fp fp s = convert_charconv ld tiny s) ->
  (token fp w (JFloat f) <->
   exists q r g, real_text q r /\ (q < limit ld)%Q /\ tiny q = false /\ nearest ld q g /\ sign_of g = false /\ (w = r /\ f = g \/ w = 45 :: r /\ f = negated g)).
Proof.
  intros ld tiny fp w f HF HT HP. split.
  - intros H. inversion H as [| | |? ? HI|w0 f0 H1 H2 H3 H4]; subst; [inversion HI|]. rewrite HP in H4. apply charconv_exact in H4; [|assumption..].
    assert (G : forall r g, unsigned_part w = r -> stands_for ld tiny decimal_text r g -> exists q, real_text q r /\ (q < limit ld)%Q /\ tiny q = false /\ nearest ld q g /\ sign_of g = false).
    { intros r g E S. rewrite E in H1, H2. destruct S as [(q & S1 & S2 & S3 & S4 & S5)|[(S & _)|(S & _)]].
      - exists q. split; [now apply shape_real|auto].
      - exfalso. destruct H1 as (d & r' & -> & D & _). assert (LL : lower_case d = 105 \/ same_letter 105 d) by (destruct S as [S|S]; inversion S; auto). unfold same_letter, lower_case, digit_of in *. destruct (Z.leb_spec 65 d), (Z.leb_spec d 90); cbn [andb] in *; lia.
      - exfalso. destruct H1 as (d & r' & -> & D & _). destruct S as (w1 & p & S & ES & _). inversion S as [|? ? ? ? SL]; subst. injection ES as -> _. unfold same_letter, digit_of in *. lia. }
    destruct H4 as [H4|(r & g & -> & H4 & ->)].
    + assert (EU : unsigned_part w = w). { destruct w as [|c w]; [reflexivity|]. cbn [unsigned_part]. destruct (Z.eqb_spec c 45) as [-> |]; [|reflexivity]. exfalso. apply stands_wider, stands_start in H4. destruct H4 as (c & r' & E & HC). injection E as <- _. lia. }
      destruct (G w f EU H4) as (q & Q1 & Q2 & Q3 & Q4 & Q5). exists q, w, f. do 5 (split; [assumption|]). left. auto.
    + destruct (G r g eq_refl H4) as (q & Q1 & Q2 & Q3 & Q4 & Q5). exists q, r, g. do 5 (split; [assumption|]). right. auto.
  - intros (q & r & g & Q1 & Q2 & Q3 & Q4 & Q5 & H). destruct (read_real ld tiny (parse_fp fp) q r g HF HT (or_introl HP) Q1 Q2 Q3 Q4 Q5) as (R1 & R2).
    destruct H as [(-> & ->)|(-> & ->)]; [now apply (real_tokens fp q)|now apply (real_tokens_minus fp q)].
Qed.
(** Refuted for the other build: a hexadecimal number with a point is accepted, [0x1.8] is the array [1.5]. *)
Theorem only_json_numbers_refuted : exists ld tiny, long_double ld /\ underflow_policy ld tiny /\
  forall fp sg, (forall s, parse_fp fp s = convert_stod ld tiny s) -> parse fp sg strict [91; 48; 120; 49; 46; 56; 93] = Some (JArray [JFloat (S754_finite false (Z.to_pos (3 * 2 ^ 62)) (-63))]).
Proof.
  exists x87, (fun _ => false). split; [split; [split; reflexivity|split; [discriminate|discriminate]]|]. split; [split; [reflexivity|split; reflexivity]|].
  intros fp sg HP. apply parse_exact; [repeat (apply Forall_cons; [unfold byte; lia|]); apply Forall_nil|]. exists [], [91; 48; 120; 49; 46; 56; 93], []. split; [reflexivity|]. split; [constructor|]. split; [|split; [constructor; constructor|right; right; eexists; reflexivity]].
  apply (v_array fp strict [48; 120; 49; 46; 56]). apply (e_last fp strict [] [48; 120; 49; 46; 56] _ [] []); [constructor| |constructor|constructor]. apply v_token. apply tok_float.
  - exists 48, [120; 49; 46; 56]. split; [reflexivity|]. split; [left; lia|]. intros _. unfold digit_of. lia.
  - left. exists [48; 120; 49], [56], []. split; [reflexivity|]. split; [cbn; lia|]. split; [split; cbn; lia|]. split; [discriminate|]. split; [split; cbn; lia|now left].
  - repeat (apply Forall_cons; [unfold stop, white; lia|]). apply Forall_nil.
  - rewrite HP. vm_compute. reflexivity.
Qed.

(** * What is written *)
(** A finite number is written as a number of RFC 8259 with at most six significant digits (those of printf's %g). *)
Theorem finite_written : forall ld read fp f, library ld read fp -> long_double ld -> value_of ld f -> finite f ->
  exists number, print_fp fp f = (if sign_of f then [45] else []) ++ number /\ printf_text TGeneral false 6 (magnitude_of f) number /\ (decimal number \/ exists q, real_text q number).
Proof.
  intros ld read fp f HLib HL HV HF. destruct (library_writes ld read fp f HLib HL HV) as (nb & PT & EP). exists nb. split; [assumption|]. split; [assumption|].
  destruct f as [s|s| |s m e]; try contradiction; cbn [magnitude_of] in PT; [apply (general_shape 0 0)|apply (general_shape (Zpos m) e)]; (lia || assumption).
Qed.

(** * Documents *)
Lemma writable_object pf m : writable pf (JObject m) -> sorted_keys m /\ Forall (fun e => utf8_text (fst e) /\ writable pf (snd e)) m.
Proof. intros [HS H]. split; [assumption|]. clear HS. induction m as [|[k v] m IH]; constructor; [cbn; tauto|]. apply IH. tauto. Qed.
Lemma writable_array pf l : writable pf (JArray l) -> Forall (writable pf) l.
Proof. intros H. induction l as [|v l IH]; constructor; [apply H|]. apply IH. apply H. Qed.
Lemma sorted_same (R : json -> json -> Prop) m : forall m', Forall2 (fun e e' => fst e = fst e' /\ R (snd e) (snd e')) m m' -> sorted_keys m -> sorted_keys m'.
Proof.
  induction m as [|[k v] m IH]; intros m' H; inversion H as [|? [k' v'] ? m1 (E & _) H']; subst; [auto|]. cbn [fst] in E. subst k'. cbn [sorted_keys]. intros (HF & HS). split; [|now apply IH].
  clear IH HS H. revert HF. induction H' as [|[a x] [b y] m m1 (E & _) H' IH]; intros HF; [constructor|]. cbn [fst] in E. subst b. inversion HF; subst. constructor; [assumption|]. now apply IH.
Qed.
Section Documents.
  Variables (ld : fp_format) (tiny : Q -> bool) (read : list Z -> option spec_float) (fp : fp_text) (sg : bool).
  Hypothesis (HL : long_double ld) (HT : underflow_policy ld tiny) (HC : conversion ld tiny read) (HLib : library ld read fp).
  Definition written (j : json) : Prop :=
    exists w j', serialize fp sg j = Ok w /\ Forall byte w /\ (forall o, value fp o w j') /\ alike j j' /\ serialize fp sg j' = Ok w.
  Lemma writable_written : forall j, writable (fun f => value_of ld f /\ moderate ld f) j -> written j.
  Proof.
    induction j as [|s|m IH|l IH|b|z|z|f] using json_induction; intros HW.
    - destruct (serialize_value fp sg JNull HW) as (w & E & HB & HV). exists w, JNull. split; [assumption|]. split; [assumption|]. split; [exact HV|]. split; [constructor|assumption].
    - destruct (serialize_value fp sg (JString s) HW) as (w & E & HB & HV). exists w, (JString s). split; [assumption|]. split; [assumption|]. split; [exact HV|]. split; [constructor|assumption].
    - apply writable_object in HW. destruct HW as [HS HF].
      assert (G : exists body m', (fix entries (m : list (list Z * json)) : res (list Z) :=
             match m with
             | [] => Ok []
             | (k, v) :: r =>
                 let! key := serialize_string sg k in
                 let! value := serialize fp sg v in
                 let! rest := entries r in
                 Ok (key ++ [58] ++ value ++ (match r with [] => [] | _ :: _ => [44] end) ++ rest)
             end) m = Ok body /\ Forall byte body /\ (m = [] /\ m' = [] /\ body = [] \/ m <> [] /\ m' <> [] /\ forall o, members fp o body m') /\
             Forall2 (fun e e' => fst e = fst e' /\ alike (snd e) (snd e')) m m' /\
             (fix entries (m : list (list Z * json)) : res (list Z) :=
             match m with
             | [] => Ok []
             | (k, v) :: r =>
                 let! key := serialize_string sg k in
                 let! value := serialize fp sg v in
                 let! rest := entries r in
                 Ok (key ++ [58] ++ value ++ (match r with [] => [] | _ :: _ => [44] end) ++ rest)
             end) m' = Ok body).
      { clear HS. induction m as [|[k v] m IHm].
        - exists [], []. split; [reflexivity|]. split; [constructor|]. split; [left; auto|]. split; [constructor|reflexivity].
        - inversion IH as [|? ? Hv IH']; subst. inversion HF as [|? ? [HK HWv] HF']; subst. cbn [fst snd] in *.
          destruct (IHm IH' HF') as (body & m' & E & HB & HM & HA & E'). destruct (Hv HWv) as (wv & v' & Ev & HBv & HVv & HAv & Ev').
          destruct (serialized_string_value fp strict sg k HK) as (wk & Ek & HPk & _ & HLk).
          exists (([34] ++ wk ++ [34]) ++ [58] ++ wv ++ (match m with [] => [] | _ :: _ => [44] end) ++ body), ((k, v') :: m').
          assert (HBk : Forall byte ([34] ++ wk ++ [34])).
          { rewrite !Forall_app; repeat split; [constructor; [unfold byte; lia|constructor]|now apply printable_byte|constructor; [unfold byte; lia|constructor]]. }
          split; [cbv beta iota; rewrite Ek; cbn [bind]; rewrite Ev; cbn [bind]; rewrite E; cbn [bind]; reflexivity|]. split; [|split; [right; split; [discriminate|]; split; [discriminate|]|split]].
          + apply Forall_app. split; [assumption|]. apply Forall_app. split; [constructor; [unfold byte; lia|constructor]|]. apply Forall_app. split; [assumption|].
            apply Forall_app. split; [destruct m; repeat constructor; unfold byte; lia|assumption].
          + intros o.
            assert (HMB : member fp o ([34] ++ wk ++ [34] ++ [] ++ [58] ++ [] ++ wv) k v').
            { apply mem; [now apply printable_utf8|assumption|constructor|constructor|apply HVv]. }
            destruct HM as [(-> & -> & ->)|(NM & NM' & HM)].
            * pose proof (m_last fp o [] _ k v' [] [] (gap_nil o) HMB (gap_nil o) (t_none o)) as R.
              cbn [app map] in *. rewrite !app_nil_r in *. rewrite <- !app_assoc. cbn [app]. exact R.
            * destruct m as [|e0 m]; [now destruct NM|].
              pose proof (m_more fp o [] _ k v' [] body _ (gap_nil o) HMB (gap_nil o) (HM o)) as R.
              cbn [app] in *. rewrite <- ?app_assoc in *. cbn [app] in *. try rewrite <- !app_assoc in R. exact R.
          + constructor; [split; [reflexivity|assumption]|assumption].
          + cbv beta iota. rewrite Ek. cbn [bind]. rewrite Ev'. cbn [bind]. rewrite E'. cbn [bind]. destruct HM as [(-> & -> & ->)|(NM & NM' & _)]; [reflexivity|]. destruct m; [now destruct NM|]. destruct m'; [now destruct NM'|]. reflexivity. }
      destruct G as (body & m' & E & HB & HM & HA & E'). exists ([123] ++ body ++ [125]), (JObject m'). cbn [serialize]. rewrite E, E'. cbn [bind]. split; [reflexivity|].
      split; [rewrite !Forall_app; repeat split; [constructor; [unfold byte; lia|constructor]|assumption|constructor; [unfold byte; lia|constructor]]|].
      split; [|split; [now constructor|reflexivity]]. intros o. destruct HM as [(-> & -> & ->)|(_ & _ & HM)]; [apply (v_object_empty fp o []); constructor|].
      eapply v_object; [apply HM|]. apply map_of_self. exact (sorted_same _ _ _ HA HS).
    - apply writable_array in HW.
      assert (G : exists body l', (fix elements (l : list json) : res (list Z) :=
             match l with
             | [] => Ok []
             | v :: r =>
                 let! value := serialize fp sg v in
                 let! rest := elements r in
                 Ok (value ++ (match r with [] => [] | _ :: _ => [44] end) ++ rest)
             end) l = Ok body /\ Forall byte body /\ (l = [] /\ l' = [] /\ body = [] \/ l <> [] /\ l' <> [] /\ forall o, elements fp o body l') /\ Forall2 alike l l' /\
             (fix elements (l : list json) : res (list Z) :=
             match l with
             | [] => Ok []
             | v :: r =>
                 let! value := serialize fp sg v in
                 let! rest := elements r in
                 Ok (value ++ (match r with [] => [] | _ :: _ => [44] end) ++ rest)
             end) l' = Ok body).
      { induction l as [|v l IHl].
        - exists [], []. split; [reflexivity|]. split; [constructor|]. split; [left; auto|]. split; [constructor|reflexivity].
        - inversion IH as [|? ? Hv IH']; subst. inversion HW as [|? ? HWv HF']; subst.
          destruct (IHl IH' HF') as (body & l' & E & HB & HM & HA & E'). destruct (Hv HWv) as (wv & v' & Ev & HBv & HVv & HAv & Ev').
          exists (wv ++ (match l with [] => [] | _ :: _ => [44] end) ++ body), (v' :: l').
          split; [cbv beta iota; rewrite Ev; cbn [bind]; rewrite E; cbn [bind]; reflexivity|]. split; [|split; [right; split; [discriminate|]; split; [discriminate|]|split]].
          + apply Forall_app. split; [assumption|]. apply Forall_app. split; [destruct l; repeat constructor; unfold byte; lia|assumption].
          + intros o. destruct HM as [(-> & -> & ->)|(NM & NM' & HM)].
            * pose proof (e_last fp o [] wv v' [] [] (gap_nil o) (HVv o) (gap_nil o) (t_none o)) as R.
              cbn [app map] in *. rewrite !app_nil_r in *. exact R.
            * destruct l as [|e0 l]; [now destruct NM|].
              exact (e_more fp o [] wv v' [] body _ (gap_nil o) (HVv o) (gap_nil o) (HM o)).
          + constructor; assumption.
          + cbv beta iota. rewrite Ev'. cbn [bind]. rewrite E'. cbn [bind]. destruct HM as [(-> & -> & ->)|(NM & NM' & _)]; [reflexivity|]. destruct l; [now destruct NM|]. destruct l'; [now destruct NM'|]. reflexivity. }
      destruct G as (body & l' & E & HB & HM & HA & E'). exists ([91] ++ body ++ [93]), (JArray l'). cbn [serialize]. rewrite E, E'. cbn [bind]. split; [reflexivity|].
      split; [rewrite !Forall_app; repeat split; [constructor; [unfold byte; lia|constructor]|assumption|constructor; [unfold byte; lia|constructor]]|].
      split; [|split; [now constructor|reflexivity]]. intros o. destruct HM as [(-> & -> & ->)|(_ & _ & HM)]; [apply (v_array_empty fp o []); constructor|].
      apply v_array. apply HM.
    - destruct (serialize_value fp sg (JBool b) HW) as (w & E & HB & HV). exists w, (JBool b). split; [assumption|]. split; [assumption|]. split; [exact HV|]. split; [constructor|assumption].
    - destruct (serialize_value fp sg (JSigned z) HW) as (w & E & HB & HV). exists w, (read_back (JSigned z)). split; [assumption|]. split; [assumption|]. split; [exact HV|]. split; [cbn [read_back]; constructor|]. now rewrite serialize_read_back.
    - destruct (serialize_value fp sg (JUnsigned z) HW) as (w & E & HB & HV). exists w, (JUnsigned z). split; [assumption|]. split; [assumption|]. split; [exact HV|]. split; [constructor|assumption].
    - destruct HW as (HV & HM). destruct (float_again ld tiny read fp sg f HL HT HC HLib HV HM) as (j & J1 & J2 & J3 & J4). exists (print_fp fp f), j. split; [reflexivity|]. split; [assumption|]. split; [intros o; now apply v_token|]. split; [now constructor|assumption].
  Qed.
End Documents.
(** In both builds: an object or array whose floating-point numbers are moderate is serialized, the strict parser reads the text, what
    it reads is the same tree with numbers near to the original ones, and serializing that gives the same text again. *)
Theorem real_documents : forall ld tiny read fp sg sg' j, long_double ld -> underflow_policy ld tiny -> conversion ld tiny read -> library ld read fp ->
  writable (fun f => value_of ld f /\ moderate ld f) j -> is_container j = true ->
  exists w j', serialize fp sg j = Ok w /\ parse fp sg' strict w = Some j' /\ alike j j' /\ serialize fp sg j' = Ok w.
Proof.
  intros ld tiny read fp sg sg' j HL HT HC HLib HW HK. destruct (writable_written ld tiny read fp sg HL HT HC HLib j HW) as (w & j' & E & HB & HV & HA & E'). exists w, j'. split; [assumption|]. split; [|now split].
  apply parse_exact; [assumption|]. exists [], w, []. rewrite app_nil_r. split; [reflexivity|]. split; [constructor|]. split; [apply HV|]. split; [constructor; constructor|]. right. apply container_iff. inversion HA; subst; try discriminate HK; reflexivity.
Qed.

(** * The hypotheses can be met *)
(** There is such a library for every format, whatever the reading function. *)
Theorem library_exists : forall ld read, long_double ld -> exists fp, library ld read fp /\ forall s m e, value_of ld (S754_finite s m e) -> print_fp fp (S754_finite s m e) = (if s then [45] else []) ++ print_general 6 (numerator (Zpos m) e) (denominator e).
Proof.
  intros ld read HL.
  set (text := fun f => match magnitude_of f with Finite m e => print_general 6 (numerator m e) (denominator e) | Infinity => [105; 110; 102] | NotANumber => [110; 97; 110] end).
  assert (PT : forall f, printf_text TGeneral false 6 (magnitude_of f) (text f)).
  { intros [s|s| |s m e]; unfold text; cbn [magnitude_of]; [apply print_general_correct; lia|reflexivity|reflexivity|apply print_general_correct; lia]. }
  exists (FpText read (fun f => (if sign_of f then [45] else []) ++ text f)). split; [|intros; reflexivity]. split; [reflexivity|]. intros f HV. pose proof (long_fits ld f HL HV) as FIT. pose proof FIT as (t & T1 & T2). change (Z.to_nat 6) with 6%nat in T1. rewrite (printf_text_unique _ _ _ _ _ _ T1 (PT f)) in T2.
  assert (HC : exists buf, converted (buffer_size (Z.to_nat (prec ld))) plain_float 6 (magnitude_of f) buf).
  { set (size := buffer_size _) in *. exists (if (length (text f) <=? size)%nat then text f else repeat 0 size), (text f). split; [exact (PT f)|]. unfold to_chars_into. destruct (length (text f) <=? size)%nat; [reflexivity|]. apply repeat_length. }
  destruct HC as (buf & HC). exists buf. split; [assumption|]. destruct HL as (HF & HP & HE). unfold format_ok in HF.
  destruct (float_formatted (buffer_size (Z.to_nat (prec ld))) plain_float 0 6 (sign_of f) (magnitude_of f) buf) as (number & l & z & q & H1 & H2 & H3 & H4); [unfold buffer_size; lia|lia|lia|unfold decimal_type; cbn; tauto|assumption|exact FIT|discriminate|].
  cbv zeta in *. cbn [plain_float m_type m_alternate_form m_sign m_case m_alignment m_zero_padding m_fill value_or in_case] in *. rewrite H1. f_equal. cbn [print_fp].
  assert (HZ : l = O /\ z = O /\ q = O). { rewrite !app_length, !repeat_length in H4. lia. }
  destruct HZ as (-> & -> & ->). cbn [repeat app]. rewrite app_nil_r. rewrite (printf_text_unique _ _ _ _ _ _ (PT f) H2). now destruct (sign_of f).
Qed.
Lemma long_doubles : long_double binary64 /\ long_double x87 /\ long_double (FpFormat 113 16384).
Proof. unfold long_double, format_ok. cbn [prec emax binary64 x87]. lia. Qed.
Lemma prints ld read fp s m e : library ld read fp -> long_double ld -> value_of ld (S754_finite s m e) -> print_fp fp (S754_finite s m e) = (if s then [45] else []) ++ print_general 6 (numerator (Zpos m) e) (denominator e).
Proof.
  intros HLib HL HV. destruct (library_writes ld read fp _ HLib HL HV) as (nb & PT & EP). rewrite EP. cbn [magnitude_of sign_of] in *. now rewrite (printf_text_unique _ _ _ _ _ _ PT (print_general_correct 6 (Zpos m) e ltac:(lia))).
Qed.
(** {"a": [2.5, -3, 1e+20]} as x87 numbers: read back, 2.5 and 1e+20 unchanged and -3 as an integer. *)
Definition sample : json := JObject [([97], JArray [JFloat (S754_finite false (Z.to_pos (5 * 2 ^ 61)) (-62)); JFloat (S754_finite true (Z.to_pos (3 * 2 ^ 62)) (-62)); JFloat (S754_finite false (Z.to_pos (5 ^ 20 * 2 ^ 17)) 3)])].
Example sample_written : forall fp, library x87 (convert_charconv x87 (fun _ => false)) fp ->
  serialize fp true sample = Ok [123; 34; 97; 34; 58; 91; 50; 46; 53; 44; 45; 51; 44; 49; 101; 43; 50; 48; 93; 125] /\
  parse fp true strict [123; 34; 97; 34; 58; 91; 50; 46; 53; 44; 45; 51; 44; 49; 101; 43; 50; 48; 93; 125] =
    Some (JObject [([97], JArray [JFloat (S754_finite false (Z.to_pos (5 * 2 ^ 61)) (-62)); JSigned (-3); JFloat (S754_finite false (Z.to_pos (5 ^ 20 * 2 ^ 17)) 3)])]).
Proof.
  intros fp HLib. pose proof (proj1 (proj2 long_doubles)) as HL. split.
  - unfold sample. cbn [serialize]. rewrite !(prints x87 _ fp _ _ _ HLib HL) by (vm_compute; reflexivity). vm_compute. reflexivity.
  - destruct HLib as (RD & _). destruct fp as [pf pr]. cbn [parse_fp] in RD. apply parse_exact; [repeat (apply Forall_cons; [unfold byte; lia|]); apply Forall_nil|].
    exists [], [123; 34; 97; 34; 58; 91; 50; 46; 53; 44; 45; 51; 44; 49; 101; 43; 50; 48; 93; 125], []. split; [reflexivity|]. split; [constructor|]. split; [|split; [constructor; constructor|right; left; eexists; reflexivity]].
    apply (v_object _ strict [34; 97; 34; 58; 91; 50; 46; 53; 44; 45; 51; 44; 49; 101; 43; 50; 48; 93] [([97], JArray [JFloat (S754_finite false (Z.to_pos (5 * 2 ^ 61)) (-62)); JSigned (-3); JFloat (S754_finite false (Z.to_pos (5 ^ 20 * 2 ^ 17)) 3)])]); [|apply map_of_self; cbn; auto].
    apply (m_last _ strict [] [34; 97; 34; 58; 91; 50; 46; 53; 44; 45; 51; 44; 49; 101; 43; 50; 48; 93] [97] _ [] []); [constructor| |constructor|constructor].
    apply (mem _ strict [97] [97] [] [] [91; 50; 46; 53; 44; 45; 51; 44; 49; 101; 43; 50; 48; 93]); [exists [97]; split; [constructor; [unfold scalar; lia|constructor]|reflexivity]|apply lit_plain; [lia|lia|lia|constructor]|constructor|constructor|].
    apply (v_array _ strict [50; 46; 53; 44; 45; 51; 44; 49; 101; 43; 50; 48]).
    assert (RT : forall ip fr x ex, decimal ip -> Forall decimal_digit fr -> exponent_suffix 101 69 x ex -> fr <> [] \/ ex <> [] -> exists q, real_text q (ip ++ match fr with [] => [] | _ => 46 :: fr end ++ ex)) by (intros ip fr x ex D1 D2 D3 D4; eexists; exists ip, fr, x, ex; repeat (split; [eassumption|]); split; reflexivity).
    apply (e_more _ strict [] [50; 46; 53] _ [] [45; 51; 44; 49; 101; 43; 50; 48]); [constructor| |constructor|].
    { apply v_token. destruct (RT [50] [53] 0 []) as (q & R); [split; [discriminate|split; [constructor; [left; lia|constructor]|now left]]|constructor; [left; lia|constructor]|now left|left; discriminate|]. apply (real_tokens _ q _ _ R). cbn [parse_fp]. rewrite RD. vm_compute. reflexivity. }
    apply (e_more _ strict [] [45; 51] _ [] [49; 101; 43; 50; 48]); [constructor| |constructor|].
    { apply v_token, tok_integer. apply (int_signed [51]); [split; [discriminate|split; [constructor; [left; lia|constructor]|now left]]|cbn; lia]. }
    apply (e_last _ strict [] [49; 101; 43; 50; 48] _ [] []); [constructor| |constructor|constructor].
    apply v_token. destruct (RT [49] [] 20 [101; 43; 50; 48]) as (q & R); [split; [discriminate|split; [constructor; [left; lia|constructor]|now left]]|constructor| |right; discriminate|].
    { right. exists 101, [43], [50; 48]. split; [now left|]. split; [reflexivity|]. split; [discriminate|]. split; [repeat (apply Forall_cons; [left; lia|]); apply Forall_nil|]. left. split; [now right|reflexivity]. }
    apply (real_tokens _ q _ _ R). cbn [parse_fp]. rewrite RD. vm_compute. reflexivity.
Qed.
Example sample_writable : writable (fun f => value_of x87 f /\ moderate x87 f) sample.
Proof.
  unfold sample. cbn [writable sorted_keys fst snd]. split; [split; [constructor|exact I]|]. split; [exists [97]; split; [constructor; [unfold scalar; lia|constructor]|reflexivity]|]. split; [|exact I].
  assert (M : forall s m e, (1 <= inject_Z (Zpos m) * p2 e)%Q -> (inject_Z (Zpos m) * p2 e <= p2 100)%Q -> moderate x87 (S754_finite s m e)).
  { intros s m e H1 H2. cbn [moderate]. assert (EA : (Qabs (number_of (S754_finite s m e)) == inject_Z (Zpos m) * p2 e)%Q). { rewrite number_finite. destruct s; [rewrite <- Qabs_opp|]; rewrite Qabs_pos by lra; ring. } rewrite EA.
    assert (S1 : (smallest_normal x87 <= p2 (-1))%Q) by (apply p2_le; vm_compute; discriminate). change (p2 (-1)) with (1 # 2)%Q in S1.
    assert (S2 : (2 * p2 100 <= limit x87)%Q). { unfold limit. cbn [prec emax x87]. rewrite <- p2_succ. apply Qle_trans with (1 * p2 (16384 - 64))%Q; [rewrite Qmult_1_l; apply p2_le; lia|]. apply Qmult_le_compat_r; [discriminate|apply Qlt_le_weak, p2_pos]. }
    lra. }
  split; [split; [vm_compute; reflexivity|apply M; vm_compute; discriminate]|]. split; [split; [vm_compute; reflexivity|apply M; vm_compute; discriminate]|]. split; [|exact I]. split; [vm_compute; reflexivity|apply M; vm_compute; discriminate].
Qed.

(** * What does not hold *)
(** Refuted: what is serialized can be parsed. Infinities and not-a-number are written as inf and nan, which no parser options accept. *)
Theorem special_numbers_refuted : forall ld read fp sg sg' o f, library ld read fp -> long_double ld -> value_of ld f -> ~ finite f ->
  exists w, serialize fp sg (JArray [JFloat f]) = Ok w /\ parse fp sg' o w = None.
Proof.
  intros ld read fp sg sg' o f HLib HL HV HN. destruct (library_writes ld read fp f HLib HL HV) as (nb & PT & EP). cbn [serialize bind]. rewrite EP. eexists. split; [reflexivity|].
  destruct o as [[] [] []], sg', f as [s|[]| |s m e]; try (destruct HN; exact I); cbn [magnitude_of printf_text sign_of] in *; subst nb; vm_compute; reflexivity.
Qed.
(** Refuted: what is read back equals what was written. 1 + 2^-30 is written as 1 and becomes the integer 1. *)
Theorem digits_kept_refuted : forall fp read sg, library x87 read fp -> let f := S754_finite false (Z.to_pos (2 ^ 63 + 2 ^ 33)) (-63) in
  value_of x87 f /\ moderate x87 f /\ serialize fp sg (JArray [JFloat f]) = Ok [91; 49; 93] /\ parse fp sg strict [91; 49; 93] = Some (JArray [JUnsigned 1]) /\ json_eq x87 (JArray [JFloat f]) (JArray [JUnsigned 1]) = false.
Proof.
  intros fp read sg HLib f. pose proof (proj1 (proj2 long_doubles)) as HL. assert (HV : value_of x87 f) by (vm_compute; reflexivity). split; [assumption|]. split; [|split; [|split]].
  - cbn [moderate f]. assert (E : (Qabs (number_of f) == 1 + (1 # 1073741824))%Q) by (vm_compute; reflexivity). fold f. rewrite E.
    assert (S1 : (smallest_normal x87 <= p2 (-1))%Q) by (apply p2_le; vm_compute; discriminate). change (p2 (-1)) with (1 # 2)%Q in S1.
    assert (S2 : (4 <= limit x87)%Q). { unfold limit. cbn [prec emax x87]. apply Qle_trans with (1 * p2 (16384 - 64))%Q; [rewrite Qmult_1_l; change 4%Q with (p2 2); apply p2_le; lia|]. apply Qmult_le_compat_r; [discriminate|apply Qlt_le_weak, p2_pos]. }
    split; [lra|]. lra.
  - cbn [serialize]. unfold f. rewrite (prints x87 read fp _ _ _ HLib HL HV). vm_compute. reflexivity.
  - destruct sg; vm_compute; reflexivity.
  - vm_compute. reflexivity.
Qed.
(** Refuted without "moderate": negative zero is written -0, read as an integer, and written 0. *)
Theorem negative_zero_refuted : forall ld read fp sg, library ld read fp -> long_double ld ->
  serialize fp sg (JArray [JFloat (S754_zero true)]) = Ok [91; 45; 48; 93] /\ parse fp sg strict [91; 45; 48; 93] = Some (JArray [JSigned 0]) /\ serialize fp sg (JArray [JSigned 0]) = Ok [91; 48; 93].
Proof.
  intros ld read fp sg HLib HL. destruct (library_writes ld read fp (S754_zero true) HLib HL eq_refl) as (nb & PT & EP). cbn [magnitude_of sign_of] in *. rewrite (printf_text_unique _ _ _ _ _ _ PT zero_text) in EP.
  split; [cbn [serialize bind]; rewrite EP; reflexivity|]. split; [destruct sg; vm_compute; reflexivity|vm_compute; reflexivity].
Qed.
(** Refuted without "moderate": where long double is the 64-bit format and underflow is reported for subnormal results (as strtold may
    do, and std::stold then throws), the smallest normal number is written 2.22507e-308, which is smaller and cannot be read. *)
Definition subnormal_underflow (ff : fp_format) (q : Q) : bool := negb (Qle_bool q 0) && negb (Qle_bool (smallest_normal ff) q).
Lemma subnormal_policy ff : underflow_policy ff (subnormal_underflow ff).
Proof.
  split; [|split].
  - intros q q' E. unfold subnormal_underflow. f_equal; f_equal; apply eq_true_iff_eq; rewrite !Qle_bool_iff, E; reflexivity.
  - intros q H. unfold subnormal_underflow. apply Qle_bool_iff in H. rewrite H. apply andb_false_r.
  - reflexivity.
Qed.
(** The parser depends on the conversion function only by its results. *)
Lemma grammar_depends fp fp' o : (forall w, parse_fp fp w = parse_fp fp' w) ->
  (forall w j, value fp o w j -> value fp' o w j) /\ (forall w l, elements fp o w l -> elements fp' o w l) /\
  (forall w l, members fp o w l -> members fp' o w l) /\ (forall w k j, member fp o w k j -> member fp' o w k j).
Proof.
  intros HE. assert (T : forall w j, token fp w j -> token fp' w j) by (intros w j H; inversion H; subst; [constructor|constructor|constructor|now apply tok_integer|apply tok_float; auto; now rewrite <- HE]).
  apply (grammar_mind fp o (fun w j _ => value fp' o w j) (fun w l _ => elements fp' o w l) (fun w l _ => members fp' o w l) (fun w k j _ => member fp' o w k j)); intros.
  - apply v_token; auto.
  - now apply v_string.
  - apply v_array_empty; auto.
  - now apply v_array.
  - apply v_object_empty; auto.
  - now apply (v_object fp' o w ms m).
  - apply e_last; auto.
  - apply e_more; auto.
  - apply e_more_junk; auto.
  - apply m_last; auto.
  - apply m_more; auto.
  - apply m_more_junk; auto.
  - apply mem; auto.
Qed.
Lemma parse_depends fp fp' sg o input : (forall w, parse_fp fp w = parse_fp fp' w) -> Forall byte input -> parse fp sg o input = parse fp' sg o input.
Proof.
  intros HE HB. assert (G : forall a b j, (forall w, parse_fp a w = parse_fp b w) -> parse a sg o input = Some j -> parse b sg o input = Some j).
  { intros a b j E H. apply parse_exact in H; [|assumption]. apply parse_exact; [assumption|]. destruct H as (g & w & g' & -> & HG & HV & H). exists g, w, g'. split; [reflexivity|]. split; [assumption|]. split; [|assumption]. now apply (proj1 (grammar_depends a b o E)). }
  destruct (parse fp sg o input) as [j|] eqn:E1; [symmetry; now apply (G fp fp')|]. destruct (parse fp' sg o input) as [j|] eqn:E2; [|reflexivity]. apply (G fp' fp) in E2; [congruence|]. intros w. now rewrite HE.
Qed.
Theorem smallest_normal_refuted : forall fp sg, library binary64 (convert_stod binary64 (subnormal_underflow binary64)) fp -> let f := S754_finite false (Z.to_pos (2 ^ 52)) (-1074) in
  value_of binary64 f /\ (number_of f == smallest_normal binary64)%Q /\ exists w, serialize fp sg (JArray [JFloat f]) = Ok w /\ parse fp sg strict w = None.
Proof.
  intros fp sg HLib f. pose proof (proj1 long_doubles) as HL. assert (HV : value_of binary64 f) by (vm_compute; reflexivity). split; [assumption|]. split; [vm_compute; reflexivity|].
  exists [91; 50; 46; 50; 50; 53; 48; 55; 101; 45; 51; 48; 56; 93]. split; [cbn [serialize bind]; unfold f; rewrite (prints binary64 _ fp _ _ _ HLib HL HV); vm_compute; reflexivity|].
  rewrite (parse_depends fp (FpText (convert_stod binary64 (subnormal_underflow binary64)) (fun _ => []))); [destruct sg; vm_compute; reflexivity|exact (proj1 HLib)|repeat (apply Forall_cons; [unfold byte; lia|]); apply Forall_nil].
Qed.
