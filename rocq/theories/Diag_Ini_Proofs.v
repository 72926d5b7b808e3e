(** Proofs for C66: positions and warnings of the INI parser. *)
From Verif Require Import Common Bits Strings_Model Strings_Spec Strings_Proofs Json_Model Json_String_Proofs Ini_Model Ini_Spec Ini_Proofs.
From Verif Require Import Diag_Model Diag_Spec Diag_Proofs.

(** * Taking a line *)
Lemma pieces_line l r : ~ In 10 l -> pieces 10 (l ++ 10 :: r) = l :: pieces 10 r.
Proof.
  induction l as [|c l IH]; intros H; cbn [app pieces]; [reflexivity|].
  destruct (Z.eqb_spec c 10) as [->|Hc]; [exfalso; apply H; now left|]. rewrite IH by (intros Hl; apply H; now right). reflexivity.
Qed.
Lemma pieces_last_line l : ~ In 10 l -> pieces 10 l = [l].
Proof.
  induction l as [|c l IH]; intros H; cbn [pieces]; [reflexivity|].
  destruct (Z.eqb_spec c 10) as [->|Hc]; [exfalso; apply H; now left|]. rewrite IH by (intros Hl; apply H; now right). reflexivity.
Qed.
Lemma newlines_none l : ~ In 10 l -> newlines l = 0.
Proof. intros H. unfold newlines. rewrite (proj1 (count_occ_not_In Z.eq_dec l 10) H). reflexivity. Qed.
Lemma since_app_none p l : ~ In 10 l -> since_newline (p ++ l) = since_newline p + Z.of_nat (length l).
Proof.
  revert p. induction l as [|c l IH]; intros p H; [rewrite app_nil_r; cbn [length]; lia|].
  replace (p ++ c :: l) with ((p ++ [c]) ++ l) by (rewrite <- app_assoc; reflexivity).
  rewrite IH by (intros Hl; apply H; now right). rewrite since_snoc.
  destruct (Z.eqb_spec c 10) as [->|Hc]; [exfalso; apply H; now left|]. cbn [length]. lia.
Qed.

Section ini.
  Variables (input : list Z) (sg : bool).
  Hypothesis HB : bytes input.
  Notation At := (At input).

  Lemma take_line_at : forall fuel n (s : istream) l s1, At n s -> (length (s_rest s) <= fuel)%nat -> i_take_line fuel s = (l, s1) ->
    take_line (s_rest s) = (l, s_rest s1) /\ s_log s1 = s_log s /\ ~ In 10 l /\
    ((s_rest s = l ++ 10 :: s_rest s1 /\ At (n + length l + 1) s1) \/ (s_rest s = l /\ s_rest s1 = [] /\ At (n + length l) s1)).
  Proof.
    induction fuel as [|fuel IH]; intros n s l s1 HA Hf H; cbn [i_take_line] in H.
    - assert (E : s_rest s = []) by (destruct (s_rest s); [reflexivity|cbn in Hf; lia]).
      rewrite (proj2 (at_end_iff s (at_bytes _ _ _ HB HA)) E) in H. injection H as <- <-. rewrite E. cbn [take_line length In]. rewrite Nat.add_0_r.
      split; [reflexivity|]. split; [reflexivity|]. split; [tauto|]. right. auto.
    - destruct (s_rest s) as [|c r] eqn:E.
      + rewrite (proj2 (at_end_iff s (at_bytes _ _ _ HB HA)) E) in H. injection H as <- <-. rewrite E. cbn [take_line length In]. rewrite Nat.add_0_r.
        split; [reflexivity|]. split; [reflexivity|]. split; [tauto|]. right. auto.
      + destruct (at_end s) eqn:EE; [apply (at_end_iff s (at_bytes _ _ _ HB HA)) in EE; congruence|].
        rewrite get_eq, (peek_cons _ _ _ E) in H. cbn [take_line].
        assert (ED : s_rest (discard s) = r) by (rewrite discard_rest, E; reflexivity).
        pose proof (at_get _ _ _ HA) as HG. destruct (Z.eqb_spec c 10) as [->|Hc].
        * injection H as <- <-. cbn [length In app]. rewrite discard_log, ED, Nat.add_0_r. replace (n + 1)%nat with (S n) by lia.
          split; [reflexivity|]. split; [reflexivity|]. split; [tauto|]. left. auto.
        * destruct (i_take_line fuel (discard s)) as [data s2] eqn:ET. injection H as <- <-. cbn [length] in Hf.
          destruct (IH _ _ _ _ HG ltac:(rewrite ED; lia) ET) as (H1 & H2 & H3 & H4). rewrite ED in *. rewrite H1, H2, discard_log.
          split; [reflexivity|]. split; [reflexivity|]. split; [intros [->|Hi]; [congruence|tauto]|]. cbn [length app].
          replace (n + S (length data))%nat with (S n + length data)%nat by lia.
          destruct H4 as [[-> H4]|(-> & -> & H4)]; [left|right]; auto.
  Qed.

  (** * Warnings about a line *)
  Definition here (s : istream) (w : warning ini_message) : Prop := w_line w = s_line s /\ w_column w = s_column s.
  Definition complains (items : list item) (l : list Z) (s s' : istream) : Prop :=
    exists new, new <> [] /\ s_log s' = new ++ s_log s /\ s_line s' = s_line s /\ s_column s' = s_column s /\
      Forall (fun w => here s w /\ ini_truthful items l (w_message w)) new.

  Lemma complain items l s m : ini_truthful items l m -> complains items l s (log m s).
  Proof.
    intros H. exists [Warning (s_line s) (s_column s) m]. split; [discriminate|]. split; [reflexivity|]. split; [reflexivity|]. split; [reflexivity|].
    constructor; [|constructor]. split; [split; reflexivity|exact H].
  Qed.
  Lemma complain_more items l s s1 m : complains items l s s1 -> ini_truthful items l m -> complains items l s (log m s1).
  Proof.
    intros (new & H1 & H2 & H3 & H4 & H5) H. exists (Warning (s_line s1) (s_column s1) m :: new). split; [discriminate|].
    split; [unfold log; cbn [s_log app]; now rewrite H2|]. split; [exact H3|]. split; [exact H4|].
    constructor; [|assumption]. split; [split; assumption|exact H].
  Qed.

  Lemma trim_value_log items l str a b (s : istream) r str' s' : ini_part l str -> i_trim_value str a b s = (r, str', s') ->
    trim_value str a b = (r, str') /\ (r <> Imbalanced -> s' = s) /\ (r = Imbalanced -> complains items l s s').
  Proof.
    intros HP. unfold i_trim_value. destruct (trim_value str a b) as [r0 str0] eqn:E. intros H. injection H as <- <- <-.
    split; [reflexivity|]. split; [destruct r0; congruence|]. intros ->. apply complain. cbn [ini_truthful]. exists str. split; [assumption|].
    unfold trim_value in E. destruct (starts_with str [a]) eqn:ES, (ends_with str [b]) eqn:EE; try discriminate.
    - left. split; [now apply begins_iff|now apply ends_false].
    - right. split; [now apply begins_false|now apply ends_iff].
  Qed.

  Lemma not_unquoted t q r t' : q = 39 \/ q = 34 -> trim_value t q q = (r, t') -> r <> Untrimmed -> ~ unquoted t.
  Proof.
    intros Hq E Hr HU. apply Hr. destruct (HU q Hq) as [H1 H2]. rewrite (proj2 (trim_value_untrimmed t q q t)) in E by auto. congruence.
  Qed.

  Lemma on_section_log items l a (s : istream) r s' : stripped l ([91] ++ a ++ [93]) -> i_on_section a s = (r, s') ->
    r = on_section a /\ match r with Some _ => s' = s | None => complains items l s s' end.
  Proof.
    intros HL H. unfold i_on_section in H. unfold on_section.
    assert (HT : stripped a (trim a)) by now apply trim_iff.
    assert (HP : ini_part l (trim a)) by now apply (part_section _ a).
    assert (HQ : forall q r0 t', q = 39 \/ q = 34 -> trim_value (trim a) q q = (r0, t') -> r0 <> Untrimmed -> ini_truthful items l ISectionQuoted).
    { intros q r0 t' Hq E Hr. exists a, (trim a). split; [assumption|]. split; [assumption|]. now apply (not_unquoted _ q r0 t'). }
    destruct (i_trim_value (trim a) 39 39 s) as [[r1 t1] s1] eqn:E1.
    destruct (trim_value_log items l _ _ _ _ _ _ _ HP E1) as (F1 & G1 & C1). rewrite F1.
    destruct r1.
    - injection H as <- <-. split; [reflexivity|]. apply complain_more; [now apply C1|]. apply (HQ 39 Imbalanced t1); auto. discriminate.
    - injection H as <- <-. split; [reflexivity|]. rewrite G1 by discriminate. apply complain. apply (HQ 39 Trimmed t1); auto. discriminate.
    - assert (t1 = trim a) by (apply trim_value_untrimmed in F1; tauto). subst t1.
      rewrite G1 in H by discriminate. destruct (i_trim_value (trim a) 34 34 s) as [[r2 t2] s2] eqn:E2.
      destruct (trim_value_log items l _ _ _ _ _ _ _ HP E2) as (F2 & G2 & C2). rewrite F2.
      destruct r2; injection H as <- <-; (split; [reflexivity|]).
      + apply complain_more; [now apply C2|]. apply (HQ 34 Imbalanced t2); auto. discriminate.
      + rewrite G2 by discriminate. apply complain. apply (HQ 34 Trimmed t2); auto. discriminate.
      + apply G2. discriminate.
  Qed.

  Lemma unquote_of q t r t' : trim_value t q q = (r, t') -> r <> Imbalanced -> unquote q t t'.
  Proof. intros E H. apply trim_value_unquote. eauto. Qed.

  Lemma on_pair_log items l t (s : istream) r s' : stripped l t -> i_on_name_value_pair t s = (r, s') ->
    r = on_name_value_pair t /\ match r with
    | Some (name, value) => s' = s /\ ini_part l name /\ ini_part l value
    | None => complains items l s s' end.
  Proof.
    intros HL H. unfold i_on_name_value_pair in H. unfold on_name_value_pair.
    assert (HNP : (forall n v, split t 61 2 <> Ok [n; v]) -> complains items l s (log INotPair s)).
    { intros HN. apply complain. exists t. split; [assumption|]. intros n v HP. apply (HN n v). apply split2. exact HP. }
    assert (HNP' : (forall n v, split t 61 2 <> Ok [n; v]) -> (None, log INotPair s) = (r, s') -> r = None /\ match r with
    | Some (name, value) => s' = s /\ ini_part l name /\ ini_part l value
    | None => complains items l s s' end).
    { intros HN E. injection E as <- <-. auto. }
    destruct (split t 61 2) as [l0|] eqn:ESp; try (apply HNP'; [discriminate|exact H]).
    destruct l0 as [|n [|v [|]]]; try (apply HNP'; [discriminate|exact H]).
    clear HNP HNP'. assert (HP : pair_of t n v) by (apply split2; exact ESp). clear ESp.
    assert (HTn : stripped n (trim n)) by now apply trim_iff.
    assert (HTv : stripped v (trim v)) by now apply trim_iff.
    assert (HPn : ini_part l (trim n)) by now apply (part_name _ t n v).
    assert (HPv : ini_part l (trim v)) by now apply (part_raw _ t n v).
    assert (HQ : forall q r0 t', q = 39 \/ q = 34 -> trim_value (trim n) q q = (r0, t') -> r0 <> Untrimmed -> ini_truthful items l INameQuoted).
    { intros q r0 t' Hq E Hr. exists t, n, v, (trim n). split; [assumption|]. split; [assumption|]. split; [assumption|]. now apply (not_unquoted _ q r0 t'). }
    destruct (i_trim_value (trim n) 39 39 s) as [[r1 t1] s1] eqn:E1.
    destruct (trim_value_log items l _ _ _ _ _ _ _ HPn E1) as (F1 & G1 & C1). rewrite F1.
    destruct r1.
    { injection H as <- <-. split; [reflexivity|]. apply complain_more; [now apply C1|]. apply (HQ 39 Imbalanced t1); auto. discriminate. }
    { injection H as <- <-. split; [reflexivity|]. rewrite G1 by discriminate. apply complain. apply (HQ 39 Trimmed t1); auto. discriminate. }
    assert (t1 = trim n) by (apply trim_value_untrimmed in F1; tauto). subst t1.
    rewrite G1 in H by discriminate. clear G1 C1 E1. destruct (i_trim_value (trim n) 34 34 s) as [[r2 t2] s2] eqn:E2.
    destruct (trim_value_log items l _ _ _ _ _ _ _ HPn E2) as (F2 & G2 & C2). rewrite F2.
    destruct r2.
    { injection H as <- <-. split; [reflexivity|]. apply complain_more; [now apply C2|]. apply (HQ 34 Imbalanced t2); auto. discriminate. }
    { injection H as <- <-. split; [reflexivity|]. rewrite G2 by discriminate. apply complain. apply (HQ 34 Trimmed t2); auto. discriminate. }
    assert (t2 = trim n) by (apply trim_value_untrimmed in F2; tauto). subst t2.
    rewrite G2 in H by discriminate. clear G2 C2 E2. destruct (i_trim_value (trim v) 39 39 s) as [[r3 t3] s3] eqn:E3.
    destruct (trim_value_log items l _ _ _ _ _ _ _ HPv E3) as (F3 & G3 & C3). rewrite F3.
    assert (REST : r3 <> Imbalanced -> 
      match i_trim_value t3 34 34 s3 with (Imbalanced, _, s4) => (None, s4) | (_, value, s4) => (Some (trim n, value), s4) end = (r, s') ->
      r = match trim_value t3 34 34 with (Imbalanced, _) => None | (_, value) => Some (trim n, value) end /\
      match r with Some (name, value) => s' = s /\ ini_part l name /\ ini_part l value | None => complains items l s s' end).
    { intros N3 H'. rewrite G3 in H' by assumption. pose proof (unquote_of _ _ _ _ F3 N3) as HU.
      assert (HP3 : ini_part l t3) by now apply (part_single _ t n v (trim v)).
      destruct (i_trim_value t3 34 34 s) as [[r4 t4] s4] eqn:E4.
      destruct (trim_value_log items l _ _ _ _ _ _ _ HP3 E4) as (F4 & G4 & C4). rewrite F4.
      destruct r4; injection H' as <- <-; (split; [reflexivity|]); [now apply C4| |];
        (split; [now apply G4|]; split; [assumption|]; apply (part_value _ t n v (trim v) t3); auto; apply (unquote_of _ _ _ _ F4); discriminate). }
    destruct r3; [|apply REST; [discriminate|exact H]|apply REST; [discriminate|exact H]].
    injection H as <- <-. split; [reflexivity|]. now apply C3.
  Qed.

  (** * A line *)
  (** What [i_loop] does with a line that is not the end. *)
  Lemma line_no_item l : Forall byte l -> line_item sg l = None -> forall i, ~ line l i.
  Proof. intros Hb E i HI. apply (line_item_iff sg) in HI; [|assumption]. congruence. Qed.
  Lemma convert_none part l : Forall byte l -> ini_part l part -> convert_to_string sg part = None -> exists p, ini_part l p /\ forall s, ~ denotes p s.
  Proof.
    intros Hb HP E. exists part. split; [assumption|]. intros s HD. assert (Forall byte part).
    { assert (HPB : forall t n v, stripped l t -> pair_of t n v -> Forall byte n /\ Forall byte v).
      { intros t n v HS (ps & v1 & rest & H1 & H2 & ->). pose proof (stripped_byte _ _ HS Hb) as Ht.
        exact (filter_join_byte _ _ _ _ (pieces_byte _ _ _ Ht H1) H2). }
      destruct HP as [t HS|a t HS HS'|t n v name HS HP HN|t n v raw HS HP HN|t n v raw m HS HP HN HU|t n v raw m value HS HP HN HU HU'].
      - exact (stripped_byte _ _ HS Hb).
      - apply (stripped_byte _ _ HS'). pose proof (stripped_byte _ _ HS Hb) as Hx. apply Forall_app in Hx. destruct Hx as [_ Hx]. now apply Forall_app in Hx.
      - apply (stripped_byte _ _ HN). now apply (HPB t n v).
      - apply (stripped_byte _ _ HN). now apply (HPB t n v).
      - apply (unquote_byte _ _ _ (stripped_byte _ _ HN (proj2 (HPB t n v HS HP))) HU).
      - apply (unquote_byte _ _ _ (unquote_byte _ _ _ (stripped_byte _ _ HN (proj2 (HPB t n v HS HP))) HU) HU'). }
    apply (denotes_iff sg) in HD; [congruence|assumption].
  Qed.

  Lemma line_log items l (s : istream) (values : list (list Z * json)) (current : list Z)
      (G : list (list Z * json) -> list Z -> istream -> option json * istream) :
    Forall byte l -> (values = [] -> Forall (eq Skip) items) ->
    let result := match trim l with
      | [] => G values current s
      | c :: _ =>
          if c =? 59 then G values current s
          else
            match i_trim_value (trim l) 91 93 s with
            | (Imbalanced, _, s2) => (None, s2)
            | (Trimmed, data, s2) =>
                match i_on_section data s2 with
                | (Some section, s3) =>
                    match convert_to_string sg section with
                    | Some key => G (insert_or_assign key (JObject []) values) key s3
                    | None => (None, log IException s3)
                    end
                | (None, s3) => (None, s3)
                end
            | (Untrimmed, data, s2) =>
                match values with
                | [] => (None, log INoSection s2)
                | _ :: _ =>
                    match i_on_name_value_pair data s2 with
                    | (Some (name, value), s3) =>
                        match convert_to_string sg value, convert_to_string sg name with
                        | Some v, Some k => G (insert_in_section current k (JString v) values) current s3
                        | _, _ => (None, log IException s3)
                        end
                    | (None, s3) => (None, s3)
                    end
                end
            end
      end in
    (exists i, line l i /\ match i with
      | Skip => result = G values current s
      | Section_ k => result = G (insert_or_assign k (JObject []) values) k s
      | Pair k v => values <> [] /\ result = G (insert_in_section current k (JString v) values) current s
      end) \/
    (fst result = None /\ complains items l s (snd result) /\ faulty items l).
  Proof.
    intros Hb HV. cbv zeta.
    assert (HI : forall i, line_item sg l = Some i -> line l i) by (intros i E; now apply line_item_iff in E).
    pose proof (line_no_item l Hb) as HNI. unfold line_item in HI, HNI. cbv zeta in HI, HNI.
    assert (HT : stripped l (trim l)) by now apply trim_iff.
    destruct (trim l) as [|c r] eqn:ET; [left; exists Skip; auto|].
    destruct (c =? 59); [left; exists Skip; auto|]. rewrite <- ET in *.
    assert (HP : ini_part l (trim l)) by now apply part_line.
    destruct (i_trim_value (trim l) 91 93 s) as [[r1 data] s1] eqn:E1.
    destruct (trim_value_log items l _ _ _ _ _ _ _ HP E1) as (F1 & G1 & C1). rewrite F1 in *.
    destruct r1.
    - right. split; [reflexivity|]. split; [now apply C1|]. left. auto.
    - rewrite G1 by discriminate. apply trim_value_trimmed in F1. destruct F1 as [F1|(? & _)]; [|discriminate]. rewrite F1 in HT.
      destruct (i_on_section data s) as [o s2] eqn:E2. destruct (on_section_log items l data s o s2 HT E2) as [F2 C2]. rewrite <- F2 in *.
      destruct o as [section|]; [subst s2|right; split; [reflexivity|]; split; [assumption|]; left; auto].
      symmetry in F2. apply on_section_iff in F2. destruct F2 as [HS HU].
      destruct (convert_to_string sg section) as [key|] eqn:EC; cbn [option_map] in HI, HNI.
      + left. exists (Section_ key). auto.
      + right. split; [reflexivity|]. split; [|left; auto]. apply complain. apply (convert_none section); auto. now apply (part_section _ data).
    - rewrite G1 by discriminate. apply trim_value_untrimmed in F1. destruct F1 as (-> & N1 & N2).
      destruct values as [|e values].
      + right. split; [reflexivity|]. split.
        * apply complain. split; [now apply HV|]. exists (trim l). auto.
        * destruct (on_name_value_pair (trim l)) as [[name value]|]; [|left; auto].
          destruct (convert_to_string sg value) as [v|], (convert_to_string sg name) as [k|]; [|left; auto|left; auto|left; auto].
          right. split; [now apply HV|]. eauto.
      + destruct (i_on_name_value_pair (trim l) s) as [o s2] eqn:E2.
        destruct (on_pair_log items l (trim l) s o s2 HT E2) as [F2 C2]. rewrite <- F2 in *.
        destruct o as [[name value]|]; [|right; split; [reflexivity|]; split; [assumption|]; left; auto].
        destruct C2 as (-> & Pn & Pv).
        destruct (convert_to_string sg value) as [v|] eqn:EC1.
        * destruct (convert_to_string sg name) as [k|] eqn:EC2.
          -- left. exists (Pair k v). split; [auto|]. split; [discriminate|reflexivity].
          -- right. split; [reflexivity|]. split; [|left; auto]. apply complain. now apply (convert_none name).
        * right. split; [reflexivity|]. split; [|left; auto]. apply complain. now apply (convert_none value).
  Qed.

  (** * The whole text *)
  Lemma sectioned_snoc items i : sectioned items -> (forall k v, i = Pair k v -> exists s, In (Section_ s) items) -> sectioned (items ++ [i]).
  Proof.
    intros HS Hi a k v b E. destruct b as [|j b _] using rev_ind.
    - apply app_inj_tail in E. destruct E as [-> ->]. now apply (Hi k v).
    - rewrite app_comm_cons, app_assoc in E. apply app_inj_tail in E. destruct E as [E _]. now apply (HS a k v b).
  Qed.
  Lemma no_section items : sectioned items -> ~ (exists s, In (Section_ s) items) -> Forall (eq Skip) items.
  Proof.
    intros HS HN. rewrite Forall_forall. intros i Hi. destruct i as [|s|k v]; [reflexivity|exfalso; eauto|].
    exfalso. apply in_split in Hi. destruct Hi as (a & b & E). destruct (HS _ _ _ _ E) as (s & Hs). apply HN. exists s. rewrite E. apply in_or_app. auto.
  Qed.

  (** What is so when [i_loop] returned [r] with the log [lg], the lines [ls] remaining, [k] lines having
      been read, which mean [items]. *)
  Definition ended (k : nat) (items : list item) (ls : list (list Z)) (values : list (list Z * json)) (r : option json) (lg : list (warning ini_message)) : Prop :=
    (lg = [] /\ exists its, Forall2 line ls its /\ sectioned (items ++ its) /\
      (r = None <-> values = [] /\ Forall (eq Skip) its)) \/
    (r = None /\ lg <> [] /\ exists before l after its, ls = before ++ l :: after /\ Forall2 line before its /\ sectioned (items ++ its) /\
      faulty (items ++ its) l /\ Forall (fun w => at_line (k + length before) after w /\ ini_truthful (items ++ its) l (w_message w)) lg).

  Lemma blank_line : line [] Skip.
  Proof. apply l_blank. exists [], []. repeat split; try constructor; congruence. Qed.

  Lemma ended_step k items l ls values values' i r lg :
    line l i -> sectioned (items ++ [i]) -> (i = Skip -> values' = values) -> (i <> Skip -> values' <> []) -> (values <> [] -> values' <> []) ->
    (forall k v, i = Pair k v -> values <> []) ->
    ended (S k) (items ++ [i]) ls values' r lg -> ended k items (l :: ls) values r lg.
  Proof.
    intros HL HS H1 H2 H3 H4 [(E & its & HF & HI & HR)|(E & HN & before & l0 & after & its & EL & HF & HS' & HQ & HW)].
    - left. split; [assumption|]. exists (i :: its). split; [now constructor|]. rewrite <- app_assoc in HI. split; [exact HI|].
      rewrite HR. split.
      + intros [HV HK]. destruct i as [|s|kk v].
        * rewrite H1 in HV by reflexivity. split; [assumption|]. now constructor.
        * exfalso. now apply H2.
        * exfalso. now apply H2.
      + intros [HV HK]. inversion HK as [|? ? Hi HK']; subst i. rewrite H1 by reflexivity. split; assumption.
    - right. split; [assumption|]. split; [assumption|]. exists (l :: before), l0, after, (i :: its).
      rewrite <- app_assoc in HS', HQ. split; [now rewrite EL|]. split; [now constructor|]. split; [exact HS'|]. split; [exact HQ|].
      cbn [length]. replace (k + S (length before))%nat with (S k + length before)%nat by lia. rewrite <- app_assoc in HW. exact HW.
  Qed.

  Lemma bytes_here n (s : istream) l r : At n s -> s_rest s = l ++ r -> Forall byte l.
  Proof. intros HA E. pose proof (at_bytes _ _ _ HB HA) as H. rewrite E in H. now apply Forall_app in H. Qed.

  Lemma insert_nonempty key v m : insert_or_assign key v m <> [].
  Proof. destruct m as [|[k x] m]; cbn [insert_or_assign]; [discriminate|]. destruct (key_compare key k); discriminate. Qed.
  Lemma section_nonempty c key v e m : insert_in_section c key v (e :: m) <> [].
  Proof. destruct e as [k x]. cbn [insert_in_section]. destruct (key_compare c k); discriminate. Qed.
  Lemma loop_nil fuel values current (s : istream) : s_rest s = [] -> i_loop fuel sg values current s = (finish values, s).
  Proof.
    intros E. assert (EE : at_end s = true) by (unfold at_end; rewrite (peek_nil _ E); reflexivity).
    destruct fuel; cbn [i_loop]; unfold i_getline; rewrite E; cbn [length i_take_line]; rewrite EE; cbn [negb orb Json_Model.nonempty]; rewrite EE; reflexivity.
  Qed.
  Lemma loop_at : forall fuel n (s : istream) values current k items,
    At n s -> s_log s = [] -> (length (s_rest s) < fuel)%nat -> (n + length (s_rest s) = length input)%nat ->
    newlines (firstn n input) = Z.of_nat k -> since_newline (firstn n input) = 0 ->
    sectioned items -> (values <> [] <-> exists s, In (Section_ s) items) ->
    fst (i_loop fuel sg values current s) = run sg (pieces 10 (s_rest s)) values current /\
    ended k items (pieces 10 (s_rest s)) values (fst (i_loop fuel sg values current s)) (s_log (snd (i_loop fuel sg values current s))).
  Proof.
    induction fuel as [|fuel IH]; intros n s values current k items HA HLog Hf Hn HNl HSn HSec HVal; [lia|].
    cbn [i_loop]. unfold i_getline.
    destruct (i_take_line (length (s_rest s)) s) as [l s1] eqn:ET.
    destruct (take_line_at _ _ _ _ _ HA (le_n _) ET) as (E1 & E2 & E3 & E4). rewrite HLog in E2.
    assert (HV : values = [] -> Forall (eq Skip) items).
    { intros ->. apply no_section; [assumption|]. intros HX. apply HVal in HX. congruence. }
    (* no more lines *)
    assert (HEND : (pieces 10 (s_rest s) = [[]] \/ pieces 10 (s_rest s) = [[]; []]) ->
      ended k items (pieces 10 (s_rest s)) values (match values with [] => None | _ :: _ => Some (JObject values) end) (s_log s1)).
    { intros HPs. left. split; [assumption|]. exists (map (fun _ => Skip) (pieces 10 (s_rest s))).
      split; [destruct HPs as [->| ->]; cbn [map]; (constructor; [apply blank_line|]); [constructor|constructor; [apply blank_line|constructor]]|].
      assert (HSk : Forall (eq Skip) (map (fun _ => Skip) (pieces 10 (s_rest s)))) by (destruct HPs as [->| ->]; repeat constructor).
      split.
      - destruct HPs as [->| ->]; cbn [map]; [apply sectioned_snoc; [assumption|discriminate]|].
        change ([Skip; Skip]) with ([Skip] ++ [Skip]). rewrite app_assoc. repeat (apply sectioned_snoc; [|discriminate]). assumption.
      - destruct values; split; try discriminate; try tauto; intros [HX _]; discriminate. }
    (* a line *)
    assert (HLINE : forall after n1, At n1 s1 -> pieces 10 (s_rest s) = l :: after ->
      (after = [] -> s_rest s1 = []) -> (after <> [] -> after = pieces 10 (s_rest s1) /\ newlines (firstn n1 input) = Z.of_nat (S k) /\ since_newline (firstn n1 input) = 0 /\ (n1 + length (s_rest s1) = length input)%nat /\ (length (s_rest s1) < fuel)%nat) ->
      (forall w, here s1 w -> at_line k after w) ->
      let result := match trim l with
          | [] => i_loop fuel sg values current s1
          | c :: _ =>
              if c =? 59 then i_loop fuel sg values current s1
              else
                match i_trim_value (trim l) 91 93 s1 with
                | (Imbalanced, _, s2) => (None, s2)
                | (Trimmed, data, s2) =>
                    match i_on_section data s2 with
                    | (Some section, s3) =>
                        match convert_to_string sg section with
                        | Some key => i_loop fuel sg (insert_or_assign key (JObject []) values) key s3
                        | None => (None, log IException s3)
                        end
                    | (None, s3) => (None, s3)
                    end
                | (Untrimmed, data, s2) =>
                    match values with
                    | [] => (None, log INoSection s2)
                    | _ :: _ =>
                        match i_on_name_value_pair data s2 with
                        | (Some (name, value), s3) =>
                            match convert_to_string sg value, convert_to_string sg name with
                            | Some v, Some k => i_loop fuel sg (insert_in_section current k (JString v) values) current s3
                            | _, _ => (None, log IException s3)
                            end
                        | (None, s3) => (None, s3)
                        end
                    end
                end
          end in
      fst result = run sg (pieces 10 (s_rest s)) values current /\
      ended k items (pieces 10 (s_rest s)) values (fst result) (s_log (snd result))).
    { intros after n1 HA1 EP HNil HMore HPos result.
      assert (Hbl : Forall byte l). { destruct E4 as [[E4 _]|[E4 _]]; [exact (bytes_here _ _ _ _ HA E4)|]. apply (bytes_here n s l []); [assumption|]. now rewrite app_nil_r. }
      pose proof (line_log items l s1 values current (i_loop fuel sg) Hbl HV) as HLL. fold result in HLL. cbv zeta in HLL. fold result in HLL.
      rewrite EP. cbn [run].
      assert (GO : forall i values' current', line l i -> (i = Skip -> values' = values) -> (i <> Skip -> values' <> []) -> (values <> [] -> values' <> []) ->
        (forall kk v, i = Pair kk v -> values <> []) -> result = i_loop fuel sg values' current' s1 ->
        fst result = run sg after values' current' /\ ended k items (l :: after) values (fst result) (s_log (snd result))).
      { intros i values' current' HLi H1 H2 H3 H4 ->.
        assert (HSi : sectioned (items ++ [i])). { apply sectioned_snoc; [assumption|]. intros kk v Hi. apply HVal. now apply (H4 kk v). }
        assert (HVi : values' <> [] <-> exists s0, In (Section_ s0) (items ++ [i])).
        { split.
          - intros HX. destruct i as [|s0|kk v].
            + rewrite H1 in HX by reflexivity. apply HVal in HX. destruct HX as (s0 & Hs0). exists s0. apply in_or_app. auto.
            + exists s0. apply in_or_app. right. now left.
            + assert (HX' : values <> []) by now apply (H4 kk v). apply HVal in HX'. destruct HX' as (s0 & Hs0). exists s0. apply in_or_app. auto.
          - intros (s0 & Hs0). apply in_app_or in Hs0. destruct Hs0 as [Hs0|[Hs0|[]]]; [apply H3, HVal; eauto|].
            apply H2. rewrite Hs0. discriminate. }
        destruct after as [|a1 after'].
        - rewrite loop_nil by now apply HNil. cbn [fst snd run]. split; [reflexivity|].
          apply (ended_step k items l [] values values' i); auto. left. split; [assumption|]. exists []. split; [constructor|].
          rewrite app_nil_r. split; [assumption|]. unfold finish. destruct values'; split; try discriminate; try tauto; [intros _; split; [reflexivity|constructor]|intros [HX _]; discriminate].
        - destruct (HMore ltac:(discriminate)) as (EA & B1 & B2 & B3 & B4). rewrite EA.
          destruct (IH n1 s1 values' current' (S k) (items ++ [i]) HA1 E2 B4 B3 B1 B2 HSi HVi) as [R1 R2]. split; [exact R1|].
          apply (ended_step k items l _ values values' i); auto. }
      destruct HLL as [(i & HLi & Hi)|(HN & (new & HNew & HLn & _ & _ & HFn) & HF)].
      - rewrite (proj2 (line_item_iff sg l i Hbl) HLi). destruct i as [|s0|kk v].
        + apply (GO Skip); auto; congruence.
        + apply (GO (Section_ s0)); auto; try congruence; intros _; apply insert_nonempty.
        + destruct Hi as [HNv Hi]. destruct values as [|e vs] eqn:EV; [congruence|]. rewrite <- EV in *.
          apply (GO (Pair kk v)); auto; try congruence; try (intros _; subst values; apply section_nonempty).
      - assert (ER : run sg (l :: after) values current = None).
        { cbn [run]. destruct HF as [HF|[HSk (kk & v & HP)]].
          - destruct (line_item sg l) as [i|] eqn:EI; [|reflexivity]. apply line_item_iff in EI; [|assumption]. exfalso. now apply (HF i).
          - rewrite (proj2 (line_item_iff sg l _ Hbl) HP). destruct values as [|e vs]; [reflexivity|].
            exfalso. destruct (proj1 HVal ltac:(discriminate)) as (s0 & Hs0). rewrite Forall_forall in HSk. apply HSk in Hs0. discriminate. }
        cbn [run] in ER. rewrite ER. split; [assumption|]. right. split; [assumption|]. rewrite HLn, E2, app_nil_r. split; [assumption|].
        exists [], l, after, []. split; [reflexivity|]. split; [constructor|]. rewrite app_nil_r. split; [assumption|]. split; [assumption|].
        cbn [length]. rewrite Nat.add_0_r. revert HFn. apply Forall_impl. intros w [Hw HTr]. split; [now apply HPos|assumption]. }
    unfold here, at_line in HLINE.
    destruct E4 as [[ER HA1]|(ER & ER1 & HA1)].
    - (* ended by a newline *)
      assert (EP : pieces 10 (s_rest s) = l :: pieces 10 (s_rest s1)) by (rewrite ER; now apply pieces_line).
      assert (EF : firstn (n + length l + 1) input = firstn n input ++ l ++ [10]).
      { destruct HA as (EA & _). rewrite EA in ER. rewrite <- (firstn_skipn n input) at 1. rewrite ER.
        rewrite firstn_app, firstn_length_le by lia. rewrite firstn_all2 by (rewrite firstn_length_le; lia). f_equal.
        replace (n + length l + 1 - n)%nat with (length (l ++ [10%Z])) by (rewrite app_length; cbn [length]; lia).
        replace (l ++ 10 :: s_rest s1) with ((l ++ [10]) ++ s_rest s1) by (rewrite <- app_assoc; reflexivity).
        rewrite firstn_app, Nat.sub_diag. cbn [firstn]. rewrite app_nil_r. apply firstn_all. }
      assert (ENl : newlines (firstn (n + length l + 1) input) = Z.of_nat (S k)).
      { rewrite EF, !newlines_app, HNl, (newlines_none l E3). change (newlines [10]) with 1. lia. }
      assert (ESn : since_newline (firstn (n + length l + 1) input) = 0).
      { rewrite EF, app_assoc, since_snoc. reflexivity. }
      assert (HLen : (n + length l + 1 + length (s_rest s1) = length input)%nat).
      { rewrite ER, app_length in Hn. cbn [length] in Hn. lia. }
      assert (HF' : (length (s_rest s1) < fuel)%nat) by (rewrite ER, app_length in Hf; cbn [length] in Hf; lia).
      pose proof HA1 as (EA1 & EL1 & EC1). unfold counted_line, counted_column in EL1, EC1. rewrite ENl, ESn in *.
      replace (Z.of_nat (S k) =? 0) with false in EC1 by (symmetry; apply Z.eqb_neq; lia).
      replace (n + length l + 1 - length input)%nat with O in EC1 by lia.
      destruct (pieces 10 (s_rest s1)) as [|a1 after] eqn:EA; [exfalso; now apply (pieces_nonempty 10 (s_rest s1))|].
      specialize (HLINE (a1 :: after) (n + length l + 1)%nat HA1 EP ltac:(discriminate)).
      assert (HM : a1 :: after <> [] -> a1 :: after = a1 :: after /\ newlines (firstn (n + length l + 1) input) = Z.of_nat (S k) /\ since_newline (firstn (n + length l + 1) input) = 0 /\
        (n + length l + 1 + length (s_rest s1))%nat = length input /\ (length (s_rest s1) < fuel)%nat) by auto.
      rewrite ENl, ESn in *. specialize (HLINE HM). clear HM.
      destruct (negb (at_end s1) || Json_Model.nonempty l) eqn:EG.
      + apply HLINE. intros w [-> _]. rewrite EL1. f_equal. lia.
      + apply orb_false_iff in EG. destruct EG as [EG1 EG2]. apply negb_false_iff in EG1.
        apply (at_end_iff s1 (at_bytes _ _ _ HB HA1)) in EG1. rewrite EG1 in EA. injection EA as <- <-.
        destruct l; [|discriminate]. cbn [fst snd]. split; [|apply HEND; right; exact EP]. rewrite EP. cbn [run]. rewrite !line_item_nil. reflexivity.
    - (* the end of the text *)
      assert (EP : pieces 10 (s_rest s) = [l]) by (rewrite ER; now apply pieces_last_line).
      assert (EE : at_end s1 = true) by (unfold at_end; rewrite (peek_nil _ ER1); reflexivity). rewrite EE. cbn [negb orb].
      destruct l as [|c l'] eqn:El; cbn [Json_Model.nonempty].
      + cbn [fst snd]. split; [|apply HEND; left; exact EP]. rewrite EP. cbn [run]. rewrite line_item_nil. reflexivity.
      + rewrite <- El in *. apply (HLINE [] (n + length l)%nat HA1 EP); [auto|congruence|].
        intros w [-> _]. destruct HA1 as (_ & -> & _). unfold counted_line, counted_column.
        assert (EF : firstn (n + length l) input = firstn n input ++ l).
        { destruct HA as (EA & _). rewrite EA in ER. rewrite <- (firstn_skipn n input) at 1. rewrite ER.
          rewrite firstn_app, firstn_length_le by lia. rewrite firstn_all2 by (rewrite firstn_length_le; lia). f_equal.
          apply firstn_all2. lia. }
        rewrite EF, newlines_app, HNl, (newlines_none l E3).
        f_equal. lia.
  Qed.
End ini.
