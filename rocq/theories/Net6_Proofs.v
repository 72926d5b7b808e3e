(** Proofs for the IPv6 parser and formatter. *)
From Verif Require Import Common Bits Lexer_Model Lexer_Spec Lexer_Props
  Format_Model Format_Spec Format_Proofs Format_Props Strings_Model Strings_Spec Net_Model Net_Spec Net_Proofs.

(** * One iteration *)
Lemma body_short t l parts short r : okl t l -> remaining l = 58 :: 58 :: r ->
  exists l', ipv6_body t l parts short = Ok (match short with Some _ => None | None => Some (l', parts, Some (length parts)) end) /\
    okl t l' /\ remaining l' = r.
Proof.
  intros HO HR. unfold ipv6_body. destruct (char_hit t l 58 _ HO HR) as (l1 & E1 & HO1 & HR1). rewrite E1. cbn [bind].
  destruct (char_hit t l1 58 _ HO1 HR1) as (l2 & E2 & HO2 & HR2). rewrite E2. cbn [bind].
  exists l2. split; [now destruct short|auto].
Qed.
Lemma body_colon t l parts short r : okl t l -> remaining l = 58 :: r -> (forall r', r <> 58 :: r') ->
  exists l', ipv6_body t l parts short = Ok (Some (l', parts, short)) /\ okl t l' /\ remaining l' = r.
Proof.
  intros HO HR HN. unfold ipv6_body. destruct (char_hit t l 58 _ HO HR) as (l1 & E1 & HO1 & HR1). rewrite E1. cbn [bind].
  rewrite (char_miss t l1 58 HO1) by (rewrite HR1; exact HN). cbn [bind]. exists l1. auto.
Qed.
Lemma bytes_of_value v : 0 <= v < 2 ^ 16 -> [Z.land (Z.shiftr v 8) 255; Z.land v 255] = [v / 256; v mod 256].
Proof.
  intros H. change 255 with (2 ^ 8 - 1). rewrite !land_mask, Z.shiftr_div_pow2 by lia. change (2 ^ 8) with 256. change (2 ^ 16) with 65536 in H.
  f_equal. apply Z.mod_small. dlia.
Qed.
Lemma group_value_range g : 0 <= group_value g < 2 ^ 64.
Proof. apply Z.mod_pos_bound. reflexivity. Qed.
Lemma body_group t l parts short pre rest : In t ctypes -> okl t l -> is_run ascii_xdigit (remaining l) pre rest ->
  (forall r, remaining l <> 58 :: r) -> (length parts + 2 <= 16)%nat ->
  exists l', okl t l' /\ remaining l' = rest /\
    ipv6_body t l parts short =
      Ok (match pre with
          | [] => None
          | _ => if group_value pre <? 2 ^ 16 then Some (l', parts ++ long_bytes pre, short) else None
          end).
Proof.
  intros Ht HO HR HN HL. unfold ipv6_body. rewrite (char_miss t l 58 HO HN). cbn [bind].
  destruct (hex_run t l pre rest Ht HO HR) as (l2 & E2 & HO2 & HR2). rewrite E2. cbn [bind]. exists l2. split; [assumption|]. split; [assumption|].
  destruct pre as [|c0 p0] eqn:EP; [reflexivity|]. cbn [nonempty_val]. rewrite <- EP in *. change (number 16 pre mod 2 ^ 64) with (group_value pre).
  assert (HB : (length parts + 2 <=? 16)%nat = true) by (apply Nat.leb_le; lia). rewrite HB.
  pose proof (group_value_range pre). change (2 ^ 16) with 65536.
  destruct (Z.leb_spec (group_value pre) 65535), (Z.ltb_spec (group_value pre) 65536); try lia; [|reflexivity].
  rewrite bytes_of_value by (change (2 ^ 16) with 65536; lia). reflexivity.
Qed.

(** * The loop *)
Inductive run : list token -> list Z -> option nat -> list Z -> option nat -> Prop :=
| run_nil p s : run [] p s p s
| run_colon ks p s p' s' : (length p < 16)%nat -> run ks p s p' s' -> run (Colon :: ks) p s p' s'
| run_short ks p p' s' : (length p < 16)%nat -> run ks p (Some (length p)) p' s' -> run (Short :: ks) p None p' s'
| run_group g ks p s p' s' : (length p < 16)%nat -> long_group g -> group_value g < 2 ^ 16 ->
    run ks (p ++ long_bytes g) s p' s' -> run (Group g :: ks) p s p' s'.

Definition even_len (p : list Z) : Prop := exists k, length p = (2 * k)%nat.
Lemma even_app g p : even_len p -> even_len (p ++ long_bytes g).
Proof. intros [k Hk]. exists (S k). rewrite app_length. cbn. lia. Qed.

Lemma loop_end fuel t l p s l' p' s' : okl t l' -> remaining l' = [] \/ (16 <= length p')%nat ->
  ipv6_body t l p s = Ok (Some (l', p', s')) -> ipv6_loop (S fuel) t l p s = Ok (Some (l', p', s')).
Proof.
  intros HO H E. cbn [ipv6_loop]. rewrite E. cbn [bind]. rewrite peek_here by apply HO. cbn [bind].
  destruct (remaining l') as [|c r]; [reflexivity|]. destruct H as [H|H]; [discriminate|].
  destruct (Nat.ltb_spec (length p') 16); [lia|reflexivity].
Qed.
Lemma loop_next fuel t l p s l' p' s' c r : okl t l' -> remaining l' = c :: r -> (length p' < 16)%nat ->
  ipv6_body t l p s = Ok (Some (l', p', s')) -> ipv6_loop (S fuel) t l p s = ipv6_loop fuel t l' p' s'.
Proof.
  intros HO H HL E. cbn [ipv6_loop]. rewrite E. cbn [bind]. rewrite peek_here by apply HO. cbn [bind]. rewrite H.
  destruct (Nat.ltb_spec (length p') 16); [reflexivity|lia].
Qed.

Lemma loop_complete t : In t ctypes -> forall ks p s p' s', run ks p s p' s' -> forall fuel l, ks <> [] -> greedy ks ->
  okl t l -> even_len p -> remaining l = flat_map token_text ks -> (length (remaining l) < fuel)%nat ->
  exists l', ipv6_loop fuel t l p s = Ok (Some (l', p', s')) /\ okl t l' /\ remaining l' = [].
Proof.
  intros Ht.
  (* continue after one token *)
  assert (NEXT : forall ks p s p' s', run ks p s p' s' ->
    (forall fuel l, ks <> [] -> greedy ks -> okl t l -> even_len p -> remaining l = flat_map token_text ks -> (length (remaining l) < fuel)%nat ->
       exists l', ipv6_loop fuel t l p s = Ok (Some (l', p', s')) /\ okl t l' /\ remaining l' = []) ->
    forall fuel l p0 s0 l1, greedy ks -> okl t l1 -> even_len p -> remaining l1 = flat_map token_text ks -> (length (remaining l1) < fuel)%nat ->
      ipv6_body t l p0 s0 = Ok (Some (l1, p, s)) ->
      exists l', ipv6_loop (S fuel) t l p0 s0 = Ok (Some (l', p', s')) /\ okl t l' /\ remaining l' = []).
  { intros ks p s p' s' HRun IH fuel l p0 s0 l1 HG HO HE HR HF EB.
    destruct ks as [|k ks].
    - inversion HRun; subst. exists l1. split; [|auto]. apply (loop_end fuel t l p0 s0 l1 p' s' HO); auto.
    - destruct (remaining l1) as [|c r] eqn:ER.
      { exfalso. cbn [flat_map] in HR. destruct k; cbn [token_text app] in HR; try discriminate. inversion HRun; subst.
        destruct digits; [|discriminate]. match goal with H : long_group [] |- _ => destruct H; congruence end. }
      assert (HL : (length p < 16)%nat) by (inversion HRun; assumption).
      rewrite (loop_next fuel t l p0 s0 l1 p s c r HO ER HL EB). apply IH; try assumption; [discriminate|now rewrite ER|now rewrite ER]. }
  intros ks p s p' s' HRun. induction HRun as [p s|ks p s p' s' HL HRun IH|ks p p' s' HL HRun IH|g ks p s p' s' HL HG HV HRun IH];
    intros fuel l HN HGr HO HE HR HF.
  - congruence.
  - destruct fuel as [|fuel]; [lia|]. cbn [flat_map token_text app] in HR. destruct HGr as [HG1 HGr].
    destruct (body_colon t l p s (flat_map token_text ks) HO HR) as (l1 & EB & HO1 & HR1).
    { intros r' E. destruct ks as [|k ks]; [discriminate|]. destruct k; try contradiction. inversion HRun; subst. cbn [flat_map token_text] in E.
      match goal with H : long_group _ |- _ => destruct H as [Hd0 Hd] end. destruct digits as [|c d]; [congruence|]. cbn [app] in E.
      injection E as -> _. inversion Hd; subst. unfold ascii_xdigit, ascii_digit in *. lia. }
    apply (NEXT ks p s p' s' HRun IH fuel l p s l1); try assumption. rewrite HR1. rewrite HR in HF. cbn [length] in HF. lia.
  - destruct fuel as [|fuel]; [lia|]. cbn [flat_map token_text app] in HR. destruct HGr as [HG1 HGr].
    destruct (body_short t l p None (flat_map token_text ks) HO HR) as (l1 & EB & HO1 & HR1).
    apply (NEXT ks p (Some (length p)) p' s' HRun IH fuel l p None l1); try assumption. rewrite HR1. rewrite HR in HF. cbn [length] in HF. lia.
  - destruct fuel as [|fuel]; [lia|]. cbn [flat_map token_text app] in HR. destruct HGr as [HG1 HGr]. destruct HG as [Hg0 Hg].
    assert (HRest : match flat_map token_text ks with c :: _ => ~ ascii_xdigit c | [] => True end).
    { destruct ks as [|k ks]; [exact I|]. destruct k; [contradiction| |]; cbn [flat_map token_text app]; unfold ascii_xdigit, ascii_digit; lia. }
    destruct (body_group t l p s g (flat_map token_text ks) Ht HO) as (l1 & HO1 & HR1 & EB).
    { rewrite HR. split; [reflexivity|]. split; [assumption|exact HRest]. }
    { intros r E. rewrite HR in E. destruct g as [|c d]; [congruence|]. cbn [app] in E. injection E as -> _. inversion Hg; subst. unfold ascii_xdigit, ascii_digit in *. lia. }
    { destruct HE as [k Hk]. lia. }
    assert (EB' : ipv6_body t l p s = Ok (Some (l1, p ++ long_bytes g, s))).
    { rewrite EB. destruct g as [|c d]; [congruence|]. apply Z.ltb_lt in HV. now rewrite HV. }
    apply (NEXT ks _ s p' s' HRun IH fuel l p s l1); try assumption; [now apply even_app|].
    rewrite HR1. rewrite HR, app_length in HF. destruct g; [congruence|]. cbn [length] in HF. lia.
Qed.

Lemma loop_sound t : In t ctypes -> forall fuel l p s, okl t l -> even_len p -> (length p < 16)%nat -> (length (remaining l) < fuel)%nat ->
  exists o, ipv6_loop fuel t l p s = Ok o /\
    forall l' p' s', o = Some (l', p', s') -> okl t l' /\ exists ks, ks <> [] /\ greedy ks /\ run ks p s p' s' /\
      remaining l = flat_map token_text ks ++ remaining l'.
Proof.
  intros Ht. induction fuel as [|fuel IH]; intros l p s HO HE HL HF; [lia|].
  assert (HL2 : (length p + 2 <= 16)%nat) by (destruct HE as [k Hk]; lia).
  assert (STEP : forall k l1 p1 s1, okl t l1 -> even_len p1 -> remaining l = token_text k ++ remaining l1 ->
      (length (remaining l1) < length (remaining l))%nat -> (length p1 <= 16)%nat ->
      (forall ks p' s', run ks p1 s1 p' s' -> run (k :: ks) p s p' s') ->
      (forall k', (exists x r, token_text k' = x :: r /\ exists r', remaining l1 = x :: r') -> greedy [k; k'] \/ exists d, k' = Group d /\ ~ long_group d) ->
      ipv6_body t l p s = Ok (Some (l1, p1, s1)) ->
      exists o, ipv6_loop (S fuel) t l p s = Ok o /\
        forall l' p' s', o = Some (l', p', s') -> okl t l' /\ exists ks, ks <> [] /\ greedy ks /\ run ks p s p' s' /\
        remaining l = flat_map token_text ks ++ remaining l').
  { intros k l1 p1 s1 HO1 HE1 HR HLt HP HRun HG EB.
    destruct (remaining l1) as [|c r] eqn:ER.
    - eexists. split; [apply (loop_end fuel t l p s l1 p1 s1 HO1); auto|]. intros l' p' s' E. injection E as <- <- <-.
      split; [assumption|]. exists [k]. split; [discriminate|]. split; [cbn; destruct k; auto|]. split; [apply HRun; constructor|].
      cbn [flat_map]. rewrite app_nil_r, ER. exact HR.
    - destruct (Nat.ltb_spec (length p1) 16) as [Hlt|Hge].
      + rewrite (loop_next fuel t l p s l1 p1 s1 c r HO1 ER Hlt EB).
        destruct (IH l1 p1 s1 HO1 HE1 Hlt) as (o & E & HS). { rewrite ER. lia. }
        exists o. split; [exact E|]. intros l' p' s' EQ. destruct (HS l' p' s' EQ) as (HO' & ks & N & G & R & RR).
        split; [assumption|]. exists (k :: ks). split; [discriminate|]. split; [|split; [auto|]].
        * destruct ks as [|k' ks]; [congruence|]. split; [|exact G].
          assert (HK : exists x r0, token_text k' = x :: r0 /\ exists r', c :: r = x :: r').
          { rewrite ER in RR. cbn [flat_map] in RR. destruct k' as [d| |]; cbn [token_text].
            - inversion R; subst. match goal with H : long_group _ |- _ => destruct H as [Hd0 _] end. destruct d as [|x d]; [congruence|].
              cbn [token_text app] in RR. eauto.
            - cbn [token_text app] in RR. eauto.
            - cbn [token_text app] in RR. eauto. }
          destruct (HG k' HK) as [HG'|(d & -> & Hd)].
          -- cbn in HG'. destruct k, k'; tauto.
          -- inversion R; subst. contradiction.
        * cbn [flat_map]. rewrite <- app_assoc, <- RR, ER. exact HR.
      + eexists. split; [apply (loop_end fuel t l p s l1 p1 s1 HO1); auto|]. intros l' p' s' E. injection E as <- <- <-.
        split; [assumption|]. exists [k]. split; [discriminate|]. split; [cbn; destruct k; auto|]. split; [apply HRun; constructor|].
        cbn [flat_map]. rewrite app_nil_r, ER. exact HR. }
  assert (NONE : ipv6_body t l p s = Ok None -> exists o, ipv6_loop (S fuel) t l p s = Ok o /\
        forall l' p' s', o = Some (l', p', s') -> okl t l' /\ exists ks, ks <> [] /\ greedy ks /\ run ks p s p' s' /\
        remaining l = flat_map token_text ks ++ remaining l').
  { intros EB. exists None. cbn [ipv6_loop]. rewrite EB. split; [reflexivity|]. discriminate. }
  destruct (remaining l) as [|c r] eqn:ER.
  - destruct (body_group t l p s [] [] Ht HO) as (l1 & HO1 & HR1 & EB); [rewrite ER; repeat split; constructor|rewrite ER; discriminate|assumption|].
    now apply NONE.
  - destruct (Z.eq_dec c 58) as [->|Hc].
    + destruct r as [|c2 r2] eqn:E2.
      * destruct (body_colon t l p s [] HO ER ltac:(discriminate)) as (l1 & EB & HO1 & HR1).
        apply (STEP Colon l1 p s); try assumption; try (rewrite HR1; cbn; lia || reflexivity); [lia|now constructor|].
        intros k' (x & r0 & _ & r' & E). rewrite HR1 in E. discriminate.
      * destruct (Z.eq_dec c2 58) as [->|Hc2].
        -- destruct (body_short t l p s r2 HO ER) as (l1 & EB & HO1 & HR1). destruct s as [n|]; [now apply NONE|].
           apply (STEP Short l1 p (Some (length p))); try assumption; try (rewrite HR1; cbn; lia || reflexivity); [lia|now constructor|].
           intros k' _. left. now destruct k'.
        -- destruct (body_colon t l p s (c2 :: r2) HO ER ltac:(congruence)) as (l1 & EB & HO1 & HR1).
           apply (STEP Colon l1 p s); try assumption; try (rewrite HR1; cbn; lia || reflexivity); [lia|now constructor|].
           intros k' (x & r0 & EK & r' & E). left. rewrite HR1 in E. injection E as <- <-. destruct k'; cbn in EK; cbn; auto; injection EK as E5 _; congruence.
    + destruct (exists_hex_run t l Ht HO) as (pre & rest & HR). 
      destruct (body_group t l p s pre rest Ht HO HR) as (l1 & HO1 & HR1 & EB); [rewrite ER; congruence|assumption|].
      destruct HR as (HS & HD & HRest).
      destruct pre as [|c0 p0] eqn:EP; [now apply NONE|]. rewrite <- EP in *.
      destruct (Z.ltb_spec (group_value pre) (2 ^ 16)) as [HV|HV]; [|now apply NONE].
      assert (Hpre : pre <> []) by (rewrite EP; discriminate).
      assert (EL : length (remaining l) = (length pre + length rest)%nat) by (rewrite HS; apply app_length).
      rewrite ER in EL.
      apply (STEP (Group pre) l1 (p ++ long_bytes pre) s); try assumption.
      * now apply even_app.
      * cbn [token_text]. rewrite HR1. congruence.
      * rewrite HR1. destruct pre; [congruence|]. cbn [length] in *. lia.
      * rewrite app_length. cbn. lia.
      * intros ks p' s' HR'. constructor; try assumption. split; assumption.
      * intros k' (x & r0 & EK & r' & E). destruct k' as [d| |]; [|left; cbn; auto|left; cbn; auto]. right. exists d. split; [reflexivity|].
        intros [_ Hd]. cbn [token_text] in EK. rewrite HR1 in E. rewrite E in HRest. rewrite EK in Hd. apply Forall_inv in Hd. contradiction.
Qed.

(** * Runs, declaratively *)
Lemma groups_cons k ks : groups (k :: ks) = match k with Group d => d :: groups ks | _ => groups ks end.
Proof. now destruct k. Qed.
Lemma groups_app a b : groups (a ++ b) = groups a ++ groups b.
Proof. apply flat_map_app. Qed.
Lemma long_bytes_length gs : length (flat_map long_bytes gs) = (2 * length gs)%nat.
Proof. induction gs as [|g gs IH]; [reflexivity|]. cbn [flat_map length long_bytes app]. rewrite IH. lia. Qed.
Lemma ewg_tail k ks : ends_with_group (k :: ks) -> (ks = [] /\ exists d, k = Group d) \/ ends_with_group ks.
Proof.
  intros (r & d & E). destruct r as [|x r]; [injection E as -> ->; left; eauto|]. right. injection E as -> ->. exists r, d. reflexivity.
Qed.
Lemma ewg_cons k ks : ends_with_group ks -> ends_with_group (k :: ks).
Proof. intros (r & d & ->). exists (k :: r), d. reflexivity. Qed.
Lemma ewg_groups ks : ends_with_group ks -> (0 < length (groups ks))%nat.
Proof. intros (r & d & ->). rewrite groups_app, app_length. cbn. lia. Qed.

Lemma run_plain_sound ks : forall p s p' s', run ks p s p' s' -> even_len p -> (length p <= 16)%nat -> ~ In Short ks ->
  s' = s /\ p' = p ++ flat_map long_bytes (groups ks) /\ groups_ok ks /\ (length p' <= 16)%nat /\
  (length p' = 16%nat -> (length p < 16)%nat -> ends_with_group ks).
Proof.
  induction ks as [|k ks IH]; intros p s p' s' HR HE HL HN.
  - inversion HR; subst. cbn [groups flat_map]. rewrite app_nil_r. split; [reflexivity|]. split; [reflexivity|]. split; [constructor|]. split; [lia|]. lia.
  - assert (HN' : ~ In Short ks) by (intros H; apply HN; now right).
    destruct k as [g| |]; [| |now elim HN; left]; inversion HR; subst.
    + destruct (IH (p ++ long_bytes g) s p' s') as (-> & -> & HG & HL' & HEnd); try assumption; [now apply even_app| |].
      { rewrite app_length. cbn [length long_bytes]. destruct HE as [k Hk]. lia. }
      split; [reflexivity|]. rewrite groups_cons. cbn [flat_map]. split; [now rewrite <- app_assoc|].
      split; [constructor; [split; assumption|exact HG]|]. split; [assumption|].
      intros E16 _. destruct (Nat.ltb_spec (length (p ++ long_bytes g)) 16) as [Hlt|Hge].
      * apply ewg_cons. now apply HEnd.
      * assert (E0 : groups ks = []).
        { rewrite app_length, long_bytes_length in E16. destruct (groups ks); [reflexivity|]. cbn [length] in E16. lia. }
        assert (ks = []) as ->; [|exists [], g; reflexivity].
        destruct ks as [|k ks]; [reflexivity|]. exfalso.
        match goal with H : run (k :: ks) _ _ _ _ |- _ => inversion H; subst; lia end.
    + destruct (IH p s p' s') as (-> & -> & HG & HL' & HEnd); try assumption.
      split; [reflexivity|]. split; [reflexivity|]. split; [exact HG|]. split; [assumption|]. intros E16 Hlt. apply ewg_cons. now apply HEnd.
Qed.
Lemma run_plain_complete ks : forall p s, groups_ok ks -> ~ In Short ks ->
  let n := (length p + 2 * length (groups ks))%nat in
  (n < 16)%nat \/ n = 16%nat /\ (ks = [] \/ ends_with_group ks) ->
  run ks p s (p ++ flat_map long_bytes (groups ks)) s.
Proof.
  induction ks as [|k ks IH]; intros p s HG HN; cbv zeta; intros Hn.
  - cbn [groups flat_map]. rewrite app_nil_r. constructor.
  - assert (HN' : ~ In Short ks) by (intros H; apply HN; now right). rewrite groups_cons in *.
    destruct k as [g| |]; [| |now elim HN; left].
    + unfold groups_ok in HG. rewrite groups_cons in HG. inversion HG as [|? ? [HG1 HG2] HG3]; subst. cbn [flat_map length] in *. rewrite app_assoc.
      constructor; try assumption; [lia|]. apply IH; try assumption. rewrite app_length. cbn [length long_bytes].
      destruct Hn as [Hn|(Hn & [Hk|Hk])]; [left; lia|discriminate|right]. split; [lia|].
      apply ewg_tail in Hk. destruct Hk as [[-> _]|Hk]; auto.
    + assert (HLt : (length p < 16)%nat).
      { destruct Hn as [Hn|(Hn & [Hk|Hk])]; [lia|discriminate|]. apply ewg_tail in Hk. destruct Hk as [[_ [d E]]|Hk]; [discriminate|].
        apply ewg_groups in Hk. lia. }
      constructor; [assumption|]. apply IH; try assumption. destruct Hn as [Hn|(Hn & [Hk|Hk])]; [now left|discriminate|right].
      split; [lia|]. apply ewg_tail in Hk. destruct Hk as [[_ [d E]]|Hk]; [discriminate|now right].
Qed.

Lemma run_some_no_short ks : forall p n p' s', run ks p (Some n) p' s' -> ~ In Short ks.
Proof.
  induction ks as [|k ks IH]; intros p n p' s' HR; [auto|]. destruct k; inversion HR; subst; intros [H'|H']; try discriminate; eapply IH; eauto.
Qed.

Lemma run_keeps ks : forall p s p' s', run ks p s p' s' -> ~ In Short ks -> s' = s.
Proof.
  induction ks as [|k ks IH]; intros p s p' s' H HN; [now inversion H|].
  destruct k; inversion H; subst; try (eapply IH; [eassumption|]; intros X; apply HN; now right). elim HN. now left.
Qed.
Lemma run_split_short ks : forall p p' n, run ks p None p' (Some n) -> exists ls rs p1, ks = ls ++ Short :: rs /\ ~ In Short ls /\
  run ls p None p1 None /\ (length p1 < 16)%nat /\ n = length p1 /\ run rs p1 (Some n) p' (Some n).
Proof.
  induction ks as [|k ks IH]; intros p p' n HR; [inversion HR|]. destruct k as [g| |]; inversion HR; subst.
  - match goal with H : run ks _ None _ _ |- _ => apply IH in H; destruct H as (ls & rs & p1 & -> & HN & R1 & L1 & EN & R2) end.
    exists (Group g :: ls), rs, p1. split; [reflexivity|]. split; [intros [E|E]; [discriminate|auto]|]. split; [constructor; assumption|]. auto.
  - match goal with H : run ks _ None _ _ |- _ => apply IH in H; destruct H as (ls & rs & p1 & -> & HN & R1 & L1 & EN & R2) end.
    exists (Colon :: ls), rs, p1. split; [reflexivity|]. split; [intros [E|E]; [discriminate|auto]|]. split; [constructor; assumption|]. auto.
  - assert (HS : n = length p).
    { match goal with H : run ks _ (Some _) _ _ |- _ => pose proof (run_some_no_short _ _ _ _ _ H) as HN; apply run_keeps in H; [congruence|assumption] end. }
    subst n. exists [], ks, p. split; [reflexivity|]. split; [auto|]. split; [constructor|]. auto.
Qed.
Lemma run_app ks : forall ks' p s p1 s1 p' s', run ks p s p1 s1 -> run ks' p1 s1 p' s' -> run (ks ++ ks') p s p' s'.
Proof. intros ks' p s p1 s1 p' s' H. induction H; intros H'; [exact H'|constructor|constructor|constructor]; auto. Qed.

(** * from_string *)
Lemma rotate_lemma P Q z : rotate_reverse (P ++ Q ++ repeat 0 z) z (length P) = P ++ repeat 0 z ++ Q.
Proof.
  unfold rotate_reverse. rewrite !rev_app_distr. rewrite <- !app_assoc.
  set (Z' := rev (repeat 0 z)). assert (HZ : length Z' = z) by (unfold Z'; now rewrite rev_length, repeat_length).
  assert (HQ : length (rev Q) = length Q) by apply rev_length. assert (HP : length (rev P) = length P) by apply rev_length.
  rewrite !app_length, HZ, HQ, HP.
  replace (z + (length Q + length P) - length P - z)%nat with (length Q) by lia.
  replace (z + (length Q + length P) - length P)%nat with (z + length Q)%nat by lia.
  rewrite (skipn_app z), (skipn_all2 Z') by lia. rewrite HZ, Nat.sub_diag. cbn [skipn app].
  rewrite (firstn_app (length Q)), HQ, Nat.sub_diag. rewrite (firstn_all2 (rev Q)) by lia. cbn [firstn]. rewrite app_nil_r.
  rewrite (firstn_app z), HZ, Nat.sub_diag. rewrite (firstn_all2 Z') by lia. cbn [firstn]. rewrite app_nil_r.
  rewrite (skipn_app (z + length Q)), (skipn_all2 Z') by lia. rewrite HZ. replace (z + length Q - z)%nat with (length Q) by lia.
  rewrite (skipn_app (length Q)), (skipn_all2 (rev Q)) by lia. rewrite HQ, Nat.sub_diag. cbn [skipn app].
  unfold Z'. rewrite !rev_involutive, ?app_assoc. reflexivity.
Qed.

Lemma ipv6_parse_lemma t s a : In t ctypes -> Forall (fun c => char_ok t c /\ 0 <= c) s -> Z.of_nat (length s) < 2 ^ 63 ->
  (exists o, ipv6_from_string t s = Ok o) /\ (ipv6_from_string t s = Ok (Some a) <-> lenient s a).
Proof.
  intros Ht HC HL. destruct (start_ok t s HC HL) as [HO HR].
  assert (HE0 : even_len []) by (now exists O).
  destruct (loop_sound t Ht (S (length s)) (Lexer s 0) [] None HO HE0 ltac:(cbn; lia)) as (o & E & HS); [rewrite HR; lia|].
  split.
  { unfold ipv6_from_string. rewrite E. cbn [bind]. destruct o as [[[l' p'] s']|]; [|eauto].
    destruct (HS l' p' s' eq_refl) as (HO' & _). rewrite peek_here by apply HO'. cbn [bind].
    destruct (remaining l'); [|eauto]. destruct s'; [eauto|]. destruct (length p' =? 16)%nat; eauto. }
  split.
  - unfold ipv6_from_string. rewrite E. cbn [bind]. destruct o as [[[l' p'] s']|]; [|discriminate].
    destruct (HS l' p' s' eq_refl) as (HO' & ks & N & G & R & RR). rewrite HR in RR. rewrite peek_here by apply HO'. cbn [bind].
    destruct (remaining l') as [|c r] eqn:ER; [|discriminate]. rewrite app_nil_r in RR. intros H. exists ks. split; [assumption|]. split; [assumption|].
    destruct s' as [n|].
    + destruct (run_split_short ks [] p' n R) as (ls & rs & p1 & EK & HNl & R1 & L1 & En & R2).
      pose proof (run_some_no_short _ _ _ _ _ R2) as HNr.
      destruct (run_plain_sound ls [] None p1 None R1 HE0 ltac:(cbn; lia) HNl) as (_ & EP1 & HG1 & _ & _). cbn [app] in EP1.
      assert (HE1 : even_len p1) by (exists (length (groups ls)); rewrite EP1; apply long_bytes_length).
      destruct (run_plain_sound rs p1 (Some n) p' (Some n) R2 HE1 ltac:(lia) HNr) as (_ & EP2 & HG2 & HL2 & HEnd).
      assert (HLen : length p' = (2 * (length (groups ls) + length (groups rs)))%nat) by (rewrite EP2, app_length, EP1, !long_bytes_length; lia).
      split; [unfold groups_ok; rewrite EK, groups_app, groups_cons; apply Forall_app; split; assumption|].
      right. exists ls, rs. split; [assumption|]. split; [assumption|]. split; [assumption|]. cbv zeta. split.
      * destruct (Nat.ltb_spec (length (groups ls) + length (groups rs)) 8); [now left|right]. split; [lia|].
        destruct (HEnd ltac:(lia) L1) as (r0 & d & ->). exists (ls ++ Short :: r0), d. rewrite EK, <- app_assoc. reflexivity.
      * assert (OI : forall x y : list Z, @Ok (option (list Z)) (Some x) = Ok (Some y) -> x = y) by congruence. apply OI in H. rewrite <- H. clear OI H E.
        rewrite HLen. rewrite EP2. rewrite <- app_assoc. subst n. rewrite rotate_lemma. rewrite EP1. reflexivity.
    + assert (HN : ~ In Short ks).
      { clear -R. revert R. generalize (@nil Z) as p. induction ks as [|k ks IH]; intros p R; [auto|].
        destruct k; inversion R; subst; intros [X|X]; try discriminate; try (eapply IH; eauto; fail).
        - match goal with H : run ks _ (Some _) _ None |- _ => clear -H; exfalso; revert H; generalize (length p) as n; intros n H; remember (Some n) as s; remember None as s'; revert Heqs Heqs'; induction H; intros; subst; try discriminate; auto end. 
        - match goal with H : run ks _ (Some _) _ None |- _ => clear -H; exfalso; revert H; generalize (length p) as n; intros n H; remember (Some n) as s; remember None as s'; revert Heqs Heqs'; induction H; intros; subst; try discriminate; auto end. }
      destruct (run_plain_sound ks [] None p' None R HE0 ltac:(cbn; lia) HN) as (_ & EP & HG & HLe & HEnd). cbn [app] in EP.
      destruct (Nat.eqb_spec (length p') 16) as [E16|]; [|discriminate].
      split; [assumption|]. left. split; [assumption|]. split; [rewrite EP, long_bytes_length in E16; lia|]. split; [apply HEnd; [assumption|cbn; lia]|].
      rewrite E16 in H. cbn [Nat.sub repeat] in H. rewrite app_nil_r in H. congruence.
  - intros (ks & ES & G & HG & HCase).
    assert (HRUN : exists p' s', run ks [] None p' s' /\ ks <> [] /\
       (match s' with Some n => rotate_reverse (p' ++ repeat 0 (16 - length p')) (16 - length p') n = a | None => length p' = 16%nat /\ p' = a end)).
    { destruct HCase as [(HN & H8 & HEnd & ->)|(ls & rs & EK & HNl & HNr & HCase)].
      - exists (flat_map long_bytes (groups ks)), None. split; [|split].
        + change (flat_map long_bytes (groups ks)) with ([] ++ flat_map long_bytes (groups ks)). apply run_plain_complete; try assumption. cbn [length]. right. split; [lia|now right].
        + intros ->. discriminate.
        + split; [|reflexivity]. rewrite long_bytes_length. lia.
      - cbv zeta in HCase. destruct HCase as [Hn ->]. unfold groups_ok in HG. rewrite EK, groups_app, groups_cons in HG. apply Forall_app in HG. destruct HG as [HG1 HG2].
        assert (Hls : (length (groups ls) < 8)%nat).
        { destruct Hn as [Hn|[Hn HEnd]]; [lia|]. destruct (Nat.eqb_spec (length (groups rs)) 0) as [E0|]; [|lia].
          exfalso. rewrite EK in HEnd. destruct HEnd as (r0 & d & ED).
          assert (X : rs = [] \/ exists r1 x, rs = r1 ++ [x]) by (destruct rs as [|y rs']; [now left|right; destruct (@exists_last _ (y :: rs') ltac:(discriminate)) as (r1 & x & Ex); eauto]).
          destruct X as [->|(r1 & x & ->)].
          - apply app_inj_tail in ED. destruct ED as [_ ED]. discriminate.
          - rewrite app_comm_cons, app_assoc in ED. apply app_inj_tail in ED. destruct ED as [_ ->].
            rewrite groups_app, app_length in E0. cbn in E0. lia. }
        exists ([] ++ flat_map long_bytes (groups ls) ++ flat_map long_bytes (groups rs)), (Some (length (flat_map long_bytes (groups ls)))).
        split; [|split].
        + rewrite EK. eapply run_app.
          * apply run_plain_complete; try assumption. left. cbn [length]. lia.
          * cbn [app]. constructor; [rewrite long_bytes_length; lia|]. apply run_plain_complete; try assumption.
            rewrite long_bytes_length. destruct Hn as [Hn|[Hn HEnd]]; [left; lia|right]. split; [lia|].
            rewrite EK in HEnd. destruct HEnd as (r0 & d & ED).
            destruct rs as [|y rs']; [now left|right]. destruct (@exists_last _ (y :: rs') ltac:(discriminate)) as (r1 & x & Ex).
            rewrite Ex in *. rewrite app_comm_cons, app_assoc in ED. apply app_inj_tail in ED. destruct ED as [_ ->]. exists r1, d. reflexivity.
        + rewrite EK. now destruct ls.
        + cbn [app]. rewrite <- app_assoc, rotate_lemma. rewrite app_length, !long_bytes_length. do 3 f_equal. lia. }
    destruct HRUN as (p' & s' & R & N & HA).
    destruct (loop_complete t Ht ks [] None p' s' R (S (length s)) (Lexer s 0) N G HO HE0) as (l' & E' & HO' & HR'); [now rewrite HR|rewrite HR; lia|].
    unfold ipv6_from_string. rewrite E'. cbn [bind]. rewrite (peek_end t l' HO' HR'). cbn [bind].
    destruct s' as [n|]; [now rewrite HA|]. destruct HA as [E16 ->]. rewrite E16. cbn [Nat.eqb Nat.sub repeat]. now rewrite app_nil_r.
Qed.

(** * RFC 4291 text is accepted *)
Fixpoint toks (gs : list (list Z)) : list token :=
  match gs with
  | [] => []
  | [g] => [Group g]
  | g :: r => Group g :: Colon :: toks r
  end.
Lemma toks_text gs : flat_map token_text (toks gs) = join 58 gs.
Proof. induction gs as [|g [|h gs] IH]; [reflexivity|cbn; apply app_nil_r|]. cbn [toks flat_map token_text join app] in *. now rewrite <- IH. Qed.
Lemma toks_groups gs : groups (toks gs) = gs.
Proof. induction gs as [|g [|h gs] IH]; [reflexivity|reflexivity|]. cbn [toks] in *. rewrite !groups_cons, IH. reflexivity. Qed.
Lemma toks_no_short gs : ~ In Short (toks gs).
Proof. induction gs as [|g [|h gs] IH]; cbn [toks In]; [tauto|intros [X|[]]; discriminate|]. intros [X|[X|X]]; try discriminate. exact (IH X). Qed.
Lemma toks_greedy gs tail : (forall k r, tail = k :: r -> k <> Colon -> k = Short) -> match tail with Group _ :: _ => False | _ => True end -> greedy tail -> greedy (toks gs ++ tail).
Proof.
  intros HT HG H. induction gs as [|g [|h gs] IH]; [exact H| |].
  - cbn [toks app greedy]. split; [|exact H]. destruct tail as [|[]]; auto.
  - cbn [toks app greedy] in *. split; [exact I|]. split; [|exact IH]. destruct gs; exact I.
Qed.
Lemma toks_end gs : gs <> [] -> ends_with_group (toks gs).
Proof.
  induction gs as [|g [|h gs] IH]; [congruence| |]; intros _.
  - exists [], g. reflexivity.
  - cbn [toks]. do 2 apply ewg_cons. apply IH. discriminate.
Qed.
Lemma number_bound base s : 1 < base <= 16 -> Forall (fun c => 0 <= digit_value c < base) s -> forall a, 0 <= a ->
  0 <= fold_left (fun a c => a * base + digit_value c) s a < (a + 1) * base ^ Z.of_nat (length s).
Proof.
  intros Hb H. induction H as [|c s Hc Hs IH]; intros a Ha; [cbn [fold_left length]; change (Z.of_nat 0) with 0; rewrite Z.pow_0_r; lia|].
  cbn [fold_left length]. rewrite Nat2Z.inj_succ, Z.pow_succ_r by lia.
  assert (H1 : 0 <= a * base) by (apply Z.mul_nonneg_nonneg; lia).
  destruct (IH (a * base + digit_value c) ltac:(lia)) as [L U]. split; [exact L|]. eapply Z.lt_le_trans; [exact U|].
  rewrite Z.mul_assoc. apply Z.mul_le_mono_nonneg_r; [apply Z.pow_nonneg; lia|]. lia.
Qed.
Lemma xdigit_value c : ascii_xdigit c -> 0 <= digit_value c < 16.
Proof. unfold ascii_xdigit, ascii_digit, digit_value. intros H. destruct (Z.leb_spec c 57), (Z.leb_spec c 70); lia. Qed.
Lemma group_small g : hex_group g -> 0 <= number 16 g < 2 ^ 16.
Proof.
  intros (_ & HL & HX). destruct (number_bound 16 g ltac:(lia)) with (a := 0) as [L U]; [eapply Forall_impl; [|exact HX]; apply xdigit_value|lia|].
  unfold number. split; [exact L|]. eapply Z.lt_le_trans; [exact U|]. rewrite Z.add_0_l, Z.mul_1_l. change (2 ^ 16) with (16 ^ 4). apply Z.pow_le_mono_r; lia.
Qed.
Lemma group_value_small g : hex_group g -> group_value g = number 16 g.
Proof. intros H. apply Z.mod_small. pose proof (group_small g H). change (2 ^ 16) with 65536 in *. change (2 ^ 64) with 18446744073709551616. lia. Qed.
Lemma groups_small gs : Forall hex_group gs -> flat_map long_bytes gs = flat_map group_bytes gs.
Proof. induction 1 as [|g gs Hg _ IH]; [reflexivity|]. cbn [flat_map]. rewrite IH. f_equal. unfold long_bytes, group_bytes. now rewrite group_value_small. Qed.
Lemma groups_fine gs : Forall hex_group gs -> Forall (fun g => long_group g /\ group_value g < 2 ^ 16) gs.
Proof.
  apply Forall_impl. intros g Hg. split; [split; apply Hg|]. rewrite group_value_small by assumption. apply group_small. assumption.
Qed.
Lemma rfc_lenient s a : rfc4291 s a -> lenient s a.
Proof.
  intros [(gs & L8 & HG & -> & ->)|(ls & rs & L & HL & HR & -> & ->)].
  - exists (toks gs). rewrite toks_text. split; [reflexivity|]. split; [rewrite <- (app_nil_r (toks gs)); apply toks_greedy; [discriminate|exact I|exact I]|].
    unfold groups_ok. rewrite toks_groups. split; [now apply groups_fine|]. left. split; [apply toks_no_short|]. split; [assumption|].
    split; [apply toks_end; intros ->; discriminate|]. symmetry. now apply groups_small.
  - exists (toks ls ++ Short :: toks rs). split; [rewrite flat_map_app; cbn [flat_map token_text app]; now rewrite !toks_text|].
    split; [apply toks_greedy; [intros k r E _; congruence|exact I|]|].
    { split; [exact I|]. rewrite <- (app_nil_r (toks rs)). apply toks_greedy; [discriminate|exact I|exact I]. }
    unfold groups_ok. rewrite groups_app, groups_cons, !toks_groups. split; [apply Forall_app; split; now apply groups_fine|].
    right. exists (toks ls), (toks rs). split; [reflexivity|]. split; [apply toks_no_short|]. split; [apply toks_no_short|]. cbv zeta. rewrite !toks_groups.
    split; [left; lia|]. now rewrite !groups_small.
Qed.

(** * The formatter *)
Lemma skipn_nth {A} (l : list A) d k : (k < length l)%nat -> skipn k l = nth k l d :: skipn (S k) l.
Proof.
  revert k. induction l as [|x l IH]; intros [|k] H; cbn [length] in H; try lia; [reflexivity|]. cbn [skipn nth]. rewrite IH by lia. reflexivity.
Qed.
Lemma positional_short v s n : positional 16 false v s -> 0 <= v < 16 ^ Z.of_nat n -> (0 < n)%nat -> (length s <= n)%nat.
Proof.
  intros (F & V & N & L) Hv Hn. destruct L as [L|L]; [lia|]. destruct s as [|c s]; [congruence|]. cbn [hd] in L.
  assert (HP : forall s, Forall (digit_of 16 false) s -> 0 <= positional_value 16 s).
  { clear. induction 1 as [|c s Hc Hs IH]; [cbn; lia|]. cbn [positional_value].
    assert (0 <= value_of_digit c) by (unfold digit_of in Hc; unfold value_of_digit; destruct (Z.leb_spec c 57), (Z.leb_spec c 90); lia).
    assert (0 <= 16 ^ Z.of_nat (length s)) by (apply Z.pow_nonneg; lia).
    assert (0 <= value_of_digit c * 16 ^ Z.of_nat (length s)) by (now apply Z.mul_nonneg_nonneg). lia. }
  inversion F as [|? ? Hc Hs]; subst. pose proof (HP s Hs). cbn [positional_value] in Hv.
  assert (H1 : 1 <= value_of_digit c) by (unfold digit_of in Hc; unfold value_of_digit; destruct (Z.leb_spec c 57), (Z.leb_spec c 90); lia).
  assert (HPow : 0 < 16 ^ Z.of_nat (length s)) by (apply Z.pow_pos_nonneg; lia).
  assert (1 * 16 ^ Z.of_nat (length s) <= value_of_digit c * 16 ^ Z.of_nat (length s)) by (apply Z.mul_le_mono_nonneg_r; lia).
  assert (HLt : 16 ^ Z.of_nat (length s) < 16 ^ Z.of_nat n) by lia. apply Z.pow_lt_mono_r_iff in HLt; [|lia|lia]. cbn [length]. lia.
Qed.
Definition group_for (v : Z) (g : list Z) : Prop := hex_group g /\ number 16 g = v.
Lemma hex_segment v : 0 <= v < 2 ^ 16 -> exists g, format_integer 16 false char_max hex_field 0 v = Ok g /\ group_for v g.
Proof.
  intros H. destruct (hex_format 16 v ltac:(unfold native_int; auto) H) as (g & E & N & X & V & P). exists g. split; [exact E|].
  split; [|exact V]. split; [exact N|]. split; [|exact X]. apply (positional_short v g 4 P); [exact H|lia].
Qed.

Section Format.
Variable a segs : list Z.
Hypothesis Hlen : length segs = 8%nat.
Hypothesis Hseg : forall k, (k < 8)%nat -> join_segments a (2 * k) = nth k segs 0.
Hypothesis Hrange : Forall (fun v => 0 <= v < 2 ^ 16) segs.

Lemma rest_cons k v ss : skipn k segs = v :: ss -> (k < 8)%nat /\ join_segments a (2 * k) = v /\ skipn (S k) segs = ss /\ 0 <= v < 2 ^ 16.
Proof.
  intros E. assert (HK : (k < 8)%nat).
  { destruct (Nat.ltb_spec k 8); [assumption|]. rewrite skipn_all2 in E by lia. discriminate. }
  rewrite (skipn_nth segs 0 k) in E by lia. injection E as EV ES. split; [assumption|]. split; [now rewrite Hseg|]. split; [assumption|].
  rewrite <- EV. rewrite Forall_forall in Hrange. apply Hrange. apply nth_In. lia.
Qed.
Lemma rest_nil k : skipn k segs = [] -> (8 <= k)%nat.
Proof. intros E. destruct (Nat.leb_spec 8 k); [assumption|]. rewrite (skipn_nth segs 0 k) in E by lia. discriminate. Qed.
Lemma index_in k : (k < 8)%nat -> (2 * k <? 16)%nat = true.
Proof. intros. apply Nat.ltb_lt. lia. Qed.
Lemma index_out k : (8 <= k)%nat -> (2 * k <? 16)%nat = false.
Proof. intros. apply Nat.ltb_ge. lia. Qed.
Lemma colon_field k : (0 < k)%nat -> format_string_value str_field 0 (Some (if (0 <? 2 * k)%nat then 1 else 0)) [58] = [58].
Proof. intros H. assert (E : (0 <? 2 * k)%nat = true) by (apply Nat.ltb_lt; lia). rewrite E. reflexivity. Qed.

Lemma loop_used : forall ss fuel k, skipn k segs = ss -> (0 < k)%nat -> (length ss <= fuel)%nat ->
  exists gs, Forall2 group_for ss gs /\ ipv6_format_loop fuel a (2 * k) true = Ok (flat_map (cons 58) gs).
Proof.
  induction ss as [|v ss IH]; intros fuel k E HK HF.
  - apply rest_nil in E. exists []. split; [constructor|]. destruct fuel; cbn [ipv6_format_loop]; rewrite index_out by assumption; reflexivity.
  - destruct (rest_cons k v ss E) as (HK8 & EJ & ES & HV). destruct fuel as [|fuel]; [cbn in HF; lia|]. cbn [length] in HF.
    destruct (IH fuel (S k) ES ltac:(lia) ltac:(lia)) as (gs & HG & EL). destruct (hex_segment v HV) as (g & EF & Hg).
    exists (g :: gs). split; [constructor; assumption|].
    cbn [ipv6_format_loop]. rewrite index_in by assumption. rewrite EJ, andb_false_r, EF. cbn [bind].
    replace (2 * k + 2)%nat with (2 * S k)%nat by lia. rewrite EL. cbn [bind]. rewrite colon_field by assumption. reflexivity.
Qed.
Lemma skip_zeros_lemma : forall ss fuel k, skipn k segs = ss -> (length ss <= fuel)%nat ->
  exists j ss', ss = repeat 0 j ++ ss' /\ (forall r, ss' <> 0 :: r) /\ skip_zeros fuel a (2 * k) = (2 * (k + j))%nat.
Proof.
  induction ss as [|v ss IH]; intros fuel k E HF.
  - exists 0%nat, []. split; [reflexivity|]. split; [discriminate|]. apply rest_nil in E. rewrite Nat.add_0_r.
    destruct fuel; [reflexivity|]. cbn [skip_zeros]. rewrite index_out by assumption. reflexivity.
  - destruct (rest_cons k v ss E) as (HK8 & EJ & ES & HV). destruct fuel as [|fuel]; [cbn in HF; lia|]. cbn [length] in HF.
    cbn [skip_zeros]. rewrite index_in by assumption. rewrite EJ. cbn [andb]. destruct (Z.eqb_spec v 0) as [->|Hv].
    + destruct (IH fuel (S k) ES ltac:(lia)) as (j & ss' & -> & HN & EL). exists (S j), ss'. split; [reflexivity|]. split; [assumption|].
      replace (2 * k + 2)%nat with (2 * S k)%nat by lia. rewrite EL. lia.
    + exists 0%nat, (v :: ss). split; [reflexivity|]. split; [congruence|]. rewrite Nat.add_0_r. reflexivity.
Qed.
Lemma colons_join g gs : flat_map (cons 58) (g :: gs) = 58 :: join 58 (g :: gs).
Proof.
  revert g. induction gs as [|h gs IH]; intros g; [cbn; now rewrite app_nil_r|]. rewrite join_cons by discriminate.
  cbn [flat_map] in *. rewrite IH. reflexivity.
Qed.
Definition lead (k : nat) (gs : list (list Z)) : list Z := if (0 <? k)%nat then flat_map (cons 58) gs else join 58 gs.
Lemma lead_cons k g gs : lead k (g :: gs) = (if (0 <? k)%nat then [58] else []) ++ g ++ flat_map (cons 58) gs.
Proof.
  unfold lead. destruct (0 <? k)%nat; [reflexivity|]. destruct gs as [|h gs]; [cbn; now rewrite app_nil_r|].
  rewrite join_cons by discriminate. rewrite colons_join. reflexivity.
Qed.
Lemma loop_unused : forall ss fuel k, skipn k segs = ss -> (length ss <= fuel)%nat ->
  exists out, ipv6_format_loop fuel a (2 * k) false = Ok out /\
    ((exists gs, Forall2 group_for ss gs /\ out = lead k gs) \/
     (exists ls j rs gl gr, ss = ls ++ repeat 0 (S j) ++ rs /\ Forall2 group_for ls gl /\ Forall2 group_for rs gr /\
        out = lead k gl ++ [58; 58] ++ join 58 gr)).
Proof.
  induction ss as [|v ss IH]; intros fuel k E HF.
  - apply rest_nil in E. exists []. split; [destruct fuel; cbn [ipv6_format_loop]; rewrite index_out by assumption; reflexivity|].
    left. exists []. split; [constructor|]. unfold lead. now destruct (0 <? k)%nat.
  - destruct (rest_cons k v ss E) as (HK8 & EJ & ES & HV). destruct fuel as [|fuel]; [cbn in HF; lia|]. cbn [length] in HF.
    cbn [ipv6_format_loop]. rewrite index_in by assumption. rewrite EJ, andb_true_r.
    assert (HL8 : (length ss <= 7)%nat) by (rewrite <- ES, skipn_length; lia).
    destruct (Z.eqb_spec v 0) as [->|Hv].
    + destruct (skip_zeros_lemma ss 8 (S k) ES ltac:(lia)) as (j & ss' & Ess & HN & ESk).
      replace (2 * k + 2)%nat with (2 * S k)%nat by lia. rewrite ESk.
      assert (Erest : skipn (S k + j) segs = ss').
      { rewrite <- skipn_add. rewrite ES, Ess. rewrite skipn_app, skipn_all2 by (rewrite repeat_length; lia). rewrite repeat_length, Nat.sub_diag. reflexivity. }
      destruct (loop_used ss' fuel (S k + j) Erest ltac:(lia)) as (gs & HG & EL); [rewrite Ess, app_length in HF; lia|].
      rewrite EL. cbn [bind]. eexists. split; [reflexivity|]. right. exists [], j, ss', [], gs.
      split; [rewrite Ess; reflexivity|]. split; [constructor|]. split; [assumption|].
      assert (EL0 : lead k [] = []) by (unfold lead; now destruct (0 <? k)%nat). rewrite EL0. cbn [app].
      destruct ss' as [|w ss'].
      * apply rest_nil in Erest. rewrite index_out by assumption. inversion HG; subst. reflexivity.
      * destruct (rest_cons _ _ _ Erest) as (HK' & _). rewrite index_in by assumption. inversion HG; subst. rewrite colons_join. reflexivity.
    + destruct (IH fuel (S k) ES ltac:(lia)) as (out & EL & HCase). destruct (hex_segment v HV) as (g & EF & Hg). rewrite EF. cbn [bind].
      replace (2 * k + 2)%nat with (2 * S k)%nat by lia. rewrite EL. cbn [bind]. eexists. split; [reflexivity|].
      assert (EC : format_string_value str_field 0 (Some (if (0 <? 2 * k)%nat then 1 else 0)) [58] = (if (0 <? k)%nat then [58] else [])).
      { destruct k; [reflexivity|]. rewrite colon_field by lia. reflexivity. }
      rewrite EC. destruct HCase as [(gs & HG & ->)|(ls & j & rs & gl & gr & -> & HL & HR & ->)].
      * left. exists (g :: gs). split; [constructor; assumption|]. rewrite lead_cons. reflexivity.
      * right. exists (v :: ls), j, rs, (g :: gl), gr. split; [reflexivity|]. split; [constructor; assumption|]. split; [assumption|].
        rewrite lead_cons. unfold lead. cbn [Nat.ltb Nat.leb]. rewrite <- !app_assoc. reflexivity.
Qed.
End Format.

Definition segments (a : list Z) : list Z := map (fun k => nth (2 * k) a 0 * 256 + nth (2 * k + 1) a 0) (seq 0 8).
Definition pair_bytes (v : Z) : list Z := [v / 256; v mod 256].
Lemma pair_of x y : 0 <= x < 256 -> 0 <= y < 256 -> pair_bytes (x * 256 + y) = [x; y].
Proof. intros. unfold pair_bytes. f_equal; [dlia|f_equal; dlia]. Qed.
Lemma segments_ok a : address_bytes a -> length (segments a) = 8%nat /\ (forall k, (k < 8)%nat -> join_segments a (2 * k) = nth k (segments a) 0) /\
  Forall (fun v => 0 <= v < 2 ^ 16) (segments a) /\ flat_map pair_bytes (segments a) = a.
Proof.
  intros [HL HB].
  assert (HN : forall i, 0 <= nth i a 0 < 256).
  { intros i. destruct (Nat.ltb_spec i (length a)); [|rewrite nth_overflow by lia; lia]. rewrite Forall_forall in HB. apply HB. now apply nth_In. }
  split; [reflexivity|]. split; [|split].
  - intros k Hk. unfold segments. rewrite (nth_indep _ 0 (nth (2 * 0) a 0 * 256 + nth (2 * 0 + 1) a 0)) by (rewrite map_length, seq_length; exact Hk).
    rewrite (map_nth (fun k => nth (2 * k) a 0 * 256 + nth (2 * k + 1) a 0)). rewrite seq_nth by assumption. rewrite Nat.add_0_l.
    unfold join_segments. pose proof (HN (2 * k)%nat). pose proof (HN (2 * k + 1)%nat).
    rewrite Z.shiftl_mul_pow2 by lia. rewrite (lor_high_low _ _ 8) by (try apply Z.mod_mul; change (2 ^ 8) with 256; lia). change (2 ^ 8) with 256.
    unfold u16, wrap. apply Z.mod_small. change (2 ^ 16) with 65536. lia.
  - apply Forall_forall. intros v Hv. unfold segments in Hv. apply in_map_iff in Hv. destruct Hv as (k & <- & _). change (2 ^ 16) with 65536.
    pose proof (HN (2 * k)%nat). pose proof (HN (2 * k + 1)%nat). lia.
  - unfold segments. cbn [seq map flat_map]. rewrite !pair_of by apply HN. cbn [app]. cbn [Nat.mul Nat.add]. clear -HL.
    do 16 (destruct a as [|? a]; [discriminate|]). destruct a; [reflexivity|discriminate].
Qed.
Lemma group_bytes_pairs ss gs : Forall2 group_for ss gs -> flat_map group_bytes gs = flat_map pair_bytes ss /\ Forall hex_group gs /\ length gs = length ss.
Proof.
  induction 1 as [|v g ss gs [Hg Hv] H (IH1 & IH2 & IH3)]; [auto|]. cbn [flat_map length]. rewrite IH1, IH3. split; [|split; [constructor; assumption|reflexivity]].
  unfold group_bytes, pair_bytes. now rewrite Hv.
Qed.
Lemma zeros_pairs j : flat_map pair_bytes (repeat 0 j) = repeat 0 (2 * j).
Proof. induction j as [|j IH]; [reflexivity|]. cbn [repeat flat_map]. rewrite IH. replace (2 * S j)%nat with (S (S (2 * j))) by lia. reflexivity. Qed.

Lemma ipv6_format_rfc a : address_bytes a -> exists s, ipv6_format a = Ok s /\ rfc4291 s a.
Proof.
  intros HA. destruct (segments_ok a HA) as (HL & HS & HR & EA).
  destruct (loop_unused a (segments a) HL HS HR (segments a) 8 0 eq_refl ltac:(lia)) as (out & EL & HCase).
  exists out. split; [exact EL|]. destruct HCase as [(gs & HG & ->)|(ls & j & rs & gl & gr & E & HGl & HGr & ->)].
  - left. exists gs. destruct (group_bytes_pairs _ _ HG) as (E & HX & EN). split; [lia|]. split; [assumption|]. split; [reflexivity|]. congruence.
  - right. exists gl, gr. destruct (group_bytes_pairs _ _ HGl) as (E1 & HX1 & EN1). destruct (group_bytes_pairs _ _ HGr) as (E2 & HX2 & EN2).
    assert (EL8 : (length ls + S j + length rs = 8)%nat) by (rewrite <- HL, E, !app_length, repeat_length; lia).
    split; [lia|]. split; [assumption|]. split; [assumption|]. split; [reflexivity|].
    rewrite <- EA, E. rewrite !flat_map_app, E1, E2, zeros_pairs. do 3 f_equal. lia.
Qed.
Lemma rfc_chars s a t : In t ctypes -> rfc4291 s a -> Forall (fun c => char_ok t c /\ 0 <= c) s /\ (length s <= 41)%nat.
Proof.
  intros Ht H.
  assert (HX : forall c, ascii_xdigit c \/ c = 58 -> char_ok t c /\ 0 <= c).
  { intros c Hc. assert (0 <= c <= 102) by (unfold ascii_xdigit, ascii_digit in Hc; lia). split; [|lia].
    unfold ctypes in Ht. cbn [In] in Ht. unfold char_ok, in_range. decompose [or] Ht; try contradiction; subst; cbn -[Z.pow]; 
    change (2 ^ 7) with 128; change (2 ^ 8) with 256; change (2 ^ 16) with 65536; change (2 ^ 31) with 2147483648; change (2 ^ 32) with 4294967296; change (2 ^ (8 - 1)) with 128; change (2 ^ (32 - 1)) with 2147483648; lia. }
  assert (J : forall gs, Forall hex_group gs -> Forall (fun c => char_ok t c /\ 0 <= c) (join 58 gs) /\ (length (join 58 gs) <= 5 * length gs)%nat).
  { induction gs as [|g [|h gs] IH]; intros HG; inversion HG as [|? ? [Hg0 [Hg1 Hg2]] HG']; subst.
    - split; [constructor|cbn; lia].
    - cbn [join]. split; [eapply Forall_impl; [|exact Hg2]; intros c Hc; apply HX; auto|cbn [length]; lia].
    - destruct (IH HG') as [I1 I2]. rewrite join_cons by discriminate. split.
      + apply Forall_app. split; [eapply Forall_impl; [|exact Hg2]; intros c Hc; apply HX; auto|]. constructor; [apply HX; auto|exact I1].
      + rewrite app_length. cbn [length] in *. lia. }
  destruct H as [(gs & L8 & HG & -> & _)|(ls & rs & L & HL & HR & -> & _)].
  - destruct (J gs HG). split; [assumption|lia].
  - destruct (J ls HL), (J rs HR). split; [|rewrite !app_length; cbn [length]; lia].
    apply Forall_app. split; [assumption|]. cbn [app]. constructor; [apply HX; auto|]. constructor; [apply HX; auto|assumption].
Qed.
