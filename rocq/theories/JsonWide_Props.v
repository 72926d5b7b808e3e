(** C68: JSON strings and keys in other encodings. *)
From Coq Require Import SpecFloat.
From Verif Require Import Common Bits Unicode_Model Unicode_Spec Unicode_Proofs Unicode_Props Format_Spec Format_Model Format_Props
  Json_Spec Json_Model Json_String_Proofs Json_Props JsonApi_Model JsonApi_Spec JsonApi_Proofs JsonApi_Props JsonConv_Model JsonConv_Props JsonWide_Model.
Open Scope Z_scope.

(** Characters that stand for themselves in a JSON string: no control characters, quotes, reverse solidus. *)
Definition plain (c : Z) : Prop := 0x20 <= c /\ c <> 34 /\ c <> 92.
(** [k] and [w] are the same text, in UTF-8 and in the encoding [e]. *)
Definition same_text (e : enc) (k w : list Z) : Prop := exists cs, Forall scalar cs /\ k = text utf8 cs /\ w = text (form e) cs.

Lemma utf8_byte cs : Forall scalar cs -> Forall byte (text utf8 cs).
Proof. intros HF. exact (text_units (U8 true) cs HF). Qed.
Lemma same_text_convert e sg k w : same_text e k w -> Unicode_Model.convert (U8 sg) e k = Some w.
Proof. intros (cs & HF & -> & ->). exact (convert_exact (U8 sg) e cs HF). Qed.
Lemma utf8_text_same e k : utf8_text k -> exists w, same_text e k w.
Proof. intros (cs & HF & ->). exists (text (form e) cs), cs. auto. Qed.
Lemma same_text_inj e k k' w : same_text e k w -> same_text e k' w -> k = k'.
Proof. intros (cs & HF & -> & ->) (ds & HD & -> & E). apply text_inj in E; auto. now rewrite E. Qed.
Lemma same_text_fun e k w w' : same_text e k w -> same_text e k w' -> w = w'.
Proof. intros H H'. apply (same_text_convert e true) in H, H'. congruence. Qed.

(** Constructing from a string of another encoding, and looking up with a key of another encoding, is the same as with the
    UTF-8 of the same text. *)
Theorem wide_same : forall sg e cs, Forall scalar cs ->
  wide_to_string sg e (text (form e) cs) = convert_to_string sg (text utf8 cs).
Proof.
  intros sg e cs HF. unfold wide_to_string, convert_to_string. rewrite convert_exact by assumption.
  change (form (U8 sg)) with utf8. assert (EV : validate (U8 sg) (text utf8 cs) = true); [|now rewrite EV].
  apply validate_exact; [exact (text_units (U8 sg) cs HF)|]. exists cs. auto.
Qed.
(** It succeeds exactly on well-formed text that is a JSON string literal, and stores what the literal denotes. *)
Theorem wide_construct : forall sg e w s, units_ok e w ->
  (wide_to_string sg e w = Some s <-> exists cs, Forall scalar cs /\ w = text (form e) cs /\ literal (text utf8 cs) s).
Proof.
  intros sg e w s HU. split.
  - intros E. destruct (validate e w) eqn:EV.
    + apply validate_exact in EV; [|assumption]. destruct EV as (cs & HF & ->). exists cs. split; [assumption|]. split; [reflexivity|].
      rewrite wide_same in E by assumption. apply construct_iff in E; [tauto|now apply utf8_byte].
    + unfold wide_to_string in E. rewrite (proj2 (convert_rejects e (U8 sg) w HU)) in E; [discriminate|].
      rewrite <- validate_exact by assumption. congruence.
  - intros (cs & HF & -> & HL). rewrite wide_same by assumption. apply construct_iff; [now apply utf8_byte|]. split; [|assumption]. now exists cs.
Qed.

(** Reading a string out in another encoding gives the same text. *)
Theorem wide_read : forall fp sg e cs, Forall scalar cs -> to_wide fp sg e (JString (text utf8 cs)) = Ok (Return (text (form e) cs)).
Proof. intros fp sg e cs HF. cbn [to_wide]. now rewrite (same_text_convert e sg _ (text (form e) cs)) by (exists cs; auto). Qed.
(** It is undefined exactly for strings that are not UTF-8 (no such string is ever constructed: see C29). *)
Theorem wide_read_undefined : forall fp sg e s, Forall byte s -> (to_wide fp sg e (JString s) = Ok Undefined <-> ~ utf8_text s).
Proof.
  intros fp sg e s HB. cbn [to_wide]. assert (HV : valid (U8 sg) s <-> utf8_text s) by (unfold valid, utf8_text; reflexivity).
  rewrite <- HV, <- (convert_rejects (U8 sg) e s HB). destruct (Unicode_Model.convert (U8 sg) e s) eqn:EC; split; try congruence; intros E; discriminate E.
Qed.
(** But resize cuts strings anywhere: after it, reading out is undefined. *)
Theorem wide_read_resized_refuted : exists fp sg e w s j r,
  wide_to_string sg e w = Some s /\
  run sg (2 ^ 58) (2 ^ 62) (fun _ => None) (0%nat, []) (Resize 1) (JString s) = (j, Return r) /\
  to_wide fp sg e j = Ok Undefined.
Proof.
  exists (FpText (fun _ => None) (fun _ => [])), true, U16, [0xe9], [0xc3; 0xa9], (JString [0xc3]), RVoid. repeat split; vm_compute; reflexivity.
Qed.

Lemma plain_literal cs : Forall scalar cs -> Forall plain cs -> literal (text utf8 cs) (text utf8 cs).
Proof.
  intros HF HP. assert (G : forall t, Forall plain t -> literal t t).
  { induction 1 as [|c t (A & B & C) _ IH]; now constructor. }
  apply G. unfold text. apply Forall_flat_map. rewrite Forall_forall in *. intros c Hc. specialize (HF c Hc). specialize (HP c Hc).
  unfold utf8, scalar, plain in *.
  destruct (Z.ltb_spec c 0x80); [repeat constructor; lia|].
  assert (forall a, 0 <= a mod 64) by (intros a; apply Z.mod_pos_bound; lia).
  destruct (Z.ltb_spec c 0x800); [|destruct (Z.ltb_spec c 0x10000)];
    repeat (constructor; [match goal with |- _ /\ _ => idtac end|]); try constructor;
    try (match goal with |- context [?a mod 64] => pose proof (H0 a); lia end);
    match goal with |- context [c / ?n] => assert (0 <= c / n) by (apply Z.div_pos; lia); lia end.
Qed.
(** What goes in comes out, in any two encodings, if it has nothing JSON escapes. *)
Theorem wide_round_trip : forall fp sg e e' cs, Forall scalar cs -> Forall plain cs ->
  exists s, wide_to_string sg e (text (form e) cs) = Some s /\ to_wide fp sg e' (JString s) = Ok (Return (text (form e') cs)).
Proof.
  intros fp sg e e' cs HF HP. exists (text utf8 cs). split; [|now apply wide_read].
  apply wide_construct; [now apply text_units|]. exists cs. split; [assumption|]. split; [reflexivity|]. now apply plain_literal.
Qed.

(** * Objects *)
Lemma emplaced_new {V} k (v : V) m : ~ In k (map fst m) -> emplaced k v m = m ++ [(k, v)].
Proof.
  intros H. unfold emplaced. assert (E : existsb (fun x => if list_eq_dec Z.eq_dec (fst x) k then true else false) m = false); [|now rewrite E].
  apply not_true_iff_false. rewrite existsb_exists. intros (x & Hx & E). destruct (list_eq_dec Z.eq_dec (fst x) k) as [Ek|]; [|discriminate].
  apply H. rewrite <- Ek. now apply in_map.
Qed.
Definition converts {V} (e : enc) (f : json -> outcome V) (a : list Z * json) (b : list Z * V) : Prop :=
  same_text e (fst a) (fst b) /\ f (snd a) = Return (snd b).
Lemma convert_entries_exact {V} sg e (f : json -> outcome V) : forall m acc es done,
  NoDup (map fst (done ++ m)) -> Forall2 (fun a b => same_text e (fst a) (fst b)) done acc -> Forall2 (converts e f) m es ->
  convert_entries sg e f m acc = Return (acc ++ es).
Proof.
  induction m as [|[k v] m IH]; intros acc es done HN HD HF; inversion HF as [|? [w x] ? es' [HS HX] HF']; subst.
  - cbn. now rewrite app_nil_r.
  - cbn [fst snd] in HS, HX. cbn [convert_entries]. rewrite (same_text_convert e sg k w HS), HX.
    rewrite emplaced_new.
    + rewrite (IH (acc ++ [(w, x)]) es' (done ++ [(k, v)])).
      * now rewrite <- app_assoc.
      * now rewrite <- app_assoc.
      * apply Forall2_app; [assumption|]. constructor; [assumption|constructor].
      * assumption.
    + intros HI. apply in_map_iff in HI. destruct HI as ([w' x'] & Ew & HI). cbn [fst] in Ew. subst w'.
      assert (HB : exists k', In k' (map fst done) /\ same_text e k' w).
      { clear - HD HI. induction HD as [|[a av] [b bv] d l Hab _ IHd]; [destruct HI|]. destruct HI as [E|HI].
        - injection E as -> ->. exists a. split; [now left|assumption].
        - destruct (IHd HI) as (k' & A & B). exists k'. split; [now right|assumption]. }
      destruct HB as (k' & HI' & HS'). assert (k' = k) by (eapply same_text_inj; eassumption). subst k'.
      rewrite map_app in HN. cbn [map fst] in HN. apply NoDup_remove_2 in HN. apply HN. apply in_or_app. now left.
Qed.
Lemma sorted_keys_nodup m : sorted_keys m -> NoDup (map fst m).
Proof.
  induction m as [|[k v] m IH]; [constructor|]. intros [HA HS]. cbn [map fst]. constructor; [|auto].
  intros HI. apply in_map_iff in HI. destruct HI as ([k' v'] & E & HI). cbn [fst] in E. subst k'.
  rewrite Forall_forall in HA. specialize (HA _ HI). cbn [fst] in HA. clear - HA. induction k as [|c k IH]; cbn in HA; [assumption|]. destruct HA as [|[_ H]]; [lia|auto].
Qed.
(** Reading an object out as a map keeps every entry, under the same key in the other encoding. *)
Theorem wide_map_exact : forall V sg e (f : json -> outcome V) m es, sorted_keys m -> Forall2 (converts e f) m es ->
  to_map sg e f (JObject m) = Return es /\ NoDup (map fst es).
Proof.
  intros V sg e f m es HS HF. split.
  - cbn [to_map as_object]. now rewrite (convert_entries_exact sg e f m [] es [] (sorted_keys_nodup m HS) (Forall2_nil _) HF).
  - apply sorted_keys_nodup in HS. clear - HS HF. induction HF as [|[k v] [w x] m es [HA _] HF IH]; [constructor|]. cbn [map fst] in *.
    inversion HS as [|? ? HNI HS']; subst. constructor; [|auto]. intros HI. apply HNI.
    apply in_map_iff in HI. destruct HI as ([w' x'] & Ew & HI). cbn [fst] in Ew. subst w'.
    clear - HF HA HI. induction HF as [|[a av] [b bv] d l [Hab _] _ IHd]; [destruct HI|]. destruct HI as [E|HI]; [|right; auto].
    injection E as -> ->. left. cbn [fst] in *. eapply same_text_inj; eassumption.
Qed.
(** It is refused exactly if the value is no object or, its keys being UTF-8, the first entry that does not convert is refused. *)
Theorem wide_map_refused : forall V sg e (f : json -> outcome V) j ex, (forall m, j = JObject m -> Forall (fun a => utf8_text (fst a)) m) ->
  (to_map sg e f j = Throw ex <->
   ((forall m, j <> JObject m) /\ ex = JsonException) \/
   exists a k v b, j = JObject (a ++ (k, v) :: b) /\ f v = Throw ex /\ Forall (fun x => exists y, f (snd x) = Return y) a).
Proof.
  intros V sg e f j ex HK. destruct j as [|s|m|l|b|z|z|g]; cbn [to_map as_object];
    try (split; [intros E; injection E as <-; left; split; [discriminate|reflexivity]|intros [[_ ->]|(a & k & v & b' & E & _)]; [reflexivity|discriminate]]).
  specialize (HK m eq_refl).
  assert (G : forall acc, convert_entries sg e f m acc = Throw ex <->
    exists a k v b, m = a ++ (k, v) :: b /\ f v = Throw ex /\ Forall (fun x => exists y, f (snd x) = Return y) a).
  { induction HK as [|[k v] m Hk _ IH]; intros acc; cbn [convert_entries].
    - split; [discriminate|]. intros (a & k & v & b & E & _). destruct a; discriminate.
    - destruct (utf8_text_same e k Hk) as [w HS]. rewrite (same_text_convert e sg k w HS).
      destruct (f v) as [x|ex'|] eqn:EV.
      + rewrite IH. split.
        * intros (a & k' & v' & b & -> & H1 & H2). exists ((k, v) :: a), k', v', b. split; [reflexivity|]. split; [assumption|]. constructor; [now exists x|assumption].
        * intros (a & k' & v' & b & E & H1 & H2). destruct a as [|p a].
          -- cbn in E. injection E as E1 E2 E3. subst. congruence.
          -- cbn in E. injection E as E1 E2. subst. inversion H2; subst. exists a, k', v', b. auto.
      + split.
        * intros E. injection E as ->. exists [], k, v, m. auto.
        * intros (a & k' & v' & b & E & H1 & H2). destruct a as [|p a].
          -- cbn in E. injection E as E1 E2 E3. subst. congruence.
          -- cbn in E. injection E as E1 E2. subst. inversion H2 as [|? ? [y Hy]]; subst. cbn [snd] in Hy. congruence.
      + split; [discriminate|]. intros (a & k' & v' & b & E & H1 & H2). destruct a as [|p a].
        -- cbn in E. injection E as E1 E2 E3. subst. congruence.
        -- cbn in E. injection E as E1 E2. subst. inversion H2 as [|? ? [y Hy]]; subst. cbn [snd] in Hy. congruence. }
  rewrite (G []). split; [|intros [[H _]|(a & k & v & b & E & H)]].
  - intros (a & k & v & b & -> & H). right. exists a, k, v, b. auto.
  - now destruct (H m).
  - injection E as ->. exists a, k, v, b. auto.
Qed.
(** Constructing an object from a map with keys of another encoding: each key stands for what it denotes; of two keys that denote
    the same, the first counts. *)
Definition denotes_wide (e : enc) (w k : list Z) : Prop := exists cs, Forall scalar cs /\ w = text (form e) cs /\ literal (text utf8 cs) k.
Theorem wide_map_construct : forall sg e es ks, Forall (fun x => units_ok e (fst x)) es ->
  Forall2 (fun x k => denotes_wide e (fst x) k) es ks ->
  exists m, of_map sg e es [] = Return (JObject m) /\ sorted_keys m /\ forall k, bound m k = bound (combine ks (map snd es)) k.
Proof.
  intros sg e es ks HU HF.
  assert (G : forall m, sorted_keys m -> of_map sg e es m = Return (JObject (insert_all m (combine ks (map snd es))))).
  { induction HF as [|[t v] k es ks HN HF IH]; intros m HS; [reflexivity|]. inversion HU as [|? ? HU1 HU2]; subst. cbn [of_map].
    cbn [fst] in *. assert (EK : wide_to_string sg e t = Some k) by (apply wide_construct; [assumption|exact HN]).
    rewrite EK. rewrite IH; [reflexivity|assumption|].
    pose proof (map_insert_spec k v m HS) as HI. destruct (map_insert k v m) as [m' [p new]]. now destruct HI. }
  eexists. split; [apply G; exact I|]. destruct (insert_all_spec (combine ks (map snd es)) [] I) as (S1 & _ & B). split; assumption.
Qed.
Theorem wide_map_construct_refused : forall sg e es x, Forall (fun x => units_ok e (fst x)) es ->
  In x es -> (forall k, ~ denotes_wide e (fst x) k) -> of_map sg e es [] = Throw JsonException.
Proof.
  intros sg e es x HU HI HN. generalize (@nil (list Z * json)). induction HU as [|[t v] es HU1 _ IH]; [destruct HI|]. intros m. cbn [of_map fst] in *.
  destruct (wide_to_string sg e t) as [k|] eqn:EK; [|reflexivity]. destruct HI as [<-|HI]; [|auto].
  apply wide_construct in EK; [|assumption]. now destruct (HN k).
Qed.
(** A map whose keys have nothing JSON escapes comes back with the same entries. *)
Theorem wide_map_round_trip : forall sg e e' es, NoDup (map fst es) ->
  Forall (fun x => exists cs, Forall scalar cs /\ Forall plain cs /\ fst x = text (form e) cs) es ->
  exists m out, of_map sg e es [] = Return (JObject m) /\ to_map sg e' (fun v => Return v) (JObject m) = Return out /\
    forall cs v, Forall scalar cs -> (In (text (form e) cs, v) es <-> In (text (form e') cs, v) out).
Proof.
  intros sg e e' es HN HP.
  assert (HK : exists ks, Forall2 (fun x k => same_text e k (fst x) /\ literal k k) es ks).
  { clear HN. induction HP as [|x es (cs & HF & HC & E) _ (ks & IH)]; [now exists []|]. exists (text utf8 cs :: ks). constructor; [|assumption].
    split; [now exists cs|now apply plain_literal]. }
  destruct HK as (ks & HK).
  destruct (wide_map_construct sg e es ks) as (m & EM & HS & HB).
  { eapply Forall_impl; [|exact HP]. intros x (cs & HF & _ & ->). now apply text_units. }
  { clear - HK. induction HK as [|x k es ks [(cs & HF & -> & E) HL] _ IH]; constructor; [|assumption]. now exists cs. }
  assert (HIN : forall k v, In (k, v) m <-> In (k, v) (combine ks (map snd es))).
  { intros k v. rewrite <- bound_in by assumption. rewrite HB. clear - HN HK.
    induction HK as [|[w x] k' es ks [HA _] HK IH]; [cbn; split; [discriminate|tauto]|]. cbn [map fst combine snd] in *.
    inversion HN as [|? ? HNI HN']; subst. specialize (IH HN'). cbn [bound In]. destruct (same_key k k') as [->|NE].
    - split; [intros E; injection E as ->; now left|]. intros [E|HI]; [congruence|]. exfalso. apply HNI.
      clear - HA HK HI. induction HK as [|[w0 x0] k0 es ks [HB _] _ IHK]; [destruct HI|]. cbn [combine map snd fst In] in *.
      destruct HI as [E|HI]; [|right; auto]. injection E as -> _. left. eapply same_text_fun; eassumption.
    - rewrite IH. split; [now right|]. intros [E|HI]; [congruence|assumption]. }
  assert (HU : Forall (fun a => utf8_text (fst a)) m).
  { apply Forall_forall. intros [k v] HI. apply HIN in HI. apply in_combine_l in HI. cbn [fst]. clear - HK HI.
    induction HK as [|x k' es ks [(cs & HF & -> & _) _] _ IH]; [destruct HI|]. destruct HI as [<-|HI]; [now exists cs|auto]. }
  assert (HO : exists out, Forall2 (converts e' (fun v => Return v)) m out).
  { clear - HU. induction HU as [|[k v] m Hk _ (out & IH)]; [now exists []|]. destruct (utf8_text_same e' k Hk) as [w HS].
    exists ((w, v) :: out). constructor; [split; [assumption|reflexivity]|assumption]. }
  destruct HO as (out & HO).
  exists m, out. split; [assumption|]. split; [now apply wide_map_exact|].
  intros cs v HF.
  assert (H1 : In (text (form e) cs, v) es <-> In (text utf8 cs, v) (combine ks (map snd es))).
  { clear - HK HF. induction HK as [|[w x] k es ks [HA _] _ IH]; [cbn; tauto|]. cbn [combine map snd fst In] in *. rewrite IH.
    apply or_iff_compat_r. split; intros E; injection E as -> ->; f_equal.
    - destruct HA as (ds & HD & -> & E). apply text_inj in E; auto. now rewrite E.
    - destruct HA as (ds & HD & E & ->). apply (text_inj (U8 true)) in E; auto. now rewrite E. }
  assert (H2 : In (text utf8 cs, v) m <-> In (text (form e') cs, v) out).
  { clear - HO HF. induction HO as [|[k x] [w y] m out [HA E0] _ IH]; [cbn; tauto|]. cbn [snd fst In] in *. injection E0 as ->. rewrite IH.
    apply or_iff_compat_r. split; intros E; injection E as -> ->; f_equal.
    - destruct HA as (ds & HD & E & ->). apply (text_inj (U8 true)) in E; auto. now rewrite E.
    - destruct HA as (ds & HD & -> & E). apply text_inj in E; auto. now rewrite E. }
  rewrite H1, <- HIN. exact H2.
Qed.

(** * Numbers *)
Lemma ascii_text e l : Forall (fun c => 0 <= c < 128) l -> text (form e) l = l.
Proof. induction 1 as [|c l Hc _ IH]; [reflexivity|]. unfold text in *. cbn [flat_map]. now rewrite form_ascii, IH. Qed.
(** Text in any encoding converts to an integer exactly as the same characters do in char. *)
Theorem wide_number : forall w is_signed sg e s v, 1 <= w -> units_ok e s ->
  (convert_wide w is_signed sg e s = Some v <->
   int_ok w is_signed v /\ exists digits, digits <> [] /\ Forall (digit_of 10 false) digits /\
     ((s = digits /\ v = positional_value 10 digits) \/
      (is_signed = true /\ s = 45 :: digits /\ v = - positional_value 10 digits))).
Proof.
  intros w is_signed sg e s v Hw HU.
  assert (HA : forall d t, Forall (digit_of 10 false) d -> t = d \/ t = 45 :: d -> Forall scalar t /\ forall e, text (form e) t = t).
  { intros d t HD HT. assert (HL : Forall (fun c => 0 <= c < 128) t).
    { assert (Forall (fun c => 0 <= c < 128) d) by (eapply Forall_impl; [|exact HD]; intros c Hc; unfold digit_of in Hc; lia).
      destruct HT as [-> | ->]; [assumption|constructor; [lia|assumption]]. }
    split; [eapply Forall_impl; [|exact HL]; intros c Hc; unfold scalar; cbn beta in Hc; lia|]. intros e0. now apply ascii_text. }
  unfold convert_wide. split.
  - destruct (Unicode_Model.convert e (U8 sg) s) as [t|] eqn:EC; [|discriminate]. intros E. apply convert_exact_int in E; [|assumption].
    destruct E as (HI & d & HN & HD & HC). split; [assumption|]. exists d. split; [assumption|]. split; [assumption|].
    destruct (HA d t HD ltac:(tauto)) as [HS HT].
    assert (s = t); [|now subst].
    destruct (convert_round_trip e (U8 sg) s t HU EC) as (_ & _ & EB). rewrite <- (HT (U8 sg)) in EB at 1. rewrite convert_exact in EB by assumption.
    rewrite HT in EB. congruence.
  - intros (HI & d & HN & HD & HC). destruct (HA d s HD ltac:(tauto)) as [HS HT].
    assert (EC : Unicode_Model.convert e (U8 sg) s = Some s) by (rewrite <- (HT e) at 1; rewrite convert_exact by assumption; now rewrite HT).
    rewrite EC. apply convert_exact_int; [assumption|]. split; [assumption|]. now exists d.
Qed.
(** An integer read out as text of any encoding, and that text converted, is the integer. *)
Theorem wide_number_round_trip : forall fp w is_signed sg e v, native_int w -> int_ok w is_signed v ->
  exists t, to_wide fp sg e (of_integer is_signed v) = Ok (Return t) /\ convert_wide w is_signed sg e t = Some v.
Proof.
  intros fp w is_signed sg e v Hw Hv. destruct (integer_round_trip w is_signed v fp Hw Hv) as [_ (t & E & H)]. exists t.
  split; [destruct is_signed; exact E|]. cbn [to_integer] in H. destruct (Format_Model.convert w is_signed t) as [x|] eqn:EC; [|discriminate]. injection H as ->.
  apply convert_exact_int in EC; [|unfold native_int in Hw; lia].
  apply wide_number; [unfold native_int in Hw; lia| |exact EC].
  destruct EC as (_ & d & _ & HD & HC). assert (HL : Forall (unit_ok e) d /\ unit_ok e 45).
  { split; [eapply Forall_impl; [|exact HD]; intros c Hc|]; unfold unit_ok; [unfold digit_of in Hc|]; destruct e; lia. }
  destruct HC as [[-> _]|(_ & -> & _)]; [apply HL|constructor; apply HL].
Qed.

(** * Examples *)
(** "é\n" in UTF-16 (the escape is two units), and a pizza; a lone surrogate and a quotation mark are refused. *)
Example C68_strings : wide_to_string true U16 [0xe9; 92; 110; 0xd83c; 0xdf55] = Some [0xc3; 0xa9; 10; 0xf0; 0x9f; 0x8d; 0x95] /\
  wide_to_string true U16 [0xd83c] = None /\ wide_to_string true U32 [34] = None /\
  to_wide (FpText (fun _ => None) (fun _ => [])) true U16 (JString [0xc3; 0xa9; 10; 0xf0; 0x9f; 0x8d; 0x95]) = Ok (Return [0xe9; 10; 0xd83c; 0xdf55]) /\
  to_wide (FpText (fun _ => None) (fun _ => [])) true U32 (JSigned (-12)) = Ok (Return [45; 49; 50]).
Proof. repeat split; vm_compute; reflexivity. Qed.
(** Keys in order of their UTF-8, read out into the order they were stored. *)
Example C68_map : let o := [([97], JNull); ([0xc3; 0xa9], JBool true)] in
  sorted_keys o /\ of_map true U16 [([0xe9], JBool true); ([97], JNull)] [] = Return (JObject o) /\
  to_map true U32 (fun v => Return v) (JObject o) = Return [([97], JNull); ([0xe9], JBool true)] /\
  Forall2 (converts U32 (fun v => Return v)) o [([97], JNull); ([0xe9], JBool true)].
Proof.
  cbv zeta. split; [cbn [sorted_keys fst key_lt]; repeat split; repeat constructor; cbn; lia|]. split; [reflexivity|]. split; [reflexivity|].
  constructor; [|constructor; [|constructor]]; (split; [|reflexivity]); cbn [fst].
  - exists [97]. split; [repeat constructor; unfold scalar; lia|split; reflexivity].
  - exists [0xe9]. split; [repeat constructor; unfold scalar; lia|split; reflexivity].
Qed.
(** Two keys that denote the same: the first counts. *)
Example C68_map_collision : of_map true U16 [([97], JNull); ([92; 117; 48; 48; 54; 49], JBool true)] [] = Return (JObject [([97], JNull)]).
Proof. vm_compute. reflexivity. Qed.
Example C68_number : convert_wide 16 true true U16 [45; 49; 50] = Some (-12) /\ convert_wide 8 false true U32 [50; 53; 54] = None /\
  convert_wide 8 false true U16 [0xff11] = None.
Proof. repeat split; vm_compute; reflexivity. Qed.
Print Assumptions wide_map_round_trip.
Print Assumptions wide_number_round_trip.
