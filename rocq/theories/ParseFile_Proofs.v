(** C39: lemmas about byte order marks. *)
From Verif Require Import Common Bits BitStream_Model Endian_Proofs Unicode_Spec Unicode_Model Unicode_Props Json_Model Json_Order_Proofs.
From Verif Require Import Json_String_Proofs ParseFile_Model ParseFile_Spec.

Lemma eqb_list a b : string_eqb a b = true <-> a = b.
Proof. revert b; induction a as [|x a IH]; intros [|y b]; cbn [string_eqb]; split; try discriminate; try reflexivity.
  - rewrite andb_true_iff, Z.eqb_eq, IH. intros [-> ->]. reflexivity.
  - intros H. injection H as -> ->. rewrite andb_true_iff, Z.eqb_eq. split; [reflexivity|]. now apply IH.
Qed.
Lemma prefix_firstn p s : prefix_of p s <-> (length p <= length s)%nat /\ firstn (length p) s = p.
Proof.
  split.
  - intros (r & ->). rewrite app_length, firstn_app, Nat.sub_diag, firstn_all, firstn_O, app_nil_r. split; [lia|reflexivity].
  - intros [_ H]. exists (skipn (length p) s). rewrite <- H at 1. symmetry. apply firstn_skipn.
Qed.
Definition at_start (file : list Z) (s : istream) : Prop :=
  contents s = file /\ unread s = file /\ (good s = true \/ file = []).
Lemma check_bom_hit b file s : at_start file s -> Forall byte b -> b <> [] -> prefix_of b file ->
  check_bom b s = (true, Istream file (skipn (length b) file) false false).
Proof.
  intros (EC & EU & HG) HB HN HP. unfold check_bom, stream_peek. rewrite EU, EC.
  destruct HG as [HG| ->]; [|destruct HP as (r & E); destruct b; [congruence|discriminate]]. rewrite HG.
  pose proof (proj1 (prefix_firstn _ _) HP) as [HL HF]. destruct HP as (r & E). destruct b as [|x b]; [congruence|]. rewrite E at 1. cbn [app hd].
  pose proof (Forall_inv HB) as Hx. unfold byte in Hx. unfold u8, wrap. rewrite (Z.mod_small x) by (change (2 ^ 8) with 256; lia). rewrite Z.eqb_refl.
  unfold stream_read. rewrite HG, EU, EC. rewrite (proj2 (Nat.leb_le _ _) HL). cbn [usable failbit negb andb]. rewrite HF, Nat.eqb_refl.
  rewrite (proj2 (eqb_list _ _) eq_refl). reflexivity.
Qed.
Lemma check_bom_miss b file s : at_start file s -> Forall byte file -> ~ prefix_of b file ->
  exists s', check_bom b s = (false, s') /\ at_start file s'.
Proof.
  intros (EC & EU & HG) HB HN. unfold check_bom.
  assert (P : exists c s', stream_peek s = (c, s') /\ at_start file s').
  { unfold stream_peek. rewrite EU, EC. destruct (good s) eqn:EG.
    - destruct file as [|c r]; eexists; eexists; (split; [reflexivity|]); unfold at_start; cbn [contents unread]; auto.
    - eexists; eexists; (split; [reflexivity|]). unfold at_start; cbn [contents unread]. destruct HG as [HG|HG]; [discriminate|]. auto. }
  destruct P as (c & s1 & -> & EC1 & EU1 & HG1). destruct (u8 c =? hd 0 b); [|exists s1; split; [reflexivity|split; auto]].
  assert (R : exists data s2, stream_read (length b) s1 = (data, s2) /\ contents s2 = file /\ (usable s2 && ((length data =? length b)%nat && string_eqb data b) = false)).
  { unfold stream_read. rewrite EC1, EU1. destruct (good s1).
    - destruct (Nat.leb_spec (length b) (length file)).
      + eexists; eexists; (split; [reflexivity|]). split; [reflexivity|]. cbn [usable failbit negb andb].
        destruct (string_eqb (firstn (length b) file) b) eqn:E; [|apply andb_false_r]. apply eqb_list in E. exfalso. apply HN. apply prefix_firstn. auto.
      + eexists; eexists; (split; [reflexivity|]). split; reflexivity.
    - eexists; eexists; (split; [reflexivity|]). split; reflexivity. }
  destruct R as (data & s2 & -> & E2 & ->). exists (clear_and_rewind s2). split; [reflexivity|].
  unfold at_start, clear_and_rewind. rewrite E2. cbn. auto.
Qed.
Lemma at_start_open file : at_start file (open_stream file).
Proof. unfold at_start; cbn; auto. Qed.
Lemma prefix_dec p s : {prefix_of p s} + {~ prefix_of p s}.
Proof.
  revert s; induction p as [|x p IH]; intros s; [left; exists s; reflexivity|]. destruct s as [|y s]; [right; intros (r & E); discriminate|].
  destruct (Z.eq_dec x y) as [->|N]; [|right; intros (r & E); injection E; congruence].
  destruct (IH s) as [H|H]; [left; destruct H as (r & ->); exists r; reflexivity|right; intros (r & E); injection E as ->; apply H; exists r; reflexivity].
Qed.
Ltac byte_list := repeat (constructor; [unfold byte; lia|]); constructor.
Ltac hit A := rewrite (check_bom_hit _ _ _ A) by (byte_list || discriminate || assumption); reflexivity.
Ltac no_prefix := let r := fresh in let r' := fresh in let E := fresh in let E' := fresh in intros (r & E); 
  match goal with H : prefix_of _ _ |- _ => destruct H as (r' & E') end; rewrite E' in E; discriminate E.
Lemma detect file : Forall byte file ->
  match prefix_dec utf8_bom file with
  | left _ => parse_byte_order_mark (open_stream file) = (EUTF8, Istream file (skipn 3 file) false false)
  | right _ =>
  match prefix_dec (bom UTF32BE) file with
  | left _ => parse_byte_order_mark (open_stream file) = (EUTF32BigEndian, Istream file (skipn 4 file) false false)
  | right _ =>
  match prefix_dec (bom UTF32LE) file with
  | left _ => parse_byte_order_mark (open_stream file) = (EUTF32LittleEndian, Istream file (skipn 4 file) false false)
  | right _ =>
  match prefix_dec (bom UTF16BE) file with
  | left _ => parse_byte_order_mark (open_stream file) = (EUTF16BigEndian, Istream file (skipn 2 file) false false)
  | right _ =>
  match prefix_dec (bom UTF16LE) file with
  | left _ => parse_byte_order_mark (open_stream file) = (EUTF16LittleEndian, Istream file (skipn 2 file) false false)
  | right _ => exists s, parse_byte_order_mark (open_stream file) = (EUTF8, s) /\ at_start file s
  end end end end end.
Proof.
  intros HB. pose proof (at_start_open file) as A. unfold parse_byte_order_mark.
  destruct (prefix_dec utf8_bom file) as [P|P]; [hit A|]. destruct (check_bom_miss _ _ _ A HB P) as (s1 & E1 & A1). unfold s_utf8_bom. unfold utf8_bom in E1. rewrite E1. clear E1.
  destruct (prefix_dec (bom UTF32BE) file) as [P1|P1]; [hit A1|]. destruct (check_bom_miss _ _ _ A1 HB P1) as (s2 & E1 & A2). unfold s_utf32_be_bom. cbn [bom] in E1. rewrite E1. clear E1.
  destruct (prefix_dec (bom UTF32LE) file) as [P2|P2]; [hit A2|]. destruct (check_bom_miss _ _ _ A2 HB P2) as (s3 & E1 & A3). unfold s_utf32_le_bom. cbn [bom] in E1. rewrite E1. clear E1.
  destruct (prefix_dec (bom UTF16BE) file) as [P3|P3]; [hit A3|]. destruct (check_bom_miss _ _ _ A3 HB P3) as (s4 & E1 & A4). unfold s_utf16_be_bom. cbn [bom] in E1. rewrite E1. clear E1.
  destruct (prefix_dec (bom UTF16LE) file) as [P4|P4]; [hit A4|]. destruct (check_bom_miss _ _ _ A4 HB P4) as (s5 & E1 & A5). unfold s_utf16_le_bom. cbn [bom] in E1. rewrite E1. clear E1.
  eauto.
Qed.

(** * Code units *)
Lemma be16 a b : byte a -> byte b ->
  Z.lor (Z.lor 0 (wrap 16 (Z.shiftl (Z.land a 255) 8))) (wrap 16 (Z.shiftl (Z.land b 255) 0)) = a * 256 + b.
Proof.
  unfold byte. intros Ha Hb. change 255 with (2 ^ 8 - 1). rewrite !land_mask by lia. rewrite !Z.mod_small by (change (2 ^ 8) with 256; lia).
  rewrite !Z.shiftl_mul_pow2 by lia. unfold wrap. change (2 ^ 16) with 65536. change (2 ^ 8) with 256. change (2 ^ 0) with 1. rewrite !Z.mod_small by lia.
  rewrite Z.lor_0_l. rewrite (lor_high_low _ _ 8); [lia|lia|change (2 ^ 8) with 256; apply Z.mod_mul; lia|change (2 ^ 8) with 256; lia].
Qed.
Lemma be32 a b c d : byte a -> byte b -> byte c -> byte d ->
  Z.lor (Z.lor (Z.lor (Z.lor 0 (wrap 32 (Z.shiftl (Z.land a 255) 24))) (wrap 32 (Z.shiftl (Z.land b 255) 16))) (wrap 32 (Z.shiftl (Z.land c 255) 8))) (wrap 32 (Z.shiftl (Z.land d 255) 0))
  = a * 16777216 + b * 65536 + c * 256 + d.
Proof.
  unfold byte. intros Ha Hb Hc Hd. change 255 with (2 ^ 8 - 1). rewrite !land_mask by lia. rewrite !Z.mod_small by (change (2 ^ 8) with 256; lia).
  rewrite !Z.shiftl_mul_pow2 by lia. unfold wrap. change (2 ^ 32) with 4294967296. change (2 ^ 24) with 16777216. change (2 ^ 16) with 65536. change (2 ^ 8) with 256. change (2 ^ 0) with 1.
  rewrite !Z.mod_small by lia. rewrite Z.lor_0_l.
  rewrite (lor_high_low (a * 16777216) _ 24); [|lia|change (2 ^ 24) with 16777216; apply Z.mod_mul; lia|change (2 ^ 24) with 16777216; lia].
  rewrite (lor_high_low (_ + _) (c * 256) 16); [|lia|change (2 ^ 16) with 65536; dlia|change (2 ^ 16) with 65536; lia].
  rewrite (lor_high_low _ (d * 1) 8); [lia|lia|change (2 ^ 8) with 256; dlia|change (2 ^ 8) with 256; lia].
Qed.
Lemma swap16 a b : byte a -> byte b -> endian_swap 2 (a * 256 + b) = b * 256 + a.
Proof.
  unfold byte. intros Ha Hb. cbn [endian_swap]. rewrite byte_swap16_fields. unfold field. cbn [le_value]. change (2 ^ 8) with 256. change (2 ^ 0) with 1. dlia.
Qed.
Lemma swap32 a b c d : byte a -> byte b -> byte c -> byte d ->
  endian_swap 4 (a * 16777216 + b * 65536 + c * 256 + d) = d * 16777216 + c * 65536 + b * 256 + a.
Proof.
  unfold byte. intros Ha Hb Hc Hd. cbn [endian_swap]. rewrite byte_swap32_fields. unfold field. cbn [le_value].
  change (2 ^ 24) with 16777216. change (2 ^ 16) with 65536. change (2 ^ 8) with 256. change (2 ^ 0) with 1. dlia.
Qed.
Definition opened (u f : list Z) : istream := Istream f u false false.
Lemma read_unit16 f a b r : byte a -> byte b -> read_unit 2 2 (opened (a :: b :: r) f) 0 = (a * 256 + b, opened r f).
Proof.
  intros Ha Hb. pose proof (be16 a b Ha Hb) as E. unfold opened.
  cbn [read_unit usable failbit negb stream_get good eofbit andb unread contents]. change (8 * Z.of_nat 2) with 16. change (8 * Z.of_nat 1) with 8. change (8 * Z.of_nat 0) with 0. now rewrite E.
Qed.
Lemma read_unit16_short f r : (length r < 2)%nat -> usable (snd (read_unit 2 2 (opened r f) 0)) = false.
Proof. intros H. destruct r as [|a [|b r]]; [reflexivity|reflexivity|cbn in H; lia]. Qed.
Lemma read_unit32 f a b c d r : byte a -> byte b -> byte c -> byte d ->
  read_unit 4 4 (opened (a :: b :: c :: d :: r) f) 0 = (a * 16777216 + b * 65536 + c * 256 + d, opened r f).
Proof.
  intros Ha Hb Hc Hd. pose proof (be32 a b c d Ha Hb Hc Hd) as E. unfold opened.
  cbn [read_unit usable failbit negb stream_get good eofbit andb unread contents].
  change (8 * Z.of_nat 4) with 32. change (8 * Z.of_nat 3) with 24. change (8 * Z.of_nat 2) with 16. change (8 * Z.of_nat 1) with 8. change (8 * Z.of_nat 0) with 0. now rewrite E.
Qed.
Lemma read_unit32_short f r : (length r < 4)%nat -> usable (snd (read_unit 4 4 (opened r f) 0)) = false.
Proof. intros H. destruct r as [|a [|b [|c [|d r]]]]; [reflexivity|reflexivity|reflexivity|reflexivity|cbn in H; lia]. Qed.

Definition little (e : scheme) : bool := match e with UTF16LE | UTF32LE => true | _ => false end.
Lemma unit_read e u f r : unit_range e u ->
  exists v, read_unit (unit_size e) (unit_size e) (opened (unit_bytes e u ++ r) f) 0 = (v, opened r f) /\
    (if little e then endian_swap (unit_size e) v else v) = u.
Proof.
  intros HU. unfold unit_range in HU.
  assert (B : forall x, byte (x mod 256)) by (intros x; unfold byte; apply Z.mod_pos_bound; lia).
  destruct e; cbn [unit_bytes unit_size bytes16 bytes32 rev app little].
  - assert (byte (u / 256)) by (unfold byte; dlia). eexists. split; [now apply read_unit16|]. dlia.
  - assert (byte (u / 256)) by (unfold byte; dlia). eexists. split; [now apply read_unit16|]. rewrite swap16 by auto. dlia.
  - assert (byte (u / 16777216)) by (unfold byte; dlia). eexists. split; [now apply read_unit32|]. dlia.
  - assert (byte (u / 16777216)) by (unfold byte; dlia). eexists. split; [now apply read_unit32|]. rewrite swap32 by auto. dlia.
Qed.
Lemma unit_short e f r : (length r < unit_size e)%nat -> usable (snd (read_unit (unit_size e) (unit_size e) (opened r f) 0)) = false.
Proof. destruct e; [apply read_unit16_short|apply read_unit16_short|apply read_unit32_short|apply read_unit32_short]. Qed.
Lemma units_read e f tail : (length tail < unit_size e)%nat -> forall us fuel, Forall (unit_range e) us -> (length us + 2 <= fuel)%nat ->
  read_units fuel (unit_size e) (little e) (opened (flat_map (unit_bytes e) us ++ tail) f) = us.
Proof.
  intros HT. induction us as [|u us IH]; intros fuel HU HF.
  - destruct fuel as [|[|fuel]]; [cbn in HF; lia|cbn in HF; lia|]. cbn [flat_map app]. cbn [read_units]. change (usable (opened tail f)) with true. cbv iota.
    pose proof (unit_short e f tail HT) as E. destruct (read_unit _ _ _ _) as [v s]. cbn [snd] in E. now rewrite E.
  - destruct fuel as [|fuel]; [cbn in HF; lia|]. inversion HU; subst. cbn [flat_map read_units]. rewrite <- app_assoc. change (usable (opened _ f)) with true. cbv iota.
    destruct (unit_read e u f (flat_map (unit_bytes e) us ++ tail)) as (v & E & EV); [assumption|]. rewrite E. change (usable (opened _ f)) with true. cbv iota. rewrite EV. f_equal.
    apply IH; [assumption|]. cbn [length] in HF. lia.
Qed.
Lemma units_split e : forall n bs, (length bs <= n)%nat -> Forall byte bs -> exists us tail, bs = flat_map (unit_bytes e) us ++ tail /\ Forall (unit_range e) us /\ (length tail < unit_size e)%nat.
Proof.
  induction n as [|n IH]; intros bs HL HB; [exists [], bs; split; [reflexivity|]; split; [constructor|]; destruct e; cbn [unit_size]; lia|].
  assert (STEP : forall x r, bs = x ++ r -> (0 < length x)%nat -> (exists u, x = unit_bytes e u /\ unit_range e u) ->
     exists us tail, bs = flat_map (unit_bytes e) us ++ tail /\ Forall (unit_range e) us /\ (length tail < unit_size e)%nat).
  { intros x r -> Hx (u & -> & HU). rewrite app_length in HL. apply Forall_app in HB. destruct (IH r) as (us & tail & -> & HUs & HT); [lia|apply HB|].
    exists (u :: us), tail. split; [cbn [flat_map]; now rewrite app_assoc|]. split; [now constructor|assumption]. }
  assert (SHORT : (length bs < unit_size e)%nat -> exists us tail, bs = flat_map (unit_bytes e) us ++ tail /\ Forall (unit_range e) us /\ (length tail < unit_size e)%nat).
  { intros HS. exists [], bs. split; [reflexivity|]. split; [constructor|assumption]. }
  destruct e; cbn [unit_size unit_bytes unit_range] in *; unfold bytes16, bytes32 in *.
  1,2: destruct bs as [|a [|b r]]; [apply SHORT; cbn; lia|apply SHORT; cbn; lia|]; inversion HB as [|? ? Ha HB1]; subst; inversion HB1 as [|? ? Hb HB2]; subst; unfold byte in Ha, Hb;
    apply (STEP [a; b] r); [reflexivity|cbn; lia|].
  - exists (a * 256 + b). split; [|unfold unit_range; lia]. f_equal; [dlia|]. f_equal; dlia.
  - exists (b * 256 + a). split; [|unfold unit_range; lia]. cbn [rev app]. f_equal; [dlia|]. f_equal; dlia.
  - destruct bs as [|a [|b [|c [|d r]]]]; try (apply SHORT; cbn; lia). inversion HB as [|? ? Ha HB1]; subst. inversion HB1 as [|? ? Hb HB2]; subst. inversion HB2 as [|? ? Hc HB3]; subst. inversion HB3 as [|? ? Hd HB4]; subst. unfold byte in *.
    apply (STEP [a; b; c; d] r); [reflexivity|cbn; lia|]. exists (a * 16777216 + b * 65536 + c * 256 + d). split; [|unfold unit_range; lia]. f_equal; [dlia|]. f_equal; [dlia|]. f_equal; [dlia|]. f_equal; dlia.
  - destruct bs as [|a [|b [|c [|d r]]]]; try (apply SHORT; cbn; lia). inversion HB as [|? ? Ha HB1]; subst. inversion HB1 as [|? ? Hb HB2]; subst. inversion HB2 as [|? ? Hc HB3]; subst. inversion HB3 as [|? ? Hd HB4]; subst. unfold byte in *.
    apply (STEP [a; b; c; d] r); [reflexivity|cbn; lia|]. exists (d * 16777216 + c * 65536 + b * 256 + a). split; [|unfold unit_range; lia]. cbn [rev app]. f_equal; [dlia|]. f_equal; [dlia|]. f_equal; [dlia|]. f_equal; dlia.
Qed.
