(** Proofs about the bit stream model. *)
From Verif Require Import Common Bits BitStream_Model Endian_Proofs BitStream_Spec.

(** * Specification helpers agree with the bit lemmas *)
Lemma spec_bits_eq n v : spec_bits n v = bits_msb n v.
Proof.
  induction n as [|n IH]; [reflexivity|]. rewrite bits_msb_S. cbn [spec_bits]. rewrite IH. f_equal.
  rewrite <- Z.shiftr_div_pow2 by lia. rewrite <- Z.bit0_odd, Z.shiftr_spec by lia. reflexivity.
Qed.

Lemma spec_value_eq l : spec_value l = bval l.
Proof.
  unfold spec_value.
  assert (H : forall l a, fold_left (fun acc (b : bool) => 2 * acc + (if b then 1 else 0)) l a
                     = a * 2 ^ Z.of_nat (length l) + bval l).
  { clear l. induction l as [|b l IH]; intros a; [cbn; lia|].
    cbn [fold_left]. rewrite IH. cbn [length bval]. rewrite Nat2Z.inj_succ, Z.pow_succ_r by lia.
    destruct b; cbn [Z.b2z]; lia. }
  rewrite H. lia.
Qed.

Lemma spec_file_bits_eq l : spec_file_bits l = bytes_bits l.
Proof.
  unfold spec_file_bits, bytes_bits. induction l as [|b l IH]; [reflexivity|].
  cbn [flat_map]. rewrite IH. f_equal. exact (spec_bits_eq 8 b).
Qed.

(** * Small arithmetic facts *)
Lemma u8_small v : 0 <= v < 256 -> u8 v = v.
Proof. intros. unfold u8, wrap. apply Z.mod_small. change (2 ^ 8) with 256. lia. Qed.

Lemma bit_mask_ok w k : 0 < w <= 64 -> 0 <= k <= w -> bit_mask w k = Ok (2 ^ k - 1).
Proof.
  intros Hw Hk. unfold bit_mask. destruct (Z.eqb_spec k 0) as [->|Hk0]; [reflexivity|].
  unfold shr.
  destruct (Z.leb_spec 0 (w - k)); [|lia].
  destruct (Z.ltb_spec (w - k) (Z.max w 32)); [|lia]. cbn [andb]. f_equal.
  rewrite Z.shiftr_div_pow2 by lia.
  replace w with (k + (w - k)) at 1 by lia. rewrite pow2_add by lia.
  pose proof (pow2_pos (w - k) ltac:(lia)). pose proof (pow2_pos k ltac:(lia)).
  symmetry. apply Z.div_unique with (r := 2 ^ (w - k) - 1); lia.
Qed.

Lemma shr_ok w v k : 0 <= k < w -> shr w v k = Ok (v / 2 ^ k).
Proof.
  intros H. unfold shr. destruct (Z.leb_spec 0 k); [|lia]. destruct (Z.ltb_spec k w); [|lia].
  cbn [andb]. now rewrite Z.shiftr_div_pow2 by lia.
Qed.

Lemma shl_ok w v k : 0 <= k < w -> shl w v k = Ok ((v * 2 ^ k) mod 2 ^ w).
Proof.
  intros H. unfold shl, wrap. destruct (Z.leb_spec 0 k); [|lia]. destruct (Z.ltb_spec k w); [|lia].
  cbn [andb]. now rewrite Z.shiftl_mul_pow2 by lia.
Qed.

Lemma pow2_le a b : 0 <= a <= b -> 2 ^ a <= 2 ^ b.
Proof. intros. apply Z.pow_le_mono_r; lia. Qed.

(** * Writer invariant *)
Record winv (w : writer) (body : list Z) : Prop := {
  wi_h : exists h, os_data (w_out w) = h :: body;
  wi_end : os_pos (w_out w) = length (os_data (w_out w));
  wi_good : os_good (w_out w) = true;
  wi_cap : os_cap (w_out w) = None;
  wi_pos : 0 <= w_position w <= 64;
  wi_buf : 0 <= w_buffer w < 2 ^ 64;
  wi_low : w_buffer w mod 2 ^ w_position w = 0;
  wi_bytes : Forall (fun b => 0 <= b < 256) body;
  wi_len : Z.of_nat (length body) mod 8 = 0;
}.

Definition wbits (w : writer) (body : list Z) : list bool :=
  bytes_bits body ++ bits_msb (Z.to_nat (64 - w_position w)) (w_buffer w / 2 ^ w_position w).

Lemma overwrite_end d bs : overwrite d (length d) bs = d ++ bs.
Proof. unfold overwrite. rewrite firstn_all, skipn_all2 by lia. now rewrite app_nil_r. Qed.

Lemma flush_end hb o n v k :
  swap_size n -> 0 <= v < 2 ^ (8 * Z.of_nat n) ->
  os_pos o = length (os_data o) -> os_good o = true -> os_cap o = None ->
  flush hb o n v k =
  let bs := firstn (Z.to_nat k) (rev (le_bytes n v)) in
  {| os_data := os_data o ++ bs; os_pos := length (os_data o ++ bs);
     os_good := true; os_cap := None |}.
Proof.
  intros Hn Hv Hp Hg Hc. unfold flush, sputn. rewrite Hg, Hc, mem_store_big by assumption.
  rewrite Hp, overwrite_end, app_length. reflexivity.
Qed.

Lemma write_bits_ok hb w body width v size :
  winv w body -> api_width width -> 0 <= size <= width -> 0 <= v < 2 ^ size ->
  ~ (size = 64 /\ w_position w = 0) -> ~ (size = 0 /\ w_position w = 64) ->
  exists w' body', write_bits hb w width v size = Ok w' /\ winv w' body' /\
    wbits w' body' = wbits w body ++ bits_msb (Z.to_nat size) v /\
    (0 < size -> w_position w' < 64).
Proof.
  intros I Hw Hs Hv N1 N2.
  assert (Hw64 : 0 < width <= 64) by (unfold api_width in Hw; lia).
  destruct I as [[h Hh] He Hg Hc Hp Hb Hl Hby Hlen].
  destruct w as [o buf p]; cbn [w_out w_buffer w_position] in *.
  unfold write_bits; cbn [w_out w_buffer w_position].
  destruct (Z.gtb_spec size p) as [Hgt|Hle].
  - (* split write *)
    set (r := size - p) in *.
    rewrite (u8_small r) by lia. rewrite shr_ok by lia. cbn [bind].
    assert (Hhi : 0 <= v / 2 ^ r < 2 ^ p).
    { pose proof (pow2_pos r ltac:(lia)). split; [apply Z.div_pos; lia|].
      apply Z.div_lt_upper_bound; [lia|]. rewrite <- pow2_add by lia.
      replace (r + p) with size by lia. lia. }
    rewrite (lor_high_low _ _ p) by (assumption || lia).
    rewrite bit_mask_ok by lia. cbn [bind].
    unfold flush_buffer; cbn [w_out w_buffer w_position].
    assert (Hbuf : 0 <= buf + v / 2 ^ r < 2 ^ 64).
    { pose proof (pow2_pos p ltac:(lia)).
      pose proof (Z.div_mod buf (2 ^ p) ltac:(lia)) as D. rewrite Hl, Z.add_0_r in D. rewrite D, Z.mul_comm.
      apply high_low_lt; [lia|now apply div_pow_lt|assumption]. }
    rewrite flush_end by (assumption || (unfold swap_size; lia)). cbn zeta.
    change (Z.to_nat 8) with 8%nat.
    assert (L8 : length (rev (le_bytes 8 (buf + v / 2 ^ r))) = 8%nat)
      by (rewrite rev_length; apply le_bytes_length).
    rewrite firstn_all2 by lia.
    unfold s_msb_position. rewrite (u8_small (64 - r)) by lia.
    rewrite land_mask by lia.
    rewrite shl_ok by lia. cbn [bind].
    assert (Hlo : 0 <= v mod 2 ^ r < 2 ^ r) by (apply Z.mod_pos_bound, pow2_pos; lia).
    assert (Hlo2 : 0 <= (v mod 2 ^ r) * 2 ^ (64 - r) < 2 ^ 64).
    { apply (mul_pow_lt _ r); lia. }
    rewrite Z.mod_small by assumption. rewrite Z.lor_0_l.
    eexists _, (body ++ rev (le_bytes 8 (buf + v / 2 ^ r))).
    split; [reflexivity|]. split; [constructor; cbn [w_out w_buffer w_position os_data os_pos os_good os_cap]|split].
    + exists h. rewrite Hh. reflexivity.
    + reflexivity.
    + reflexivity.
    + reflexivity.
    + lia.
    + assumption.
    + apply Z.mod_mul. pose proof (pow2_pos (64 - r)). lia.
    + apply Forall_app. split; [assumption|apply Forall_rev, le_bytes_byte].
    + rewrite app_length, L8. dlia.
    + unfold wbits; cbn [w_buffer w_position]. rewrite bytes_bits_app, bytes_bits_be.
      rewrite <- !app_assoc. f_equal.
      replace (64 - (64 - r)) with r by lia.
      rewrite Z.div_mul by (pose proof (pow2_pos (64 - r)); lia).
      replace (8 * 8)%nat with (Z.to_nat (64 - p) + Z.to_nat p)%nat by lia.
      rewrite bits_msb_app. rewrite Z.shiftr_div_pow2 by lia.
      rewrite Z2Nat.id by lia. rewrite <- app_assoc.
      pose proof (pow2_pos p ltac:(lia)).
      f_equal.
      * f_equal. pose proof (Z.div_mod buf (2 ^ p) ltac:(lia)) as D. rewrite Hl in D.
        rewrite D at 1. rewrite Z.add_0_r, Z.mul_comm, Z.div_add_l by lia.
        rewrite (Z.div_small (v / 2 ^ r)) by lia. lia.
      * replace (Z.to_nat size) with (Z.to_nat p + Z.to_nat r)%nat by lia.
        rewrite bits_msb_app, Z.shiftr_div_pow2 by lia. rewrite (Z2Nat.id r) by lia.
        f_equal; [|apply bits_msb_mod; lia].
        rewrite <- (bits_msb_mod _ p (buf + _)) by lia.
        rewrite <- Z.add_mod_idemp_l by lia. rewrite Hl, Z.add_0_l. apply bits_msb_mod. lia.
    + intros _; cbn [w_position]. lia.
  - cbn [bind w_out w_buffer w_position]. rewrite u8_small by lia.
    rewrite shl_ok by lia. cbn [bind].
    set (q := p - size) in *.
    assert (Hv2 : 0 <= v * 2 ^ q < 2 ^ p).
    { apply (mul_pow_lt _ size); lia. }
    pose proof (pow2_le p 64 ltac:(lia)).
    rewrite (Z.mod_small (v * 2 ^ q)) by lia.
    rewrite (lor_high_low _ _ p) by (assumption || lia).
    pose proof (pow2_pos p ltac:(lia)) as Pp. pose proof (pow2_pos q ltac:(lia)) as Pq.
    pose proof (pow2_pos size ltac:(lia)) as Ps.
    pose proof (Z.div_mod buf (2 ^ p) ltac:(lia)) as D. rewrite Hl, Z.add_0_r in D.
    assert (Epq : 2 ^ p = 2 ^ size * 2 ^ q) by (rewrite <- pow2_add by lia; f_equal; lia).
    assert (Hbuf : 0 <= buf + v * 2 ^ q < 2 ^ 64).
    { rewrite D, Z.mul_comm. apply high_low_lt; [lia|now apply div_pow_lt|assumption]. }
    eexists _, body. split; [reflexivity|].
    assert (E : buf + v * 2 ^ q = (buf / 2 ^ p * 2 ^ size + v) * 2 ^ q).
    { rewrite D at 1. rewrite Epq. lia. }
    split; [constructor; cbn [w_out w_buffer w_position]; try assumption; try lia|split].
    + exists h. assumption.
    + rewrite E. apply Z.mod_mul. lia.
    + unfold wbits; cbn [w_buffer w_position]. rewrite <- app_assoc. f_equal.
      rewrite E, Z.div_mul by lia.
      replace (Z.to_nat (64 - q)) with (Z.to_nat (64 - p) + Z.to_nat size)%nat by lia.
      rewrite bits_msb_app, Z.shiftr_div_pow2 by lia. rewrite Z2Nat.id by lia.
      f_equal.
      * f_equal. rewrite Z.div_add_l by lia. rewrite (Z.div_small v) by lia. lia.
      * rewrite <- (bits_msb_mod _ size) by lia.
        rewrite Z.add_comm, Z.mod_add by lia. rewrite bits_msb_mod by lia. reflexivity.
    + intros _; cbn [w_position]. lia.
Qed.

Lemma wbits_length w body : winv w body ->
  Z.of_nat (length (wbits w body)) = 8 * Z.of_nat (length body) + (64 - w_position w).
Proof.
  intros I. unfold wbits. rewrite app_length, bytes_bits_length, bits_msb_length.
  pose proof (wi_pos _ _ I). lia.
Qed.

(** * finish *)
Lemma finish_ok hb w body : winv w body ->
  (os_data (w_out w) = [208] -> body = []) /\
  forall h0, os_data (w_out w) = h0 :: body -> h0 = 208 ->
  exists pad body', (pad < 8)%nat /\
    finish hb w = ({| w_out := {| os_data := (208 + Z.of_nat pad) :: body';
                                  os_pos := if w_position w =? 64 then length (208 :: body) else 1%nat;
                                  os_good := true; os_cap := None |};
                      w_buffer := 0; w_position := 64 |}, true) /\
    Forall (fun b => 0 <= b < 256) body' /\
    bytes_bits body' = wbits w body ++ repeat false pad.
Proof.
  intros I. split.
  { intros E. destruct (wi_h _ _ I) as [h Hh]. congruence. }
  intros h0 Hh0 ->.
  destruct I as [_ He Hg Hc Hp Hb Hl Hby Hlen].
  destruct w as [o buf p]; cbn [w_out w_buffer w_position] in *.
  unfold finish; cbn [w_out w_buffer w_position].
  unfold s_msb_position, s_bits_per_byte.
  rewrite (u8_small (64 - p)) by lia.
  destruct (Z.gtb_spec (64 - p) 0) as [Hgt|Hle].
  - set (k := 64 - p) in *.
    rewrite (u8_small (k + p mod 8)) by dlia.
    replace (k + p mod 8 - k) with (p mod 8) by lia.
    rewrite (u8_small (p mod 8)) by dlia.
    rewrite flush_end by (try assumption; unfold swap_size; try lia).
    cbn zeta.
    set (bs := firstn _ _).
    exists (Z.to_nat (p mod 8)), (body ++ bs). split; [dlia|].
    split; [|split].
    + destruct (Z.eqb_spec p 64); [lia|].
      unfold flush_header, flush, seek0, sputn; cbn [os_data os_pos os_good os_cap].
      assert (Hr : 0 <= p mod 8 < 8) by dlia.
      rewrite Z2Nat.id by lia.
      assert (E : u8 (Z.lor (Z.shiftl s_magic s_magic_shift) (Z.shiftl (p mod 8) s_remainder_shift))
                  = 208 + p mod 8).
      { unfold s_magic, s_magic_shift, s_remainder_shift. rewrite Z.shiftl_0_r.
        change (Z.shiftl 26 3) with 208.
        rewrite (lor_high_low 208 (p mod 8) 3) by (reflexivity || lia). apply u8_small. lia. }
      rewrite E. rewrite mem_store_big; [|unfold swap_size; lia|change (2 ^ (8 * Z.of_nat 1)) with 256; lia].
      cbn [le_bytes rev app firstn Z.to_nat Pos.to_nat Pos.iter_op length].
      change (Pos.to_nat 1) with 1%nat. cbn [firstn].
      rewrite (Z.mod_small (208 + p mod 8)) by lia. cbn [length].
      unfold overwrite. cbn [firstn app length plus skipn]. rewrite Hh0. cbn [skipn app].
      reflexivity.
    + apply Forall_app. split; [assumption|]. unfold bs.
      pose proof (Forall_rev (le_bytes_byte 8 buf)) as F.
      rewrite Forall_forall in F |- *. intros x Hx. apply F.
      rewrite <- (firstn_skipn (Z.to_nat ((k + p mod 8) / 8))). apply in_or_app. now left.
    + unfold wbits; cbn [w_buffer w_position].
      rewrite bytes_bits_app, <- app_assoc. f_equal. unfold bs.
      rewrite bytes_bits_firstn, bytes_bits_be.
      set (n := Z.to_nat ((k + p mod 8) / 8)).
      assert (Hn : (8 * n = Z.to_nat (64 - p) + Z.to_nat (p mod 8))%nat) by dlia.
      replace (8 * 8)%nat with (8 * n + (64 - 8 * n))%nat by dlia.
      rewrite bits_msb_app. rewrite firstn_app, bits_msb_length.
      replace (8 * n - 8 * n)%nat with 0%nat by lia. cbn [firstn]. rewrite app_nil_r.
      rewrite firstn_all2 by (rewrite bits_msb_length; lia).
      rewrite Hn at 1. rewrite bits_msb_app.
      pose proof (pow2_pos p ltac:(lia)).
      f_equal.
      * rewrite !Z.shiftr_div_pow2 by lia. rewrite Z.div_div by (try apply pow2_pos; try lia; pose proof (pow2_pos (Z.of_nat (64 - 8 * n)) ltac:(lia)); lia).
        rewrite <- pow2_add by lia. f_equal. f_equal. f_equal. dlia.
      * apply bits_msb_testbit_false. intros i Hi.
        rewrite Z.shiftr_spec by lia.
        rewrite <- (Z.mod_pow2_bits_low buf p) by dlia. rewrite Hl. apply Z.bits_0.
  - assert (p = 64) by lia. subst p. exists 0%nat, body. split; [lia|].
    assert (buf = 0) by (rewrite Z.mod_small in Hl by lia; lia). subst buf.
    split; [|split; [assumption|]].
    + cbn [w_out Z.eqb Pos.eqb]. rewrite Hg. destruct o as [d ps g c]; cbn in *. subst. reflexivity.
    + unfold wbits; cbn [w_buffer w_position repeat]. rewrite !app_nil_r. reflexivity.
Qed.

(** * Reader *)
Record rinv (r : reader) : Prop := {
  ri_pos : 0 <= r_position r <= 64;
  ri_buf : 0 <= r_buffer r < 2 ^ 64;
  ri_rem : 0 <= r_remainder r < 8;
  ri_bytes : Forall (fun b => 0 <= b < 256) (is_rest (r_in r));
}.

(** Payload bits still in the stream: everything but the trailing padding. *)
Definition stream_bits (s : istream) (rem : Z) : list bool :=
  if is_good s then firstn (8 * length (is_rest s) - Z.to_nat rem) (bytes_bits (is_rest s)) else [].

Definition rbits (r : reader) : list bool :=
  bits_msb (Z.to_nat (r_position r)) (r_buffer r) ++ stream_bits (r_in r) (r_remainder r).

Lemma bits_msb_firstn n m v : (m <= n)%nat ->
  firstn m (bits_msb n v) = bits_msb m (v / 2 ^ Z.of_nat (n - m)).
Proof.
  intros H. replace n with (m + (n - m))%nat at 1 by lia.
  rewrite bits_msb_app, firstn_app, bits_msb_length.
  replace (m - m)%nat with 0%nat by lia. cbn [firstn]. rewrite app_nil_r.
  rewrite firstn_all2 by (rewrite bits_msb_length; lia). now rewrite Z.shiftr_div_pow2 by lia.
Qed.

Lemma bits_msb_skipn n m v : (m <= n)%nat -> skipn m (bits_msb n v) = bits_msb (n - m) v.
Proof.
  intros H. replace n with (m + (n - m))%nat at 1 by lia.
  rewrite bits_msb_app, skipn_app, bits_msb_length.
  replace (m - m)%nat with 0%nat by lia.
  rewrite skipn_all2 by (rewrite bits_msb_length; lia). reflexivity.
Qed.

Lemma Forall_firstn {A} (P : A -> Prop) k l : Forall P l -> Forall P (firstn k l).
Proof.
  intros H. rewrite <- (firstn_skipn k l), Forall_app in H. tauto.
Qed.
Lemma Forall_skipn {A} (P : A -> Prop) k l : Forall P l -> Forall P (skipn k l).
Proof.
  intros H. rewrite <- (firstn_skipn k l), Forall_app in H. tauto.
Qed.

Lemma repeat_byte n : Forall (fun b => 0 <= b < 256) (repeat 0 n).
Proof. induction n; constructor; [lia|assumption]. Qed.

(** fill: the value read is the big-endian number of the bytes, left-aligned. *)
Lemma fill_ok hb s n k : swap_size n -> 0 <= k <= Z.of_nat n ->
  Forall (fun b => 0 <= b < 256) (is_rest s) -> is_good s = true ->
  let got := firstn (Z.to_nat k) (is_rest s) in
  fill hb s n k =
   (bval (bytes_bits got) * 2 ^ (8 * Z.of_nat (n - length got)),
    {| is_rest := skipn (Z.to_nat k) (is_rest s); is_good := true |},
    Z.of_nat (length got)).
Proof.
  intros Hn Hk HF Hg got. unfold fill. rewrite Hg. fold got.
  assert (Hl : (length got <= n)%nat) by (unfold got; rewrite firstn_length; lia).
  assert (HF1 : Forall (fun b => 0 <= b < 256) got) by now apply Forall_firstn.
  f_equal; [f_equal|].
  - rewrite mem_load_big; [|assumption|rewrite app_length, repeat_length; lia|].
    2:{ apply Forall_app; split; [assumption|apply repeat_byte]. }
    rewrite le_value_rev_bits by (apply Forall_app; split; [assumption|apply repeat_byte]).
    rewrite bytes_bits_app, bval_app, bytes_bits_length, repeat_length.
    replace (bval (bytes_bits (repeat 0 (n - length got)))) with 0.
    2:{ generalize (n - length got)%nat as m. induction m as [|m IH]; [reflexivity|].
        change (bytes_bits (repeat 0 (S m))) with (bits_msb 8 0 ++ bytes_bits (repeat 0 m)).
        rewrite bval_app, <- IH, bval_bits_msb, Zmod_0_l. lia. }
    rewrite Z.add_0_r. f_equal. f_equal. lia.
  - apply u8_small. unfold swap_size in Hn. lia.
Qed.

Lemma refill_ok hb r : rinv r ->
  exists r', refill_buffer hb r = Ok r' /\ rinv r' /\ rbits r' = rbits r /\
    r_position r <= r_position r' /\
    (57 <= r_position r' \/ (stream_bits (r_in r') (r_remainder r') = [])) /\
    (bits_msb (Z.to_nat (r_position r)) (r_buffer r) =
       firstn (Z.to_nat (r_position r)) (bits_msb (Z.to_nat (r_position r')) (r_buffer r'))) /\
    r_header r' = r_header r /\ r_remainder r' = r_remainder r /\
    (is_good (r_in r) = true -> r_position r <= 56 -> is_rest (r_in r) <> [] -> r_position r < r_position r').
Proof.
  intros [Hp Hb Hr HF]. destruct r as [s b p h rem]; cbn [r_in r_buffer r_position r_header r_remainder] in *.
  unfold refill_buffer; cbn [r_in r_buffer r_position r_header r_remainder].
  unfold s_msb_position, s_bits_per_byte. rewrite (u8_small (64 - p)) by lia.
  destruct (is_good s) eqn:Hg.
  2:{ unfold fill. rewrite Hg. cbn [Z.gtb Z.compare].
      eexists. split; [reflexivity|]. split; [constructor; assumption|].
      cbn [r_in r_buffer r_position r_header r_remainder].
      split; [reflexivity|]. split; [lia|]. split.
      - right. unfold stream_bits. now rewrite Hg.
      - rewrite firstn_all2 by (rewrite bits_msb_length; lia). repeat split; try reflexivity. congruence. }
  rewrite fill_ok; [|unfold swap_size; lia|dlia|assumption|assumption]. cbn zeta.
  set (k := Z.to_nat ((64 - p) / 8)). set (got := firstn k (is_rest s)).
  set (m := length got).
  assert (Hm : (m <= k)%nat) by (unfold m, got; rewrite firstn_length; lia).
  destruct (Z.gtb_spec (Z.of_nat m) 0) as [Hgt|Hle].
  2:{ assert (Hgot : got = []) by (destruct got; [reflexivity|unfold m in *; cbn in *; lia]).
      assert (Hsk : is_rest s = [] \/ k = 0%nat).
      { unfold got in Hgot. destruct k; [now right|]. destruct (is_rest s); [now left|discriminate]. }
      assert (Hsk2 : skipn k (is_rest s) = is_rest s) by (destruct Hsk as [E|E]; rewrite E; [apply skipn_nil|reflexivity]).
      eexists. split; [reflexivity|].
      cbn [r_in r_buffer r_position r_header r_remainder]. rewrite Hsk2.
      split; [constructor; assumption|].
      unfold rbits, stream_bits. cbn [r_in r_buffer r_position r_header r_remainder is_good is_rest].
      rewrite Hg. split; [reflexivity|]. split; [lia|].
      split.
      - destruct Hsk as [E|E]; [right; rewrite E; reflexivity|left; dlia].
      - rewrite firstn_all2 by (rewrite bits_msb_length; lia). repeat split; try reflexivity.
        intros _ Hp56 Hne. destruct Hsk; [contradiction|dlia]. }
  assert (Hk8 : (8 * Z.of_nat k <= 64 - p)) by dlia.
  rewrite (u8_small (Z.of_nat m * 8)) by lia. rewrite (u8_small (p + Z.of_nat m * 8)) by lia.
  set (n8 := Z.of_nat m * 8) in *.
  rewrite shl_ok by lia. cbn [bind]. rewrite shl_ok by lia. cbn [bind].
  rewrite shr_ok by lia. cbn [bind].
  assert (Egot : bval (bytes_bits got) * 2 ^ (8 * Z.of_nat (8 - m)) / 2 ^ (64 - n8) = bval (bytes_bits got)).
  { replace (8 * Z.of_nat (8 - m)) with (64 - n8) by lia. apply Z.div_mul.
    pose proof (pow2_pos (64 - n8) ltac:(lia)). lia. }
  rewrite Egot.
  assert (Eshift : ((b * 2 ^ (n8 - 1)) mod 2 ^ 64 * 2 ^ 1) mod 2 ^ 64 = (b * 2 ^ n8) mod 2 ^ 64).
  { rewrite Zmult_mod_idemp_l. f_equal. replace n8 with (n8 - 1 + 1) at 2 by lia.
    rewrite pow2_add by lia. lia. }
  rewrite Eshift.
  pose proof (bval_bounds (bytes_bits got)) as Hbv. rewrite bytes_bits_length in Hbv. fold m in Hbv.
  replace (Z.of_nat (8 * m)) with n8 in Hbv by lia.
  pose proof (pow2_pos n8 ltac:(lia)) as Pn. pose proof (pow2_pos (64 - n8) ltac:(lia)) as Pn'.
  assert (E64 : 2 ^ 64 = 2 ^ n8 * 2 ^ (64 - n8)) by (rewrite <- pow2_add by lia; f_equal; lia).
  assert (Emod : ((b * 2 ^ n8) mod 2 ^ 64) = (b mod 2 ^ (64 - n8)) * 2 ^ n8).
  { rewrite E64. rewrite (Z.mul_comm (2 ^ n8) (2 ^ (64 - n8))). rewrite Z.mul_mod_distr_r by lia. reflexivity. }
  rewrite Emod. rewrite (lor_high_low _ _ n8); [|lia|apply Z.mod_mul; lia|assumption].
  set (b3 := b mod 2 ^ (64 - n8) * 2 ^ n8 + bval (bytes_bits got)).
  pose proof (Z.mod_pos_bound b (2 ^ (64 - n8)) Pn') as Hbm.
  assert (Hb3 : 0 <= b3 < 2 ^ 64) by (unfold b3; apply high_low_lt; [lia|exact Hbm|exact Hbv]).
  set (p1 := p + n8).
  assert (Hbits3 : bits_msb (Z.to_nat p1) b3 = bits_msb (Z.to_nat p) b ++ bytes_bits got).
  { replace (Z.to_nat p1) with (Z.to_nat p + length (bytes_bits got))%nat
      by (rewrite bytes_bits_length; fold m; lia).
    rewrite bits_msb_app. rewrite Z.shiftr_div_pow2 by lia.
    rewrite bytes_bits_length; fold m. replace (Z.of_nat (8 * m)) with n8 by lia.
    f_equal.
    - unfold b3. rewrite Z.div_add_l by lia. rewrite Z.div_small with (b := 2 ^ n8) by lia.
      rewrite Z.add_0_r. apply bits_msb_mod. lia.
    - transitivity (bits_msb (length (bytes_bits got)) (bval (bytes_bits got))); [|apply bits_msb_bval].
      rewrite bytes_bits_length; fold m.
      rewrite <- (bits_msb_mod _ n8) by lia. unfold b3. rewrite Z.add_comm, Z.mod_add by lia.
      apply bits_msb_mod. lia. }
  assert (Hsplit : bytes_bits (is_rest s) = bytes_bits got ++ bytes_bits (skipn k (is_rest s))).
  { rewrite <- bytes_bits_app. unfold got. now rewrite firstn_skipn. }
  assert (Hlen : length (is_rest s) = (m + length (skipn k (is_rest s)))%nat).
  { unfold m, got. rewrite firstn_length, skipn_length. lia. }
  destruct (skipn k (is_rest s)) as [|x rest'] eqn:Hsk; cbn [at_eof is_rest].
  - rewrite shr_ok by lia. cbn [bind]. unfold wrap.
    rewrite (u8_small (p1 - rem)) by lia.
    eexists. split; [reflexivity|]. unfold rbits, stream_bits.
    cbn [r_in r_buffer r_position r_header r_remainder is_good is_rest length].
    pose proof (pow2_pos rem ltac:(lia)).
    assert (Hfin : bits_msb (Z.to_nat (p1 - rem)) (b3 / 2 ^ rem)
              = firstn (Z.to_nat (p1 - rem)) (bits_msb (Z.to_nat p1) b3)).
    { rewrite bits_msb_firstn by lia. f_equal. f_equal. f_equal. lia. }
    split; [constructor; cbn [r_in r_buffer r_position r_header r_remainder is_good is_rest]; try lia; try constructor|].
    { apply Z.div_pos; lia. }
    { pose proof (div_pow_lt b3 rem 64 ltac:(lia) Hb3) as Hd. pose proof (pow2_le (64 - rem) 64 ltac:(lia)). lia. }
    split; [|split; [lia|split; [|split; [|split; [reflexivity|split; [reflexivity|intros; lia]]]]]].
    + rewrite firstn_nil, app_nil_r. rewrite Hfin, Hbits3, Hg.
      rewrite firstn_app, bits_msb_length.
      rewrite firstn_all2 by (rewrite bits_msb_length; lia). f_equal.
      rewrite Hsplit. cbn [bytes_bits flat_map]. rewrite app_nil_r. f_equal.
      rewrite Hlen. cbn [length]. lia.
    + right. rewrite firstn_nil. reflexivity.
    + rewrite Hfin, Hbits3. rewrite firstn_firstn, firstn_app, bits_msb_length.
      replace (Nat.min (Z.to_nat p) (Z.to_nat (p1 - rem))) with (Z.to_nat p) by lia.
      rewrite firstn_all2 by (rewrite bits_msb_length; lia).
      rewrite Nat.sub_diag. cbn [firstn]. now rewrite app_nil_r.
  - assert (Hmk : m = k).
    { assert (length (skipn k (is_rest s)) = S (length rest')) as L by now rewrite Hsk.
      rewrite skipn_length in L. unfold m, got. rewrite firstn_length. lia. }
    eexists. split; [reflexivity|]. unfold rbits, stream_bits.
    cbn [r_in r_buffer r_position r_header r_remainder is_good is_rest].
    split; [constructor; cbn [r_in r_buffer r_position r_header r_remainder is_good is_rest]; try lia|].
    { rewrite <- Hsk. now apply Forall_skipn. }
    split; [|split; [lia|split; [|split; [|split; [reflexivity|split; [reflexivity|intros; lia]]]]]].
    + rewrite Hg, Hbits3, <- app_assoc. f_equal. rewrite Hsplit, firstn_app, bytes_bits_length. fold m.
      rewrite (firstn_all2 (bytes_bits got)) by (rewrite bytes_bits_length; fold m; rewrite Hlen; cbn [length]; lia).
      f_equal. f_equal. rewrite Hlen. cbn [length]. lia.
    + left. dlia.
    + rewrite Hbits3, firstn_app, bits_msb_length.
      rewrite firstn_all2 by (rewrite bits_msb_length; lia).
      rewrite Nat.sub_diag. cbn [firstn]. now rewrite app_nil_r.
Qed.

Definition read_value (left : list bool) (size : nat) : Z :=
  bval (firstn size left ++ repeat false (size - length left)).

Lemma bval_repeat_false k : bval (repeat false k) = 0.
Proof. induction k; [reflexivity|]. cbn [repeat bval Z.b2z]. lia. Qed.

Lemma wrap_shl_ok w v k : 0 < w <= 64 -> 0 <= k < Z.max w 32 -> 0 <= v -> v * 2 ^ k < 2 ^ w ->
  shl (Z.max w 32) v k = Ok (v * 2 ^ k).
Proof.
  intros Hw Hk Hv Hlt. rewrite shl_ok by lia. f_equal. apply Z.mod_small.
  pose proof (pow2_le w (Z.max w 32) ltac:(lia)). pose proof (pow2_pos k ltac:(lia)). split; [apply Z.mul_nonneg_nonneg; lia|lia].
Qed.

Lemma wrap_small w v : 0 <= v < 2 ^ w -> wrap w v = v.
Proof. intros. now apply Z.mod_small. Qed.

Lemma peek_ok hb r width size :
  rinv r -> (width = 8 \/ width = 16 \/ width = 32) -> 0 <= size <= width ->
  ~ (size = 32 /\ rbits r = []) -> ~ (size = 0 /\ r_position r = 64) ->
  exists r', peek_bits hb r width size =
      Ok (read_value (rbits r) (Z.to_nat size),
          Z.of_nat (Nat.min (Z.to_nat size) (length (rbits r))), r') /\
    rinv r' /\ rbits r' = rbits r /\
    Z.of_nat (Nat.min (Z.to_nat size) (length (rbits r))) <= r_position r' /\
    r_header r' = r_header r /\ r_remainder r' = r_remainder r.
Proof.
  intros I Hw Hs Hn1 Hn2. pose proof (ri_pos _ I) as Hp.
  unfold peek_bits. destruct (Z.gtb_spec size (r_position r)) as [Hgt|Hle].
  - set (p := r_position r) in *. set (b := r_buffer r).
    rewrite (u8_small (size - p)) by lia. rewrite bit_mask_ok by lia. cbn [bind].
    rewrite land_mask by lia.
    assert (Eb0 : wrap width b mod 2 ^ p = bval (bits_msb (Z.to_nat p) b)).
    { rewrite <- (bits_msb_mod _ width b) by lia. rewrite bval_bits_msb.
      rewrite Z2Nat.id by lia. reflexivity. }
    rewrite Eb0. set (B := bits_msb (Z.to_nat p) b) in *.
    pose proof (bval_bounds B) as HB. unfold B in HB at 3. rewrite bits_msb_length, Z2Nat.id in HB by lia.
    set (l := size - p) in *.
    assert (HBl : 0 <= bval B * 2 ^ l < 2 ^ size) by (apply (mul_pow_lt _ p); lia).
    assert (HBl1 : 0 <= bval B * 2 ^ (l - 1) < 2 ^ (size - 1)) by (apply (mul_pow_lt _ p); lia).
    pose proof (pow2_le (size - 1) width ltac:(lia)) as Hsw1.
    pose proof (pow2_le size width ltac:(lia)) as Hsw.
    assert (El : 2 ^ l = 2 ^ (l - 1) * 2) by (replace l with (l - 1 + 1) at 1 by lia; rewrite pow2_add by lia; reflexivity).
    pose proof (pow2_pos (l - 1) ltac:(lia)) as Pl.
    assert (EBl : bval B * 2 ^ (l - 1) * 2 ^ 1 = bval B * 2 ^ l) by (rewrite El; change (2 ^ 1) with 2; lia).
    rewrite wrap_shl_ok by lia. cbn [bind].
    rewrite (wrap_small width (bval B * 2 ^ (l - 1))) by lia.
    rewrite wrap_shl_ok by lia. cbn [bind]. rewrite EBl.
    destruct (refill_ok hb r I) as (r1 & E & I1 & HR & Hmono & Hfull & HB1 & Hh & Hrem & _). rewrite E. cbn [bind].
    fold p b in HB1. fold B in HB1. fold p in Hmono. pose proof (ri_pos _ I1) as Hp1.
    set (p1 := r_position r1) in *. set (b1 := r_buffer r1) in *.
    rewrite (u8_small (p1 - p)) by lia.
    set (s1 := Z.min l (p1 - p)).
    assert (Hs1 : 0 <= s1 <= l /\ s1 <= p1 - p /\ (s1 = l \/ (s1 = p1 - p /\ p1 - p < l))) by lia.
    clearbody s1. assert (Hl' : l = size - p) by reflexivity. clearbody l.
    rewrite (u8_small (l - s1)) by lia. rewrite (u8_small (p1 - p - s1)) by lia.
    assert (Hrs : 0 <= p1 - p - s1 < 64) by lia.
    rewrite shr_ok by lia. cbn [bind]. rewrite bit_mask_ok by lia. cbn [bind]. rewrite land_mask by lia.
    assert (HRb : rbits r = bits_msb (Z.to_nat p1) b1 ++ stream_bits (r_in r1) (r_remainder r1))
      by (rewrite <- HR; reflexivity).
    set (A := bits_msb (Z.to_nat s1) (b1 / 2 ^ (p1 - p - s1))).
    assert (EA : wrap width (b1 / 2 ^ (p1 - p - s1)) mod 2 ^ s1 = bval A).
    { unfold A. rewrite <- (bits_msb_mod _ width) by lia. rewrite bval_bits_msb.
      rewrite Z2Nat.id by lia. reflexivity. }
    rewrite EA.
    pose proof (bval_bounds A) as HA. unfold A in HA at 3. rewrite bits_msb_length, Z2Nat.id in HA by lia.
    assert (HAl : 0 <= bval A * 2 ^ (l - s1) < 2 ^ l) by (apply (mul_pow_lt _ s1); lia).
    pose proof (pow2_pos (l - s1) ltac:(lia)) as Pls.
    pose proof (pow2_le l width ltac:(lia)) as Hlw.
    assert (Hshift : l - s1 < Z.max width 32).
    { destruct (Z.ltb_spec (l - s1) (Z.max width 32)); [assumption|exfalso].
      assert (size = 32) by lia. assert (p = 0) by lia. assert (s1 = 0) by lia.
      assert (p1 = 0) by lia. apply Hn1. split; [lia|].
      rewrite HRb. destruct Hfull as [|Hf]; [lia|]. rewrite Hf, H3. reflexivity. }
    rewrite wrap_shl_ok by lia. cbn [bind].
    rewrite (wrap_small width (bval B * 2 ^ l)) by lia.
    assert (HAB : bits_msb (Z.to_nat (p + s1)) (b1 / 2 ^ (p1 - p - s1)) = B ++ A).
    { replace (Z.to_nat (p + s1)) with (Z.to_nat p + Z.to_nat s1)%nat by lia.
      rewrite bits_msb_app, Z.shiftr_div_pow2 by lia. rewrite Z2Nat.id by lia. f_equal.
      rewrite HB1. rewrite bits_msb_firstn by lia.
      rewrite Z.div_div by (pose proof (pow2_pos (p1 - p - s1)); pose proof (pow2_pos s1); lia).
      rewrite <- pow2_add by lia. f_equal. f_equal. f_equal. lia. }
    assert (HBA : B ++ A = firstn (Z.to_nat (p + s1)) (bits_msb (Z.to_nat p1) b1)).
    { rewrite <- HAB, bits_msb_firstn by lia. f_equal. f_equal. f_equal. lia. }
    assert (HlenR : (length (rbits r) = Z.to_nat p1 + length (stream_bits (r_in r1) (r_remainder r1)))%nat)
      by (rewrite HRb, app_length, bits_msb_length; reflexivity).
    (* either everything requested was available, or the stream is exhausted *)
    assert (Hcase : s1 = l \/ (s1 = p1 - p /\ s1 < l /\ stream_bits (r_in r1) (r_remainder r1) = [])).
    { destruct (Z.leb_spec l (p1 - p)); [left; lia|right].
      split; [lia|]. split; [lia|]. destruct Hfull; [lia|assumption]. }
    rewrite (lor_high_low _ _ l); [|lia|apply Z.mod_mul; lia|exact HAl].
    assert (HAB2 : 0 <= bval B * 2 ^ l + bval A * 2 ^ (l - s1) < 2 ^ size).
    { apply high_low_lt; [lia|replace (size - l) with p by lia; exact HB|exact HAl]. }
    rewrite wrap_small by lia.
    rewrite (u8_small (p + s1)) by lia.
    exists r1. split; [|split; [assumption|split; [assumption|split; [|split; assumption]]]].
    + f_equal. f_equal. f_equal.
      * unfold read_value.
        assert (Hfn : firstn (Z.to_nat size) (rbits r) = B ++ A).
        { rewrite HRb, firstn_app, bits_msb_length.
          destruct Hcase as [Hc|(Hc1 & Hc2 & Hc3)].
          - replace (Z.to_nat size - Z.to_nat p1)%nat with 0%nat by lia. cbn [firstn].
            rewrite app_nil_r, HBA. f_equal. lia.
          - rewrite Hc3, firstn_nil, app_nil_r, HBA.
            rewrite (firstn_all2 (n := Z.to_nat size)) by (rewrite bits_msb_length; lia).
            rewrite firstn_all2 by (rewrite bits_msb_length; lia). reflexivity. }
        rewrite Hfn. rewrite bval_app, bval_repeat_false, repeat_length, Z.add_0_r, bval_app.
        unfold A at 2. rewrite bits_msb_length, Z2Nat.id by lia.
        replace (Z.of_nat (Z.to_nat size - length (rbits r))) with (l - s1).
        2:{ rewrite HlenR. destruct Hcase as [Hc|(Hc1 & Hc2 & Hc3)]; [|rewrite Hc3; cbn [length]]; lia. }
        rewrite Z.mul_add_distr_r. f_equal. rewrite <- Z.mul_assoc. f_equal.
        rewrite <- pow2_add by lia. f_equal. lia.
      * rewrite HlenR. destruct Hcase as [Hc|(Hc1 & Hc2 & Hc3)]; [|rewrite Hc3; cbn [length]]; lia.
    + rewrite HlenR. fold p1. destruct Hcase as [Hc|(Hc1 & Hc2 & Hc3)]; [|rewrite Hc3; cbn [length]]; lia.
  - cbn [bind]. rewrite Z.sub_0_r. set (p := r_position r) in *. set (b := r_buffer r).
    rewrite (u8_small (p - size)) by lia. rewrite shr_ok by lia. cbn [bind].
    rewrite bit_mask_ok by lia. cbn [bind]. rewrite land_mask by lia.
    set (A := bits_msb (Z.to_nat size) (b / 2 ^ (p - size))).
    assert (EA : wrap width (b / 2 ^ (p - size)) mod 2 ^ size = bval A).
    { unfold A. rewrite <- (bits_msb_mod _ width) by lia. rewrite bval_bits_msb.
      rewrite Z2Nat.id by lia. reflexivity. }
    rewrite EA.
    pose proof (bval_bounds A) as HA. unfold A in HA at 3. rewrite bits_msb_length, Z2Nat.id in HA by lia.
    pose proof (pow2_le size width ltac:(lia)) as Hsw.
    rewrite wrap_shl_ok by (change (2 ^ 0) with 1; lia). cbn [bind].
    change (2 ^ 0) with 1. rewrite Z.mul_1_r, Z.lor_0_l, wrap_small by lia.
    rewrite Z.add_0_l, (u8_small size) by lia.
    assert (HlenR : (length (rbits r) = Z.to_nat p + length (stream_bits (r_in r) (r_remainder r)))%nat)
      by (unfold rbits; rewrite app_length, bits_msb_length; reflexivity).
    exists r. split; [|split; [assumption|split; [reflexivity|split; [fold p; lia|split; reflexivity]]]].
    f_equal. f_equal. f_equal; [|lia].
    unfold read_value. rewrite HlenR. replace (Z.to_nat size - _)%nat with 0%nat by lia.
    cbn [repeat]. rewrite app_nil_r. f_equal.
    unfold rbits. fold p b. rewrite firstn_app, bits_msb_length.
    replace (Z.to_nat size - Z.to_nat p)%nat with 0%nat by lia. cbn [firstn]. rewrite app_nil_r.
    rewrite bits_msb_firstn by lia. unfold A. f_equal. f_equal. f_equal. lia.
Qed.

Lemma discard_ok r n : rinv r -> 0 <= n <= r_position r ->
  rinv (discard_bits r n) /\ rbits (discard_bits r n) = skipn (Z.to_nat n) (rbits r).
Proof.
  intros I Hn. destruct I as [Hp Hb Hr HF]. unfold discard_bits.
  rewrite u8_small by lia. split; [constructor; cbn; try assumption; lia|].
  unfold rbits; cbn [r_in r_buffer r_position r_header r_remainder].
  rewrite skipn_app, bits_msb_length, bits_msb_skipn by lia.
  replace (Z.to_nat n - Z.to_nat (r_position r))%nat with 0%nat by lia. cbn [skipn].
  f_equal. f_equal. lia.
Qed.

Lemma read_small_ok hb r width size :
  rinv r -> (width = 8 \/ width = 16 \/ width = 32) -> 0 <= size <= width ->
  ~ (size = 32 /\ rbits r = []) -> (size = 0 -> r_position r < 64) ->
  exists r', peek_bits hb r width size =
      Ok (read_value (rbits r) (Z.to_nat size),
          Z.of_nat (Nat.min (Z.to_nat size) (length (rbits r))), r') /\
      let r2 := discard_bits r' (Z.of_nat (Nat.min (Z.to_nat size) (length (rbits r)))) in
      rinv r2 /\ rbits r2 = skipn (Z.to_nat size) (rbits r) /\ r_position r2 < 64.
Proof.
  intros I Hw Hs Hn1 Hn2.
  destruct (peek_ok hb r width size I Hw Hs Hn1) as (r1 & E & I1 & R1 & P1 & _ & _); [lia|].
  exists r1. split; [assumption|]. cbn zeta.
  set (n := Z.of_nat _) in *.
  destruct (discard_ok r1 n I1) as [I2 R2]; [lia|].
  split; [assumption|]. split.
  - rewrite R2, R1. unfold n. rewrite Nat2Z.id.
    destruct (Nat.le_ge_cases (Z.to_nat size) (length (rbits r))).
    + f_equal. lia.
    + rewrite !skipn_all2 by lia. reflexivity.
  - unfold discard_bits; cbn [r_position]. pose proof (ri_pos _ I1).
    rewrite u8_small by lia.
    destruct (Z.eq_dec size 0) as [->|].
    + revert E. unfold peek_bits. destruct (Z.gtb_spec 0 (r_position r)); [pose proof (ri_pos _ I); lia|].
      cbn [bind]. intros E. specialize (Hn2 eq_refl).
      assert (r1 = r).
      { revert E. destruct (shr 64 (r_buffer r) _); [|discriminate]. cbn [bind].
        destruct (bit_mask width 0); [|discriminate]. cbn [bind].
        destruct (shl _ _ 0); [|discriminate]. cbn [bind]. intros E; inversion E; reflexivity. }
      subst. lia.
    + assert (0 < n \/ r_position r1 = 0); [|lia].
      destruct (Z.eq_dec (r_position r1) 0); [now right|left].
      assert (length (rbits r) <> 0%nat); [|lia].
      rewrite <- R1. unfold rbits. rewrite app_length, bits_msb_length. lia.
Qed.

(** read_bits for every width: the number read, and what is left. *)
Lemma read_bits_ok hb r width size :
  rinv r -> (r_position r = 64 -> 0 < size /\ (width = 64 -> 1 < size)) ->
  api_width width -> 0 <= size <= width ->
  ~ (width = 32 /\ size = 32 /\ rbits r = []) ->
  ~ (width = 64 /\ size = 64 /\ (length (rbits r) <= 32)%nat) ->
  ~ (width = 64 /\ size = 63 /\ (length (rbits r) <= 31)%nat) ->
  exists r', read_bits hb r width size =
      Ok (read_value (rbits r) (Z.to_nat size),
          Z.of_nat (Nat.min (Z.to_nat size) (length (rbits r))), r') /\
      rinv r' /\ rbits r' = skipn (Z.to_nat size) (rbits r) /\ r_position r' < 64.
Proof.
  intros I Hp Hw Hs N1 N2 N3. unfold read_bits.
  destruct (Z.eqb_spec width 64) as [->|Hne].
  - rewrite (u8_small (size / 2)) by dlia. rewrite (u8_small (size - size / 2)) by dlia.
    set (sh := size / 2). set (sl := size - sh).
    destruct (read_small_ok hb r 32 sh) as (r1 & E1 & I1 & R1 & P1); [assumption|lia|dlia| |pose proof (ri_pos _ I); dlia|].
    { intros [HH HR]. rewrite HR in N2, N3. cbn in *. dlia. }
    cbn zeta in I1, R1, P1.
    rewrite E1. cbn [bind].
    set (n1 := Z.of_nat (Nat.min (Z.to_nat sh) (length (rbits r)))) in *.
    destruct (read_small_ok hb (discard_bits r1 n1) 32 sl) as (r2 & E2 & I2 & R2 & P2); [assumption|lia|dlia| |lia|].
    { rewrite R1. intros [HH HR]. apply (f_equal (@length bool)) in HR. rewrite skipn_length in HR. cbn [length] in HR. dlia. }
    cbn zeta in I2, R2, P2.
    rewrite E2. cbn [bind]. rewrite R1 in *.
    set (n2 := Z.of_nat (Nat.min (Z.to_nat sl) _)) in *.
    rewrite shl_ok by dlia. cbn [bind].
    eexists. split; [|split; [exact I2|split; [|exact P2]]].
    2:{ rewrite R2, skipn_add. f_equal. dlia. }
    assert (Hlen : length (skipn (Z.to_nat sh) (rbits r)) = (length (rbits r) - Z.to_nat sh)%nat) by apply skipn_length.
    f_equal. f_equal. f_equal.
    + set (X := read_value (rbits r) (Z.to_nat sh)).
      set (Y := read_value (skipn (Z.to_nat sh) (rbits r)) (Z.to_nat sl)).
      assert (HX : 0 <= X < 2 ^ sh).
      { unfold X, read_value. pose proof (bval_bounds (firstn (Z.to_nat sh) (rbits r) ++ repeat false (Z.to_nat sh - length (rbits r)))) as B.
        rewrite app_length, firstn_length, repeat_length in B.
        replace (Z.of_nat _) with sh in B by dlia. exact B. }
      assert (HY : 0 <= Y < 2 ^ sl).
      { unfold Y, read_value. match goal with |- 0 <= bval ?l < _ => pose proof (bval_bounds l) as B end.
        rewrite app_length, firstn_length, repeat_length in B.
        replace (Z.of_nat _) with sl in B by dlia. exact B. }
      pose proof (pow2_pos sl ltac:(dlia)).
      rewrite Z.mod_small.
      2:{ pose proof (pow2_le size 64 ltac:(lia)).
          pose proof (mul_pow_lt X sh sl size ltac:(dlia) ltac:(dlia) HX ltac:(lia)). lia. }
      rewrite (lor_high_low _ _ sl); [|dlia|apply Z.mod_mul; lia|assumption].
      unfold X, Y, read_value. rewrite !bval_app, !bval_repeat_false, !repeat_length, !Z.add_0_r.
      replace (Z.to_nat size) with (Z.to_nat sh + Z.to_nat sl)%nat by dlia.
      set (R := rbits r) in *. set (a := Z.to_nat sh) in *. set (c := Z.to_nat sl) in *.
      rewrite firstn_add, bval_app, firstn_length, Hlen.
      rewrite Z.mul_add_distr_r, <- !Z.mul_assoc, <- !pow2_add by dlia.
      replace (Z.of_nat (a - length R) + sl) with (Z.of_nat (Nat.min c (length R - a)) + Z.of_nat (a + c - length R)) by dlia.
      destruct (Nat.le_ge_cases a (length R)).
      * replace (c - (length R - a))%nat with (a + c - length R)%nat by lia. reflexivity.
      * rewrite skipn_all2 by lia. rewrite firstn_nil. cbn [bval]. lia.
    + unfold n1, n2. rewrite Hlen. rewrite u8_small by dlia. dlia.
  - assert (Hw' : width = 8 \/ width = 16 \/ width = 32) by (unfold api_width in Hw; lia).
    destruct (read_small_ok hb r width size) as (r1 & E1 & I1 & R1 & P1); [assumption|assumption|assumption| |pose proof (ri_pos _ I); lia|].
    { intros [HH HR]. apply N1. split; [lia|]. split; assumption. }
    cbn zeta in I1, R1, P1.
    rewrite E1. cbn [bind]. eexists. split; [reflexivity|]. split; [exact I1|split; assumption].
Qed.

Lemma read_value_spec R size : spec_read R size = (read_value R size, Z.of_nat (Nat.min size (length R))).
Proof.
  unfold spec_read, read_value. rewrite spec_value_eq, firstn_length. f_equal. f_equal. f_equal. f_equal. lia.
Qed.
