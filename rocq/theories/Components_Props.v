(** C75: the components do what their configuration says. *)
From Coq Require Import Ascii String SpecFloat.
From Verif Require Import Common Bits Format_Spec BitStream_Model Json_Spec Json_Model JsonApi_Spec Json_Token_Proofs Json_String_Proofs JsonApi_Model JsonApi_Proofs JsonApi_Props JsonConv_Model JsonConv_Props Ini_Model.
From Verif Require Import Huffman_Model Huffman_Spec Huffman_Props Config_Model Config_Spec Config_Props Components_Spec Components_Model.
Open Scope Z_scope.

(** The getter of each setting. *)
Definition read (sg : bool) (t : setting) : config -> outcome Z :=
  match t with
  | EncoderChunkSize => huffman_encoder_chunk_size sg
  | EncoderCodeLength => huffman_encoder_max_code_length sg
  | LogFileSize => max_log_file_size sg
  | LogMessageSize => max_message_size sg
  | SocketWaitTime => socket_io_wait_time sg
  | PacketSize => packet_size sg
  | PathPollInterval => path_poll_interval sg
  | SystemPollInterval => system_poll_interval sg
  end.

(** The identifier of the config class that has the setting: create_config<T>() asks for the config of that name. *)
Definition identifier_of (t : setting) : ident :=
  match t with
  | EncoderChunkSize | EncoderCodeLength => coder_identifier
  | LogFileSize | LogMessageSize => logger_identifier
  | SocketWaitTime | PacketSize => network_identifier
  | PathPollInterval => path_identifier
  | SystemPollInterval => system_identifier
  end.
Lemma identifier_owner t : identifier_of t = owner (documented t).
Proof. destruct t; reflexivity. Qed.

Lemma names_byte t : Forall byte (key (documented t)).
Proof. destruct t; cbn; repeat constructor; unfold byte; lia. Qed.
Lemma names_key t : names (key (documented t)) (key (documented t)).
Proof. apply (construct_iff true); [apply names_byte|]. destruct t; reflexivity. Qed.
Lemma native t : native_int (bits (documented t)).
Proof. unfold native_int. destruct t; cbn; auto. Qed.
Lemma cast_small w sg v : native_int w -> int_ok w sg v -> cast w sg v = v.
Proof.
  intros Hw Hv. pose proof (proj1 (integer_conversion w sg (JSigned v) v Hw Hv) ltac:(now left)) as E. cbn [to_integer] in E. congruence.
Qed.

(** Every getter is get_value of the documented name and type, in the documented unit. *)
Lemma read_value sg t c : read sg t c =
  match get_value sg (to_integer (bits (documented t)) (is_signed (documented t))) c (key (documented t)) (fallback (documented t)) with
  | Return v => Return (v * scale (documented t)) | x => x end.
Proof.
  assert (K : forall o : outcome Z, o = match o with Return v => Return (v * 1) | Throw e => Throw e | Undefined => Undefined end) by (intros [v|e|]; try reflexivity; now rewrite Z.mul_1_r).
  destruct t; cbn [documented bits is_signed key fallback scale]; [|exact (K _)..].
  cbn [documented bits is_signed key fallback scale]. unfold read, huffman_encoder_chunk_size, chunk_size_kb. change (letters "encoder_chunk_size_kb") with (text "encoder_chunk_size_kb").
  assert (R : forall v, get_value sg (to_integer 16 false) c (text "encoder_chunk_size_kb") 256 = Return v -> 0 <= v < 2 ^ 16).
  { assert (TI : forall x v, to_integer 16 false x = Return v -> 0 <= v < 2 ^ 16).
    { intros x v E. destruct x as [|s|m|l|b|z|z|f]; try discriminate; cbn [to_integer] in E.
      - destruct (Format_Model.convert 16 false s) as [y|] eqn:EC; [|discriminate]. injection E as <-.
        now apply (Format_Props.convert_exact_int 16 false s y ltac:(lia)) in EC.
      - injection E as <-. apply Z.mod_pos_bound; lia.
      - injection E as <-. apply Z.mod_pos_bound; lia.
      - destruct (truncated f) as [y|]; [|discriminate]. destruct (fits 16 false y) eqn:EF; [|discriminate]. injection E as <-.
        unfold fits in EF. apply andb_true_iff in EF. rewrite Z.leb_le, Z.ltb_lt in EF. exact EF. }
    intros v. unfold get_value. destruct (c_values c); try (intros E; injection E as <-; lia).
    destruct (convert_to_string sg (text "encoder_chunk_size_kb")); [|intros E; injection E as <-; lia].
    destruct (map_find _ _) as [[p x]|]; [|intros E; injection E as <-; lia].
    destruct (to_integer 16 false x) eqn:EX; [intros E; injection E as <-; now apply (TI x)|intros E; injection E as <-; lia|discriminate]. }
  destruct (get_value sg (to_integer 16 false) c (text "encoder_chunk_size_kb") 256) as [v|e|]; try reflexivity.
  specialize (R v eq_refl). f_equal. rewrite Z.shiftl_mul_pow2 by lia. change (2 ^ 10) with 1024. apply Z.mod_small. lia.
Qed.

(** What a setting is, for every config of every reachable manager: the number the config holds, in range; the default if there is none
    or if what there is cannot be an integer of the type. *)
Theorem setting_value : forall sg t f s n c, map_result f -> reachable f s -> nth_error (heap s) n = Some c -> let e := documented t in
  (forall x v, holds c (key e) x -> says e x v -> in_range e v -> read sg t c = Return (v * scale e)) /\
  ((forall x, ~ holds c (key e) x) -> read sg t c = Return (fallback e * scale e)) /\
  (forall x, holds c (key e) x -> no_integer e x -> read sg t c = Return (fallback e * scale e)).
Proof.
  intros sg t f s n c HF HR HN e. rewrite read_value. fold e.
  rewrite (get_value_result f s n c Z sg (to_integer (bits e) (is_signed e)) (key e) (key e) (fallback e) HF HR HN (names_byte t) (names_key t)).
  pose proof (native t) as HNat. fold e in HNat. split; [|split].
  - intros x v (m & EV & EB) HS HI. rewrite EV, EB. assert (E : to_integer (bits e) (is_signed e) x = Return v); [|now rewrite E].
    destruct (integer_conversion (bits e) (is_signed e) x v HNat HI) as (A & B & C).
    destruct HS as [H|[(g & -> & H)|(w & -> & H)]]; [auto|now apply (B g)|now apply (C w)].
  - intros HNo. destruct (c_values c) as [| |m| | | | |] eqn:EV; try reflexivity. destruct (bound m (key e)) as [x|] eqn:EB; [|reflexivity].
    destruct (HNo x). exists m. auto.
  - intros x (m & EV & EB) HX. rewrite EV, EB. assert (E : to_integer (bits e) (is_signed e) x = Throw JsonException); [|now rewrite E].
    apply (proj1 (integer_conversion_refused (bits e) (is_signed e) x HNat)). destruct x; cbn in HX |- *; try tauto.
Qed.
(** In all other cases: a number out of range is reduced to the type's range (it is not refused), a floating-point value out of range is
    undefined behaviour. *)
Theorem setting_out_of_range : forall sg t f s n c, map_result f -> reachable f s -> nth_error (heap s) n = Some c -> let e := documented t in
  (forall x z, holds c (key e) x -> is_number x z -> exists v, in_range e v /\ v mod 2 ^ bits e = z mod 2 ^ bits e /\ read sg t c = Return (v * scale e)) /\
  (read sg t c = Undefined <-> exists x, holds c (key e) x /\ unfit e x) /\
  (forall ex, read sg t c <> Throw ex).
Proof.
  intros sg t f s n c HF HR HN e. rewrite read_value. fold e.
  rewrite (get_value_result f s n c Z sg (to_integer (bits e) (is_signed e)) (key e) (key e) (fallback e) HF HR HN (names_byte t) (names_key t)).
  pose proof (native t) as HNat. fold e in HNat. split; [|split].
  - intros x z (m & EV & EB) HX. rewrite EV, EB. exists (cast (bits e) (is_signed e) z).
    assert (P : 2 ^ bits e = 2 * 2 ^ (bits e - 1)) by (rewrite <- Z.pow_succ_r by (unfold native_int in HNat; lia); f_equal; lia).
    assert (P0 : 0 < 2 ^ (bits e - 1)) by (apply Z.pow_pos_nonneg; unfold native_int in HNat; lia).
    pose proof (Z.mod_pos_bound z (2 ^ bits e) ltac:(lia)) as B. unfold in_range, int_ok, cast, wrap, signed.
    split; [|split].
    + destruct (is_signed e); [|lia]. cbv zeta. destruct (Z.ltb_spec (z mod 2 ^ bits e) (2 ^ (bits e - 1))); lia.
    + destruct (is_signed e); [|now apply Z.mod_mod; lia]. cbv zeta. destruct (Z.ltb_spec (z mod 2 ^ bits e) (2 ^ (bits e - 1))); [apply Z.mod_mod; lia|].
      rewrite <- (Z.mod_add _ 1) by lia. replace (z mod 2 ^ bits e - 2 ^ bits e + 1 * 2 ^ bits e) with (z mod 2 ^ bits e) by lia. apply Z.mod_mod; lia.
    + destruct HX as [-> | ->]; reflexivity.
  - split.
    + intros H. destruct (c_values c) as [| |m| | | | |] eqn:EV; try discriminate. destruct (bound m (key e)) as [x|] eqn:EB; [|discriminate].
      exists x. split; [exists m; auto|]. apply (proj2 (integer_conversion_refused (bits e) (is_signed e) x HNat)).
      destruct (to_integer (bits e) (is_signed e) x); [discriminate|discriminate|reflexivity].
    + intros (x & (m & EV & EB) & HX). rewrite EV, EB. now rewrite (proj2 (proj2 (integer_conversion_refused (bits e) (is_signed e) x HNat)) HX).
  - intros ex. destruct (c_values c) as [| |m| | | | |]; try discriminate. destruct (bound m (key e)) as [x|]; [|discriminate]. destruct (to_integer _ _ x); discriminate.
Qed.

(** Once a change of the file has been handed out, the settings are the file's. *)
Theorem settings_follow_the_file : forall sg t s n c sections, reachable None s -> quiet s -> file s = Some (JObject sections) -> live s n c ->
  let e := documented t in c_ident c = identifier_of t ->
  (forall values x v, bound sections (owner e) = Some (JObject values) -> bound values (key e) = Some x -> says e x v -> in_range e v -> read sg t c = Return (v * scale e)) /\
  (forall values, bound sections (owner e) = Some (JObject values) -> bound values (key e) = None -> read sg t c = Return (fallback e * scale e)) /\
  (bound sections (owner e) = None -> read sg t c = Return (fallback e * scale e)).
Proof.
  intros sg t s n c sections HR HQ HFl HL e HI. rewrite (identifier_owner t : identifier_of t = owner e) in HI.
  pose proof (quiet_configs_match_the_file None s n c I HR HQ ltac:(rewrite HFl; exact I) (or_introl eq_refl) HL) as HV. rewrite HFl, HI in HV. cbn [section] in HV.
  destruct (setting_value sg t None s n c I HR (proj1 HL)) as (A & B & C). fold e in A, B, C. split; [|split].
  - intros values x v ES EX HS HV'. apply (A x v); [|assumption|assumption]. exists values. now rewrite HV, ES.
  - intros values ES EX. apply B. intros x (m & E & EB). rewrite HV, ES in E. injection E as <-. congruence.
  - intros ES. apply B. intros x (m & E & _). rewrite HV, ES in E. discriminate.
Qed.

(** Whether logs are compressed: a boolean is itself, everything else by its conversion to bool; yes if nothing is configured. *)
Theorem compress_setting : forall sg f s n c, map_result f -> reachable f s -> nth_error (heap s) n = Some c ->
  (forall b, holds c compress_key (JBool b) -> compress_log_files sg c = Return b) /\
  (forall x, holds c compress_key x -> compress_log_files sg c = Return (to_bool x)) /\
  ((forall x, ~ holds c compress_key x) -> compress_log_files sg c = Return true).
Proof.
  intros sg f s n c HF HR HN. assert (HB : Forall byte compress_key) by (cbn; repeat constructor; unfold byte; lia).
  assert (HK : names compress_key compress_key) by (apply (construct_iff true); [exact HB|reflexivity]).
  pose proof (get_value_result f s n c bool sg (fun j => Return (to_bool j)) compress_key compress_key true HF HR HN HB HK) as E.
  unfold compress_log_files. change (text "compress_log_files") with compress_key. rewrite E. split; [|split].
  - intros b (m & EV & EB). now rewrite EV, EB.
  - intros x (m & EV & EB). now rewrite EV, EB.
  - intros H. destruct (c_values c) as [| |m| | | | |] eqn:EV; try reflexivity. destruct (bound m compress_key) as [x|] eqn:EB; [|reflexivity].
    destruct (H x). exists m. auto.
Qed.

(** An encoder that is constructed with a config whose chunk size, if there is one, is 1 to 65535 kilobytes and whose maximum code length,
    if there is one, is 8 to 15 bits, compresses every text to something that is decompressed to it. *)
Definition asks (c : config) (t : setting) (low high : Z) : Prop :=
  (forall x, ~ holds c (key (documented t)) x) \/
  (exists x, holds c (key (documented t)) x /\ no_integer (documented t) x) \/
  (exists x v, holds c (key (documented t)) x /\ says (documented t) x v /\ low <= v <= high).
Lemma asks_value sg t f s n c low high : map_result f -> reachable f s -> nth_error (heap s) n = Some c ->
  low <= fallback (documented t) <= high -> (forall v, low <= v <= high -> in_range (documented t) v) -> asks c t low high ->
  exists v, low <= v <= high /\ read sg t c = Return (v * scale (documented t)).
Proof.
  intros HF HR HN HD HI HA. destruct (setting_value sg t f s n c HF HR HN) as (A & B & C).
  destruct HA as [HA|[(x & HA & HX)|(x & v & HA & HX & HV)]]; [exists (fallback (documented t)); auto|exists (fallback (documented t)); eauto|exists v; eauto].
Qed.
Theorem configured_encoder_round_trip : forall sg hb hb' f s n c input result, map_result f -> reachable f s -> nth_error (heap s) n = Some c ->
  asks c EncoderChunkSize 1 65535 -> asks c EncoderCodeLength 8 15 -> Forall byte input -> encode_configured sg hb c input result ->
  exists file, result = Ok (Some file) /\ decode_string hb' file = Ok (Some input).
Proof.
  intros sg hb hb' f s n c input result HF HR HN HK HM HB (kb & max & EK & EM & HE).
  assert (HIK : forall v, 1 <= v <= 65535 -> in_range (documented EncoderChunkSize) v) by (intros v; cbn; lia).
  assert (HIM : forall v, 8 <= v <= 15 -> in_range (documented EncoderCodeLength) v) by (intros v; cbn; lia).
  destruct (asks_value sg EncoderChunkSize f s n c 1 65535 HF HR HN ltac:(cbn; lia) HIK HK) as (k & Hk & RK).
  destruct (asks_value sg EncoderCodeLength f s n c 8 15 HF HR HN ltac:(cbn; lia) HIM HM) as (m & Hm & RM).
  rewrite read_value in RK. change (get_value sg (to_integer _ _) c _ _) with (chunk_size_kb sg c) in RK. rewrite EK in RK. cbn [documented scale] in RK. injection RK as RK.
  unfold read in RM. rewrite EM in RM. cbn [documented scale] in RM. injection RM as RM.
  apply (huffman_roundtrip hb hb' kb max input result); try assumption; lia.
Qed.
(** Such an encoder exists, whatever is configured (except floating-point values out of range). *)
Theorem configured_encoder_total : forall sg hb f s n c input, map_result f -> reachable f s -> nth_error (heap s) n = Some c ->
  asks c EncoderChunkSize 1 65535 -> (forall x, holds c (key (documented EncoderCodeLength)) x -> ~ unfit (documented EncoderCodeLength) x) -> Forall byte input ->
  exists result, encode_configured sg hb c input result.
Proof.
  intros sg hb f s n c input HF HR HN HK HM HB.
  assert (HIK : forall v, 1 <= v <= 65535 -> in_range (documented EncoderChunkSize) v) by (intros v; cbn; lia).
  destruct (asks_value sg EncoderChunkSize f s n c 1 65535 HF HR HN ltac:(cbn; lia) HIK HK) as (k & Hk & RK).
  rewrite read_value in RK. change (get_value sg (to_integer _ _) c _ _) with (chunk_size_kb sg c) in RK.
  destruct (chunk_size_kb sg c) as [kb|e|] eqn:EK; try discriminate. cbn [documented scale] in RK. injection RK as RK.
  destruct (setting_out_of_range sg EncoderCodeLength f s n c HF HR HN) as (_ & U & T).
  destruct (huffman_encoder_max_code_length sg c) as [max|e|] eqn:EM.
  - destruct (huffman_encode_total hb kb max input ltac:(lia) HB) as (result & HE). exists result. exists kb, max. auto.
  - destruct (T e). exact EM.
  - destruct (proj1 U EM) as (x & HX & HU). destruct (HM x HX HU).
Qed.
(** A maximum of 16 to 255 bits: every compression fails. *)
Theorem configured_encoder_refuses : forall sg hb f s n c x v input result, map_result f -> reachable f s -> nth_error (heap s) n = Some c ->
  holds c (key (documented EncoderCodeLength)) x -> says (documented EncoderCodeLength) x v -> 16 <= v <= 255 ->
  encode_configured sg hb c input result -> result = Ok None.
Proof.
  intros sg hb f s n c x v input result HF HR HN HH HS HV (kb & max & EK & EM & HE).
  pose proof (proj1 (setting_value sg EncoderCodeLength f s n c HF HR HN) x v HH HS ltac:(cbn; lia)) as E. unfold read in E. rewrite EM in E. cbn [documented scale] in E. injection E as E.
  unfold encode_string in HE. destruct (Z.geb_spec max 16); [assumption|lia].
Qed.

(** * Refutations and examples *)
(** Any section of any file can come to be what a config holds. *)
Lemma can_configure i m : i <> path_ident -> sorted_keys m ->
  exists s n c, reachable None s /\ quiet s /\ live s n c /\ c_ident c = i /\ c_values c = JObject m /\ file s = Some (JObject [(i, JObject m)]).
Proof.
  intros Hi Hm. pose proof (r_initial None) as R0.
  assert (HL : forall n c, live (initial None) n c -> c_ident c <> i).
  { intros n c [H _]. vm_compute in H. destruct n as [|[|n]]; try discriminate. injection H as <-. cbn. intros E. apply Hi. symmetry. exact E. }
  pose proof (create_config_result None (initial None) i 7 I R0 eq_refl) as HC.
  pose proof (r_step None _ _ R0 (s_create (initial None) i 7 eq_refl eq_refl)) as R1.
  destruct (create_config (initial None) i 7) as [s1 r] eqn:E1. cbn [fst] in R1. destruct HC as (_ & H1 & H2 & _).
  destruct (H1 HL) as (n & -> & _). destruct (H2 n eq_refl) as (c & L1 & I1 & _ & _).
  assert (ST : started s1 = true).
  { pose proof (create_other (initial None) i 7) as (_ & _ & _ & ES & _). rewrite E1 in ES. exact ES. }
  assert (HF : map_result (Some (JObject [(i, JObject m)]))).
  { split; [cbn; auto|]. intros k x [E|[]]. injection E as <- <-. assumption. }
  pose proof (r_step None _ _ R1 (s_file s1 _ HF)) as R2.
  destruct (updates_can_complete None _ I R2 ST) as (s3 & S3 & Q3 & F3 & C3). cbn [file] in F3, C3.
  destruct (C3 n c L1) as (c' & L3 & I3 & V3). specialize (V3 Logic.I). exists s3, n, c'.
  split; [exact (steps_reachable None _ _ R2 S3)|]. split; [assumption|]. split; [assumption|]. split; [congruence|]. split; [|assumption].
  rewrite V3, I1. cbn [section bound]. unfold same_key. destruct (list_eq_dec Z.eq_dec i i); [reflexivity|congruence].
Qed.

Ltac not_path := intros E; vm_compute in E; discriminate E.
(** "However large its chunks, what an encoder makes of a text can be decompressed": with a chunk size of 0, or of 65536 kilobytes (which
    is not refused but becomes 0), every compression is successful and none of the results can be decompressed. *)
Theorem configured_encoder_refuted : forall sg hb hb' size, size = 0 \/ size = 65536 ->
  exists s n c compressed, reachable None s /\ quiet s /\ live s n c /\ holds c (key (documented EncoderChunkSize)) (JUnsigned size) /\
  forall input, encode_configured sg hb c input (Ok (Some compressed)) /\ decode_string hb' compressed = Ok None.
Proof.
  intros sg hb hb' size HS.
  destruct (can_configure coder_identifier [(key (documented EncoderChunkSize), JUnsigned size)] ltac:(not_path) ltac:(cbn; auto)) as (s & n & c & HR & HQ & HL & _ & HV & _).
  assert (HH : holds c (key (documented EncoderChunkSize)) (JUnsigned size)).
  { eexists. split; [exact HV|]. cbn [bound]. unfold same_key. destruct (list_eq_dec Z.eq_dec _ _); [reflexivity|congruence]. }
  destruct (huffman_zero_chunk_refuted hb hb' 11 ltac:(lia)) as (compressed & HE & _ & HD).
  exists s, n, c, compressed. split; [assumption|]. split; [assumption|]. split; [assumption|]. split; [assumption|]. intros input. split; [|assumption].
  exists 0, 11. split; [|split; [|apply HE]].
  - destruct (proj1 (setting_out_of_range sg EncoderChunkSize None s n c I HR (proj1 HL)) (JUnsigned size) size HH (or_intror eq_refl)) as (v & IV & MV & RV).
    rewrite read_value in RV. change (get_value sg (to_integer _ _) c _ _) with (chunk_size_kb sg c) in RV. cbn [documented bits scale] in *.
    assert (V0 : v mod 65536 = 0) by (change (2 ^ 16) with 65536 in MV; rewrite MV; destruct HS as [-> | ->]; reflexivity).
    unfold in_range, int_ok in IV. cbn [documented bits is_signed] in IV. change (2 ^ 16) with 65536 in IV. rewrite Z.mod_small in V0 by assumption. subst v.
    destruct (chunk_size_kb sg c) as [kb|e|]; try discriminate. injection RV as RV. f_equal. lia.
  - pose proof (proj1 (proj2 (setting_value sg EncoderCodeLength None s n c I HR (proj1 HL)))) as E. cbv zeta in E. unfold read in E. apply E.
    intros x (m & EV & EB). rewrite HV in EV. injection EV as <-. vm_compute in EB. discriminate.
Qed.
(** "An INI file can turn compression off": all values of INI files are texts, and every text that is not empty is true. *)
Definition ini_no_compression : list Z := letters "[logger]" ++ [10] ++ letters "compress_log_files=false" ++ [10].
Theorem ini_compress_refuted : forall sg, exists values s n c,
  parse_ini sg ini_no_compression = Some (JObject [(logger_identifier, JObject values)]) /\ bound values compress_key = Some (JString (letters "false")) /\
  reachable None s /\ quiet s /\ live s n c /\ file s = parse_ini sg ini_no_compression /\ c_values c = JObject values /\ compress_log_files sg c = Return true.
Proof.
  intros sg. assert (EP : parse_ini sg ini_no_compression = Some (JObject [(logger_identifier, JObject [(compress_key, JString (letters "false"))])])) by (destruct sg; vm_compute; reflexivity).
  destruct (can_configure logger_identifier [(compress_key, JString (letters "false"))] ltac:(not_path) ltac:(cbn; auto)) as (s & n & c & HR & HQ & HL & _ & HV & HFl).
  exists [(compress_key, JString (letters "false"))], s, n, c. split; [exact EP|]. split; [vm_compute; reflexivity|]. split; [assumption|]. split; [assumption|]. split; [assumption|]. split; [now rewrite EP|]. split; [assumption|].
  assert (HH : holds c compress_key (JString (letters "false"))) by (exists [(compress_key, JString (letters "false"))]; split; [assumption|vm_compute; reflexivity]).
  rewrite (proj1 (proj2 (compress_setting sg None s n c I HR (proj1 HL))) _ HH). reflexivity.
Qed.
(** Numbers are read from INI files as from JSON files. *)
Example example_ini_number : forall sg, exists values, parse_ini sg (letters "[coder]" ++ [10] ++ letters "encoder_max_code_length = 12" ++ [10]) = Some (JObject [(coder_identifier, JObject values)]) /\
  exists s n c, reachable None s /\ quiet s /\ live s n c /\ c_ident c = identifier_of EncoderCodeLength /\ file s = Some (JObject [(coder_identifier, JObject values)]) /\
  read sg EncoderCodeLength c = Return 12.
Proof.
  intros sg. exists [(key (documented EncoderCodeLength), JString [49; 50])]. split; [destruct sg; vm_compute; reflexivity|].
  destruct (can_configure coder_identifier [(key (documented EncoderCodeLength), JString [49; 50])] ltac:(not_path) ltac:(cbn; auto)) as (s & n & c & HR & HQ & HL & HI & HV & HFl).
  exists s, n, c. split; [assumption|]. split; [assumption|]. split; [assumption|]. split; [exact HI|]. split; [assumption|].
  pose proof (settings_follow_the_file sg EncoderCodeLength s n c _ HR HQ HFl HL HI) as (A & _). apply (A [(key (documented EncoderCodeLength), JString [49; 50])] (JString [49; 50]) 12).
  - vm_compute. reflexivity.
  - vm_compute. reflexivity.
  - right. right. exists [49; 50]. split; [reflexivity|]. exists [49; 50]. split; [discriminate|]. split; [repeat constructor; lia|]. left. split; reflexivity.
  - cbn. lia.
Qed.
(** A config that the theorems about encoders apply to: 64 kilobytes, and a code length that is no number. *)
Example example_encoder : exists s n c, reachable None s /\ quiet s /\ live s n c /\ asks c EncoderChunkSize 1 65535 /\ asks c EncoderCodeLength 8 15 /\
  (forall x, holds c (key (documented EncoderCodeLength)) x -> ~ unfit (documented EncoderCodeLength) x).
Proof.
  destruct (can_configure coder_identifier [(key (documented EncoderChunkSize), JUnsigned 64); (key (documented EncoderCodeLength), JBool true)] ltac:(not_path) ltac:(cbn; repeat split; repeat constructor; vm_compute; reflexivity))
    as (s & n & c & HR & HQ & HL & _ & HV & _).
  assert (H2 : holds c (key (documented EncoderCodeLength)) (JBool true)) by (eexists; split; [exact HV|vm_compute; reflexivity]).
  exists s, n, c. split; [assumption|]. split; [assumption|]. split; [assumption|]. split; [|split].
  - right. right. exists (JUnsigned 64), 64. split; [eexists; split; [exact HV|vm_compute; reflexivity]|]. split; [left; now right|lia].
  - right. left. exists (JBool true). split; [assumption|exact Logic.I].
  - intros x (m & EV & EB) (g & -> & _). destruct H2 as (m' & EV' & EB'). congruence.
Qed.
(** The other cases of the theorems: a number that is reduced, a floating-point value that does not fit, an encoder that refuses. *)
Example example_out_of_range : exists s n c, reachable None s /\ quiet s /\ live s n c /\ holds c (key (documented PacketSize)) (JSigned (-1)) /\
  holds c (key (documented SocketWaitTime)) (JFloat (S754_infinity false)) /\ unfit (documented SocketWaitTime) (JFloat (S754_infinity false)).
Proof.
  destruct (can_configure network_identifier [(key (documented PacketSize), JSigned (-1)); (key (documented SocketWaitTime), JFloat (S754_infinity false))] ltac:(not_path) ltac:(cbn; repeat split; repeat constructor; vm_compute; reflexivity))
    as (s & n & c & HR & HQ & HL & _ & HV & _).
  exists s, n, c. split; [assumption|]. split; [assumption|]. split; [assumption|]. split; [eexists; split; [exact HV|vm_compute; reflexivity]|]. split; [eexists; split; [exact HV|vm_compute; reflexivity]|].
  eexists. split; [reflexivity|]. intros v _ []. 
Qed.
Example example_refusing : exists s n c, reachable None s /\ live s n c /\ holds c (key (documented EncoderCodeLength)) (JUnsigned 16) /\ says (documented EncoderCodeLength) (JUnsigned 16) 16.
Proof.
  destruct (can_configure coder_identifier [(key (documented EncoderCodeLength), JUnsigned 16)] ltac:(not_path) ltac:(cbn; auto)) as (s & n & c & HR & HQ & HL & _ & HV & _).
  exists s, n, c. split; [assumption|]. split; [assumption|]. split; [eexists; split; [exact HV|vm_compute; reflexivity]|]. left. now right.
Qed.
Print Assumptions configured_encoder_round_trip.
