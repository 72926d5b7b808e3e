(** Proofs for the IPv4 and IPv6 parsers and formatters. *)
From Verif Require Import Common Bits Endian_Proofs Endian_Props BitStream_Model Lexer_Model Lexer_Spec Lexer_Props
  Format_Model Format_Spec Format_Proofs Format_Props Strings_Model Strings_Spec Net_Model Net_Spec.

(** * Lexer steps *)
Definition okl (t : ctype) (l : lexer) : Prop := lexer_ok l /\ chars_ok t l.

Lemma is_run_unique P s p r p' r' : is_run P s p r -> is_run P s p' r' -> p = p' /\ r = r'.
Proof.
  intros (-> & F & H) (E & F' & H'). revert p' E F'. induction F as [|c p Hc F IH]; intros p' E F'.
  - destruct p' as [|c' p']; [auto|]. cbn [app] in E. subst r. inversion F'; subst. contradiction.
  - destruct p' as [|c' p'].
    + cbn [app] in E. subst r'. contradiction.
    + cbn [app] in E. injection E as <- E. inversion F'; subst. destruct (IH p' E ltac:(assumption)) as [-> ->]. auto.
Qed.

Lemma okl_view t l l' : chars_ok t l -> view l' = view l -> lexer_ok l' -> okl t l'.
Proof. intros H E HO. split; [assumption|]. unfold chars_ok. now rewrite E. Qed.

Definition nonempty_val {A} (pre : list A) (v : Z) : option Z := match pre with [] => None | _ => Some v end.

Lemma number_run t l pre rest : In t ctypes -> okl t l -> is_run ascii_digit (remaining l) pre rest ->
  exists l', consume_number l = Ok (nonempty_val pre (number 10 pre mod 2 ^ 64), l') /\ okl t l' /\ remaining l' = rest.
Proof.
  intros Ht [HO HC] HR. destruct (consume_number_exact_partial t l Ht HO HC) as (pre' & rest' & l' & HR' & E & HO' & HV & HRem & _).
  destruct (is_run_unique _ _ _ _ _ _ HR HR') as [-> ->]. exists l'. split; [|split; [eapply okl_view; eauto|assumption]].
  rewrite E. now destruct pre'.
Qed.
Lemma hex_run t l pre rest : In t ctypes -> okl t l -> is_run ascii_xdigit (remaining l) pre rest ->
  exists l', consume_hex_number t l = Ok (nonempty_val pre (number 16 pre mod 2 ^ 64), l') /\ okl t l' /\ remaining l' = rest.
Proof.
  intros Ht [HO HC] HR. destruct (consume_hex_exact_partial t l Ht HO HC) as (pre' & rest' & l' & HR' & E & HO' & HV & HRem & _).
  destruct (is_run_unique _ _ _ _ _ _ HR HR') as [-> ->]. exists l'. split; [|split; [eapply okl_view; eauto|assumption]].
  rewrite E. now destruct pre'.
Qed.
Lemma exists_number_run t l : In t ctypes -> okl t l -> exists pre rest, is_run ascii_digit (remaining l) pre rest.
Proof. intros Ht [HO HC]. destruct (consume_number_exact_partial t l Ht HO HC) as (pre & rest & l' & HR & _). eauto. Qed.
Lemma exists_hex_run t l : In t ctypes -> okl t l -> exists pre rest, is_run ascii_xdigit (remaining l) pre rest.
Proof. intros Ht [HO HC]. destruct (consume_hex_exact_partial t l Ht HO HC) as (pre & rest & l' & HR & _). eauto. Qed.

Lemma char_hit t l ch r : okl t l -> remaining l = ch :: r ->
  exists l', consume_if_char l ch = Ok (true, l') /\ okl t l' /\ remaining l' = r.
Proof.
  intros [HO HC] HR. unfold consume_if_char. rewrite peek_here by assumption. rewrite HR. cbn [bind]. rewrite Z.eqb_refl.
  destruct (remaining_next l ch r HO HR) as (_ & HO' & HR' & _). eexists. split; [reflexivity|].
  split; [eapply okl_view; eauto|assumption].
Qed.
Lemma char_miss t l ch : okl t l -> (forall r, remaining l <> ch :: r) -> consume_if_char l ch = Ok (false, l).
Proof.
  intros [HO _] HN. unfold consume_if_char. rewrite peek_here by assumption. cbn [bind].
  destruct (remaining l) as [|c r] eqn:E; [reflexivity|]. destruct (Z.eqb_spec c ch) as [->|]; [now elim (HN r)|reflexivity].
Qed.
Lemma peek_end t l : okl t l -> remaining l = [] -> peek l 0 = Ok None.
Proof. intros [HO _] E. rewrite peek_here by assumption. now rewrite E. Qed.
Lemma peek_more t l c r : okl t l -> remaining l = c :: r -> peek l 0 = Ok (Some c).
Proof. intros [HO _] E. rewrite peek_here by assumption. now rewrite E. Qed.

Lemma start_ok t s : Forall (fun c => char_ok t c /\ 0 <= c) s -> Z.of_nat (length s) < 2 ^ 63 ->
  okl t (Lexer s 0) /\ remaining (Lexer s 0) = s.
Proof.
  intros H HL. split; [|reflexivity]. split; [|exact H]. unfold lexer_ok, size. cbn [view index]. lia.
Qed.

(** * IPv4 *)
Definition dval (p : list Z) : Z := number 10 p mod 2 ^ 64.

Lemma join_cons d p ps : ps <> [] -> join d (p :: ps) = p ++ d :: join d ps.
Proof. destruct ps; [congruence|reflexivity]. Qed.

Lemma parts_complete t : In t ctypes -> forall n ps l acc, okl t l -> ps <> [] -> (length ps <= n)%nat ->
  Forall decimal_number ps -> Forall (fun p => dval p < 2 ^ 32) ps -> remaining l = join 46 ps ->
  exists l', ipv4_parts n l acc = Ok (Some (acc ++ map dval ps), l') /\ okl t l' /\ remaining l' = [].
Proof.
  intros Ht. induction n as [|n IH]; intros ps l acc HO HN HL HD HV HR.
  { destruct ps; [congruence|cbn in HL; lia]. }
  destruct ps as [|p ps]; [congruence|]. inversion HD as [|? ? [Hp0 Hp] HD']; subst. inversion HV as [|? ? Hv HV']; subst.
  cbn [ipv4_parts].
  assert (HU : u32 (dval p) = dval p) by (apply Z.mod_small; split; [apply Z.mod_pos_bound; lia|assumption]).
  assert (HLE : (dval p <=? 4294967295) = true) by (apply Z.leb_le; change (2 ^ 32) with 4294967296 in Hv; lia).
  destruct ps as [|q ps].
  - cbn [join] in HR. destruct (number_run t l p [] Ht HO) as (l1 & E1 & HO1 & HR1).
    { rewrite HR. split; [now rewrite app_nil_r|]. split; [assumption|exact I]. }
    rewrite E1. cbn [bind]. destruct p as [|c0 p0] eqn:EP; [congruence|]. rewrite <- EP in *. cbn [nonempty_val].
    replace (nonempty_val p (number 10 p mod 2 ^ 64)) with (Some (dval p)) by (now rewrite EP).
    rewrite HLE, HU. cbn [map]. destruct n as [|n].
    + exists l1. auto.
    + rewrite (char_miss t l1 46 HO1) by (rewrite HR1; discriminate). cbn [bind]. exists l1. auto.
  - rewrite join_cons in HR by discriminate. destruct (number_run t l p (46 :: join 46 (q :: ps)) Ht HO) as (l1 & E1 & HO1 & HR1).
    { rewrite HR. split; [reflexivity|]. split; [assumption|]. unfold ascii_digit. lia. }
    rewrite E1. cbn [bind]. destruct p as [|c0 p0] eqn:EP; [congruence|]. rewrite <- EP in *.
    replace (nonempty_val p (number 10 p mod 2 ^ 64)) with (Some (dval p)) by (now rewrite EP).
    rewrite HLE, HU. destruct n as [|n]; [cbn in HL; lia|].
    destruct (char_hit t l1 46 _ HO1 HR1) as (l2 & E2 & HO2 & HR2). rewrite E2. cbn [bind].
    destruct (IH (q :: ps) l2 (acc ++ [dval p]) HO2 ltac:(discriminate) ltac:(cbn in *; lia) HD' HV' HR2) as (l3 & E3 & HO3 & HR3).
    exists l3. rewrite E3. rewrite <- app_assoc. auto.
Qed.

Lemma parts_sound t : In t ctypes -> forall n l acc, okl t l -> (0 < n)%nat ->
  exists o l', ipv4_parts n l acc = Ok (o, l') /\ okl t l' /\
    forall parts, o = Some parts -> exists ps, ps <> [] /\ Forall decimal_number ps /\
      parts = acc ++ map dval ps /\ Forall (fun p => dval p < 2 ^ 32) ps /\ remaining l = join 46 ps ++ remaining l'.
Proof.
  intros Ht. induction n as [|n IH]; intros l acc HO Hn; [lia|]. cbn [ipv4_parts].
  destruct (exists_number_run t l Ht HO) as (p & rest & HR).
  destruct (number_run t l p rest Ht HO HR) as (l1 & E1 & HO1 & HR1). rewrite E1. cbn [bind].
  destruct HR as (HS & HD & _).
  destruct p as [|c0 p0] eqn:EP; cbn [nonempty_val].
  { exists None, l1. repeat split; try apply HO1. discriminate. }
  rewrite <- EP in *. assert (Hp0 : p <> []) by (rewrite EP; discriminate). clear EP.
  change (number 10 p mod 2 ^ 64) with (dval p).
  destruct (Z.leb_spec (dval p) 4294967295) as [HLE|HGT].
  2:{ exists None, l1. repeat split; try apply HO1. discriminate. }
  assert (HU : u32 (dval p) = dval p) by (apply Z.mod_small; split; [apply Z.mod_pos_bound; lia|change (2 ^ 32) with 4294967296; lia]).
  rewrite HU. assert (HV : dval p < 2 ^ 32) by (change (2 ^ 32) with 4294967296; lia).
  assert (HB : forall l', okl t l' -> remaining l' = rest -> exists ps, ps <> [] /\ Forall decimal_number ps /\
      acc ++ [dval p] = acc ++ map dval ps /\ Forall (fun p => dval p < 2 ^ 32) ps /\ remaining l = join 46 ps ++ remaining l').
  { intros l' _ E'. exists [p]. split; [discriminate|]. split; [repeat constructor; assumption|].
    split; [reflexivity|]. split; [now repeat constructor|]. cbn [join]. now rewrite E'. }
  destruct n as [|n].
  - exists (Some (acc ++ [dval p])), l1. split; [reflexivity|]. split; [assumption|]. intros parts EQ. injection EQ as <-. now apply HB.
  - destruct rest as [|c r].
    + rewrite (char_miss t l1 46 HO1) by (rewrite HR1; discriminate). cbn [bind].
      exists (Some (acc ++ [dval p])), l1. split; [reflexivity|]. split; [assumption|]. intros parts EQ. injection EQ as <-. now apply HB.
    + destruct (Z.eq_dec c 46) as [->|Hc].
      * destruct (char_hit t l1 46 r HO1 HR1) as (l2 & E2 & HO2 & HR2). rewrite E2. cbn [bind].
        destruct (IH l2 (acc ++ [dval p]) HO2 ltac:(lia)) as (o & l3 & E3 & HO3 & H3). exists o, l3. split; [exact E3|]. split; [assumption|].
        intros parts EQ. destruct (H3 parts EQ) as (ps & N & D & EP & V & RR). exists (p :: ps).
        split; [discriminate|]. split; [constructor; [split|]; assumption|]. split; [rewrite EP, <- app_assoc; reflexivity|].
        split; [constructor; assumption|]. rewrite join_cons by assumption. rewrite <- app_assoc. cbn [app]. rewrite <- RR, HR2. exact HS.
      * rewrite (char_miss t l1 46 HO1) by (rewrite HR1; congruence). cbn [bind].
        exists (Some (acc ++ [dval p])), l1. split; [reflexivity|]. split; [assumption|]. intros parts EQ. injection EQ as <-. now apply HB.
Qed.

Lemma inet_small ns h : inet_aton ns = Some h -> Forall (fun n => 0 <= n) ns -> Forall (fun n => n < 2 ^ 32) ns /\ 0 <= h < 2 ^ 32 /\ ns <> [] /\ (length ns <= 4)%nat.
Proof.
  change (2 ^ 32) with 4294967296.
  intros H HN. unfold inet_aton in H.
  destruct ns as [|a [|b [|c [|d [|? ?]]]]]; try discriminate; repeat match goal with H : Forall _ (_ :: _) |- _ => inversion H; subst; clear H end;
    match type of H with (if ?b then _ else _) = _ => destruct b eqn:E; [|discriminate] end; injection H as <-;
    rewrite ?andb_true_iff, !Z.ltb_lt in E; 
    change (2 ^ 32) with 4294967296 in *; change (2 ^ 24) with 16777216 in *; change (2 ^ 16) with 65536 in *; change (2 ^ 8) with 256 in *;
    (split; [repeat (constructor; [lia|]); constructor|]); (split; [lia|]); (split; [discriminate|cbn; lia]).
Qed.
Lemma shl_small a k : 0 <= a -> 0 <= k -> a * 2 ^ k < 2 ^ 32 -> u32 (Z.shiftl a k) = a * 2 ^ k.
Proof.
  intros. rewrite Z.shiftl_mul_pow2 by lia. apply Z.mod_small. split; [|assumption]. apply Z.mul_nonneg_nonneg; [lia|]. apply Z.pow_nonneg. lia.
Qed.
Lemma lor_add a k b : 0 <= k -> a mod 2 ^ k = 0 -> 0 <= b < 2 ^ k -> Z.lor a b = a + b.
Proof. intros. now apply lor_high_low with k. Qed.
Lemma host_address_inet ns : Forall (fun n => 0 <= n < 2 ^ 32) ns -> ipv4_host_address ns = inet_aton ns.
Proof.
  intros HN. unfold ipv4_host_address, inet_aton.
  assert (LB : forall x k, (x <? k) = (x <=? k - 1)) by (intros x k; destruct (Z.ltb_spec x k), (Z.leb_spec x (k - 1)); try reflexivity; lia).
  destruct ns as [|a [|b [|c [|d [|? ?]]]]]; try reflexivity; repeat match goal with H : Forall _ (_ :: _) |- _ => inversion H; subst; clear H end;
    rewrite !LB; change (2 ^ 32 - 1) with 4294967295; change (2 ^ 24 - 1) with 16777215; change (2 ^ 16 - 1) with 65535; change (2 ^ 8 - 1) with 255;
    change (2 ^ 32) with 4294967296 in *.
  - now destruct (Z.leb_spec a 4294967295); [|lia].
  - destruct (Z.leb_spec a 255), (Z.leb_spec b 16777215); try reflexivity. cbn [andb]. f_equal.
    rewrite shl_small by (change (2 ^ 24) with 16777216; change (2 ^ 32) with 4294967296; lia).
    apply lor_add with 24; [lia|apply Z.mod_mul; discriminate|change (2 ^ 24) with 16777216; lia].
  - destruct (Z.leb_spec a 255), (Z.leb_spec b 255), (Z.leb_spec c 65535); try reflexivity. cbn [andb]. f_equal.
    rewrite !shl_small by (change (2 ^ 24) with 16777216; change (2 ^ 16) with 65536; change (2 ^ 32) with 4294967296; lia).
    rewrite (lor_add (a * 2 ^ 24) 24) by (try apply Z.mod_mul; change (2 ^ 24) with 16777216; change (2 ^ 16) with 65536; lia).
    apply lor_add with 16; [lia| |change (2 ^ 16) with 65536; lia].
    replace (a * 2 ^ 24 + b * 2 ^ 16) with ((a * 256 + b) * 2 ^ 16) by (change (2 ^ 24) with (256 * 2 ^ 16); lia). apply Z.mod_mul. discriminate.
  - destruct (Z.leb_spec a 255), (Z.leb_spec b 255), (Z.leb_spec c 255), (Z.leb_spec d 255); try reflexivity. cbn [andb]. f_equal.
    rewrite !shl_small by (change (2 ^ 24) with 16777216; change (2 ^ 16) with 65536; change (2 ^ 8) with 256; change (2 ^ 32) with 4294967296; lia).
    rewrite (lor_add (a * 2 ^ 24) 24) by (try apply Z.mod_mul; change (2 ^ 24) with 16777216; change (2 ^ 16) with 65536; lia).
    rewrite (lor_add (a * 2 ^ 24 + b * 2 ^ 16) 16); [|lia| |change (2 ^ 16) with 65536; change (2 ^ 8) with 256; lia].
    2:{ replace (a * 2 ^ 24 + b * 2 ^ 16) with ((a * 256 + b) * 2 ^ 16) by (change (2 ^ 24) with (256 * 2 ^ 16); lia). apply Z.mod_mul. discriminate. }
    apply lor_add with 8; [lia| |change (2 ^ 8) with 256; lia].
    replace (a * 2 ^ 24 + b * 2 ^ 16 + c * 2 ^ 8) with ((a * 65536 + b * 256 + c) * 2 ^ 8) by (change (2 ^ 24) with (65536 * 2 ^ 8); change (2 ^ 16) with (256 * 2 ^ 8); lia).
    apply Z.mod_mul. discriminate.
Qed.

Lemma dval_nonneg ps : Forall (fun n => 0 <= n) (map dval ps).
Proof. rewrite Forall_map. apply Forall_forall. intros p _. apply Z.mod_pos_bound. reflexivity. Qed.

(** The parser, for every text. *)
Lemma ipv4_parse_lemma t hb s a : In t ctypes -> Forall (fun c => char_ok t c /\ 0 <= c) s -> Z.of_nat (length s) < 2 ^ 63 ->
  ipv4_from_string hb s = Ok (Some a) <->
  exists ps h, s = join 46 ps /\ Forall decimal_number ps /\ inet_aton (map dval ps) = Some h /\ a = to_big_endian hb 4 h.
Proof.
  intros Ht HC HL. destruct (start_ok t s HC HL) as [HO HR]. unfold ipv4_from_string. split.
  - destruct (parts_sound t Ht 4 (Lexer s 0) [] HO ltac:(lia)) as (o & l' & E & HO' & HS). rewrite E. cbn [bind].
    destruct o as [parts|]; [|discriminate]. destruct (HS parts eq_refl) as (ps & N & D & EP & V & RR). cbn [app] in EP. subst parts.
    rewrite host_address_inet by (rewrite Forall_map; eapply Forall_impl; [|exact V]; intros p Hp; split; [apply Z.mod_pos_bound; reflexivity|exact Hp]).
    destruct (inet_aton (map dval ps)) as [h|] eqn:EI; [|discriminate].
    destruct (remaining l') as [|c r] eqn:ER.
    + rewrite (peek_end t l' HO' ER). cbn [bind]. intros H. injection H as <-. exists ps, h.
      rewrite HR, app_nil_r in RR. auto.
    + rewrite (peek_more t l' c r HO' ER). discriminate.
  - intros (ps & h & ES & D & EI & ->).
    destruct (inet_small _ _ EI (dval_nonneg ps)) as (V & Hh & N & L4). rewrite Forall_map in V.
    destruct (parts_complete t Ht 4 ps (Lexer s 0) [] HO) as (l' & E & HO' & HR').
    { intros ->. now apply N. } { now rewrite map_length in L4. } { assumption. } { assumption. } { now rewrite HR. }
    rewrite E. cbn [bind app].
    rewrite host_address_inet by (rewrite Forall_map; eapply Forall_impl; [|exact V]; intros p Hp; split; [apply Z.mod_pos_bound; reflexivity|exact Hp]).
    rewrite EI, (peek_end t l' HO' HR'). reflexivity.
Qed.

Lemma ipv4_total_lemma t hb s : In t ctypes -> Forall (fun c => char_ok t c /\ 0 <= c) s -> Z.of_nat (length s) < 2 ^ 63 ->
  exists o, ipv4_from_string hb s = Ok o.
Proof.
  intros Ht HC HL. destruct (start_ok t s HC HL) as [HO HR]. unfold ipv4_from_string.
  destruct (parts_sound t Ht 4 (Lexer s 0) [] HO ltac:(lia)) as (o & l' & E & HO' & HS). rewrite E. cbn [bind].
  destruct o as [parts|]; [|eauto]. destruct (ipv4_host_address parts); [|eauto].
  rewrite peek_here by apply HO'. cbn [bind]. destruct (match remaining l' with [] => None | c :: _ => Some c end); eauto.
Qed.

(** Decimal and hexadecimal texts of the formatter are numbers for the lexer. *)
Lemma number_positional base s : base = 10 \/ base = 16 -> Forall (digit_of base false) s ->
  number base s = positional_value base s.
Proof.
  intros Hb H. unfold number.
  assert (G : forall a, fold_left (fun a c => a * base + digit_value c) s a = a * base ^ Z.of_nat (length s) + positional_value base s).
  { induction H as [|c s Hc Hs IH]; intros a; [cbn; lia|]. cbn [fold_left positional_value length].
    rewrite IH. rewrite Nat2Z.inj_succ, Z.pow_succ_r by lia.
    assert (EV : value_of_digit c = digit_value c).
    { unfold digit_of in Hc. unfold value_of_digit, digit_value. destruct (Z.leb_spec c 57), (Z.leb_spec c 90), (Z.leb_spec c 70); lia. }
    rewrite EV. lia. }
  rewrite G. lia.
Qed.
Lemma dec_format w v s : native_int w -> 0 <= v < 2 ^ w -> format_integer w false char_max dec_field 0 v = Ok s ->
  decimal_number s /\ number 10 s = v.
Proof.
  intros Hw Hv E. destruct (plain_format w false char_max TDecimal v 10 Hw Hv eq_refl) as (d & E' & (F & V & N & _)).
  change (plain_field TDecimal) with dec_field in E'. rewrite E in E'. injection E' as ->.
  assert (EN : (v <? 0) = false) by (apply Z.ltb_ge; lia). rewrite EN. cbn [app].
  split; [|rewrite number_positional by auto; lia]. split; [assumption|]. eapply Forall_impl; [|exact F]. intros c Hc. unfold digit_of in Hc. unfold ascii_digit. lia.
Qed.
Lemma dec_format_ok w v : native_int w -> 0 <= v < 2 ^ w -> exists s, format_integer w false char_max dec_field 0 v = Ok s.
Proof. intros Hw Hv. destruct (plain_format w false char_max TDecimal v 10 Hw Hv eq_refl) as (d & E' & _). eauto. Qed.
Lemma hex_format w v : native_int w -> 0 <= v < 2 ^ w -> exists s, format_integer w false char_max hex_field 0 v = Ok s /\
  s <> [] /\ Forall ascii_xdigit s /\ number 16 s = v /\ positional 16 false v s.
Proof.
  intros Hw Hv. destruct (plain_format w false char_max THex v 16 Hw Hv eq_refl) as (d & E' & P).
  change (plain_field THex) with hex_field in E'. assert (EN : (v <? 0) = false) by (apply Z.ltb_ge; lia). rewrite EN in E'. cbn [app] in E'.
  rewrite Z.abs_eq in P by lia. destruct P as (F & V & N & L). exists d. split; [assumption|]. split; [assumption|].
  split; [eapply Forall_impl; [|exact F]; intros c Hc; unfold digit_of in Hc; unfold ascii_xdigit, ascii_digit; lia|].
  split; [rewrite number_positional by auto; lia|]. unfold positional; auto.
Qed.

(** Network order *)
Lemma octets_inj h h' : 0 <= h < 2 ^ 32 -> 0 <= h' < 2 ^ 32 -> octets h = octets h' -> h = h'.
Proof.
  unfold octets. intros H H' E. injection E as E1 E2 E3 E4.
  change (2 ^ 32) with 4294967296 in *. change (2 ^ 24) with 16777216 in *. change (2 ^ 16) with 65536 in *. change (2 ^ 8) with 256 in *. dlia.
Qed.
Lemma swap_octets h : 0 <= h < 2 ^ 32 -> rev (octets (endian_swap 4 h)) = octets h /\ 0 <= endian_swap 4 h < 2 ^ 32.
Proof.
  intros H. assert (HN : native_size 4) by (unfold native_size; auto). assert (H' : 0 <= h < 256 ^ Z.of_nat 4) by exact H.
  destruct (endian_swap_involutive 4 h HN H') as [HR _]. change (256 ^ Z.of_nat 4) with (2 ^ 32) in HR. split; [|assumption].
  assert (HB : forall i, (i < 4)%nat -> byte_of (endian_swap 4 h) i = byte_of h (4 - 1 - i)) by (intros i Hi; now apply endian_swap_reverses).
  pose proof (HB 0%nat ltac:(lia)) as B0. pose proof (HB 1%nat ltac:(lia)) as B1. pose proof (HB 2%nat ltac:(lia)) as B2. pose proof (HB 3%nat ltac:(lia)) as B3.
  cbn [Nat.sub] in *. unfold byte_of in *.
  change (256 ^ Z.of_nat 0) with 1 in *. change (256 ^ Z.of_nat 1) with (2 ^ 8) in *. change (256 ^ Z.of_nat 2) with (2 ^ 16) in *. change (256 ^ Z.of_nat 3) with (2 ^ 24) in *.
  rewrite !Z.div_1_r in *.
  assert (T : forall x, 0 <= x < 2 ^ 32 -> (x / 2 ^ 24) mod 256 = x / 2 ^ 24).
  { intros x Hx. apply Z.mod_small. change (2 ^ 24) with 16777216. change (2 ^ 32) with 4294967296 in Hx. dlia. }
  rewrite !T in * by assumption. unfold octets. cbn [rev app]. congruence.
Qed.
