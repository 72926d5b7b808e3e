(** Property C61: join and generate_random_string. *)
From Verif Require Import Common Bits Lexer_Model Format_Model Format_Spec Format_Proofs Format_Props FormatString_Model FormatString_Props Strings_Model Strings_Spec Strings_Props Join_Model Join_Spec.

(** Arguments that are characters of the string's own type. *)
Definition own_character (bits : Z) (sg : bool) (cm : Z) (a : arg) : Prop := match a with ACharacter w s c => w = bits /\ s = sg /\ 0 <= c <= cm | AString s => Z.of_nat (length s) < 2 ^ 64 | _ => True end.

(** ** One value *)
Definition sp0 (a : arg) (pos start : Z) : specifier := Specifier pos None ADefault SDefault false false None None None None false (infer (Some (type_of_arg a))) CLower (start + 1) 2.
Lemma parse_one bits a : parse_format bits (map type_of_arg [a]) one_field = Ok (Some [sp0 a 0 0]).
Proof. destruct a; reflexivity. Qed.
Lemma parse_two bits sg a c : parse_format bits (map type_of_arg [a; ACharacter bits sg c]) two_fields = Ok (Some [sp0 a 0 0; sp0 (ACharacter bits sg c) 1 2]).
Proof. destruct a; reflexivity. Qed.
Lemma format_one bits cm a : format_to bits cm [] one_field [a] = format_arg cm [a] (sp0 a 0 0) a.
Proof.
  unfold format_to. rewrite parse_one. cbn [bind]. change (format_loop (S (length one_field)) cm [a] one_field 0 [sp0 a 0 0]) with (let! out := format_arg cm [a] (sp0 a 0 0) a in let! rest := Ok [] in Ok (out ++ rest)).
  destruct (format_arg cm [a] (sp0 a 0 0) a) as [x|]; cbn [bind]; [now rewrite app_nil_r|reflexivity].
Qed.
Lemma format_two bits sg cm a c : format_to bits cm [] two_fields [a; ACharacter bits sg c] =
  let! x := format_arg cm [a; ACharacter bits sg c] (sp0 a 0 0) a in
  let! y := format_arg cm [a; ACharacter bits sg c] (sp0 (ACharacter bits sg c) 1 2) (ACharacter bits sg c) in Ok (x ++ y).
Proof.
  unfold format_to. rewrite parse_two. cbn [bind].
  change (format_loop (S (length two_fields)) cm [a; ACharacter bits sg c] two_fields 0 [sp0 a 0 0; sp0 (ACharacter bits sg c) 1 2]) with
    (let! out := format_arg cm [a; ACharacter bits sg c] (sp0 a 0 0) a in let! rest := (let! out := format_arg cm [a; ACharacter bits sg c] (sp0 (ACharacter bits sg c) 1 2) (ACharacter bits sg c) in let! rest := Ok [] in Ok (out ++ rest)) in Ok (out ++ rest)).
  destruct (format_arg cm _ (sp0 a 0 0) a) as [x|]; cbn [bind]; [|reflexivity]. destruct (format_arg cm _ (sp0 (ACharacter bits sg c) 1 2) _) as [y|]; cbn [bind]; [now rewrite app_nil_r|reflexivity].
Qed.

Lemma character_type_range bits sg cm : character_type bits sg cm -> native_int bits /\ 8 <= bits /\ 0 <= cm < 2 ^ bits /\ forall c, 0 <= c <= cm -> int_ok bits sg c.
Proof.
  intros ([-> |[-> | ->]] & E); unfold native_int, int_ok; destruct sg; cbn in E; subst cm; repeat split; auto; cbn; intros; lia.
Qed.
Lemma format_plain bits sg cm args a p s : character_type bits sg cm -> arg_ok a -> own_character bits sg cm a -> exists x, plain a x /\ format_arg cm args (sp0 a p s) a = Ok x.
Proof.
  intros HT HA HC. apply character_type_range in HT. destruct HT as (HN & HB & HCM & HI). destruct a as [w sg' v|t|v|w sg' v|out|b|out]; cbn [plain arg_ok own_character] in *; unfold format_arg; change (resolve_width args _ 0) with 0.
  - destruct HC as (-> & -> & HC). exists [v]. split; [reflexivity|]. destruct HA as (Hw & Hv).
    destruct (format_integer_as_character bits sg cm (sp0 (ACharacter bits sg v) p s) 0 v Hw Hv ltac:(lia) eq_refl HCM) as (H & _). destruct (H HC) as (l & q & E & L). cbv zeta in *. rewrite E.
    assert (l = O /\ q = O) as (-> & ->) by lia. reflexivity.
  - exists t. split; [reflexivity|]. f_equal.
    destruct (format_string_value_exact (sp0 (AString t) p s) 0 (Some npos) t) as (l & q & E & _ & L); [lia|intros ? E; injection E as <-; unfold npos; lia|].
    cbv zeta in *. change (resolve_precision args (sp0 (AString t) p s) npos) with npos. rewrite E. rewrite !app_length, !repeat_length in L. rewrite firstn_all2 in * by (unfold npos; change (2 ^ 64) with 18446744073709551616 in HC; lia).
    assert (l = O /\ q = O) as (-> & ->) by lia. cbn [repeat app]. apply app_nil_r.
  - destruct (format_integer_exact 64 false cm (with_pointer_options (sp0 (APointer v) p s)) 0 v 16) as (l & z & q & d & E & P & _ & L); [unfold native_int; auto|assumption|lia|reflexivity|]. cbv zeta in *.
    exists ([48; 120] ++ d). split; [exists d; split; [rewrite Z.abs_eq in P by lia; exact P|reflexivity]|]. unfold format_pointer. rewrite E. f_equal.
    assert (ES : sign_text (m_sign (with_pointer_options (sp0 (APointer v) p s))) v = []) by (unfold sign_text; destruct (Z.ltb_spec v 0); [lia|reflexivity]). rewrite ES in *.
    change (base_text _ _ _) with [48; 120] in *. rewrite !app_length, !repeat_length in L.
    assert (l = O /\ z = O /\ q = O) as (-> & -> & ->) by lia. cbn [repeat app]. now rewrite app_nil_r.
  - destruct HA as (Hw & Hv). destruct (format_integer_exact w sg' cm (sp0 (AInteger w sg' v) p s) 0 v 10 Hw Hv) as (l & z & q & d & E & P & _ & L); [lia|reflexivity|]. cbv zeta in *.
    exists ((if v <? 0 then [45] else []) ++ d). split; [exists d; split; [exact P|reflexivity]|]. rewrite E. f_equal.
    change (sign_text _ v) with (if v <? 0 then [45] else []) in *. change (base_text _ _ _) with (@nil Z) in *. rewrite !app_length, !repeat_length in L. rewrite app_nil_r.
    assert (l = O /\ z = O /\ q = O) as (-> & -> & ->) by lia. cbn [repeat app]. now rewrite app_nil_r.
  - eexists. split; [|reflexivity]. eexists. split; [|reflexivity]. unfold no_options. cbn. tauto.
  - eexists. split; [reflexivity|]. unfold format_bool. cbn [sp0 m_type infer type_of_arg]. f_equal. change (resolve_precision args _ npos) with npos. now destruct b.
  - eexists. split; reflexivity.
Qed.
Lemma format_separator bits sg cm args c p s : character_type bits sg cm -> int_ok bits sg c -> format_arg cm args (sp0 (ACharacter bits sg c) p s) (ACharacter bits sg c) = Ok (if (0 <=? c) && (c <=? cm) then [c] else []).
Proof.
  intros HT HI. pose proof (character_type_range _ _ _ HT) as (HN & HB & HCM & _). destruct (format_integer_as_character bits sg cm (sp0 (ACharacter bits sg c) p s) 0 c HN HI ltac:(lia) eq_refl HCM) as (H1 & H2).
  unfold format_arg. change (resolve_width args _ 0) with 0. destruct (Z.leb_spec 0 c), (Z.leb_spec c cm); cbn [andb]; try (apply H2; lia).
  destruct (H1 ltac:(lia)) as (l & q & E & L). cbv zeta in E. rewrite E. assert (l = O /\ q = O) as (-> & ->) by lia. reflexivity.
Qed.

(** ** join *)
Lemma join_internal_step bits sg cm result c a b args : join_internal bits sg cm result c (a :: b :: args) =
  let! text := format_to bits cm [] two_fields [a; ACharacter bits sg c] in join_internal bits sg cm (result ++ text) c (b :: args).
Proof. reflexivity. Qed.
Lemma join_internal_shown bits sg cm c args : character_type bits sg cm -> 0 <= c <= cm -> args <> [] -> Forall arg_ok args -> Forall (own_character bits sg cm) args ->
  exists texts, Forall2 plain args texts /\ forall result, join_internal bits sg cm result c args = Ok (result ++ separated c texts).
Proof.
  intros HT HC HN HA HO. pose proof (character_type_range _ _ _ HT) as (_ & _ & _ & HI). induction args as [|a args IH]; [congruence|]. inversion HA as [|? ? HA1 HA2]; subst. inversion HO as [|? ? HO1 HO2]; subst.
  destruct args as [|b args].
  - destruct (format_plain bits sg cm [a] a 0 0 HT HA1 HO1) as (x & P & E). exists [x]. split; [auto|]. intros result. cbn [join_internal separated]. rewrite format_one, E. reflexivity.
  - destruct (IH ltac:(discriminate) HA2 HO2) as (texts & F & J). destruct (format_plain bits sg cm [a; ACharacter bits sg c] a 0 0 HT HA1 HO1) as (x & P & E). exists (x :: texts). split; [now constructor|]. intros result.
    rewrite join_internal_step, format_two, E, (format_separator bits sg cm _ c 1 2 HT) by auto. cbn [bind].
    destruct (Z.leb_spec 0 c); [|lia]. destruct (Z.leb_spec c cm); [|lia]. cbn [andb]. rewrite J. inversion F as [|? t ? ts P2 F2]; subst. cbn [separated]. now rewrite <- !app_assoc.
Qed.
(** The plain texts of the arguments with the separator between each two. *)
Theorem join_shown : forall bits sg cm separator args, character_type bits sg cm -> 0 <= separator <= cm -> args <> [] -> Forall arg_ok args -> Forall (own_character bits sg cm) args ->
  exists texts, Forall2 plain args texts /\ join bits sg cm separator args = Ok (separated separator texts).
Proof. intros bits sg cm c args HT HC HN HA HO. destruct (join_internal_shown bits sg cm c args HT HC HN HA HO) as (texts & F & J). exists texts. split; [assumption|]. apply (J []). Qed.
(** [plain] determines the text. *)
Theorem plain_unique : forall a x y, match a with AFloating _ => False | _ => True end -> plain a x -> plain a y -> x = y.
Proof.
  intros [w sg v|t|v|w sg v|out|b|out] x y HF; cbn [plain]; try congruence; try contradiction.
  - intros (d & P & ->) (d' & P' & ->). now rewrite (positional_unique 16 false v d d' ltac:(lia) P P').
  - intros (d & P & ->) (d' & P' & ->). now rewrite (positional_unique 10 false (Z.abs v) d d' ltac:(lia) P P').
Qed.
(** A separator whose code is negative (a char above 127 where char is signed) is left out. *)
Theorem join_separator_refuted : forall bits cm separator args, character_type bits true cm -> - 2 ^ (bits - 1) <= separator < 0 -> args <> [] -> Forall arg_ok args -> Forall (own_character bits true cm) args ->
  exists texts, Forall2 plain args texts /\ join bits true cm separator args = Ok (concat texts).
Proof.
  intros bits cm c args HT HC HN HA HO. cut (exists texts, Forall2 plain args texts /\ forall result, join_internal bits true cm result c args = Ok (result ++ concat texts)).
  { intros (texts & F & J). exists texts. split; [assumption|]. apply (J []). }
  assert (HI : int_ok bits true c) by (cbn; assert (0 < 2 ^ (bits - 1)) by (apply Z.pow_pos_nonneg; destruct HT as ([-> |[-> | ->]] & _); lia); lia).
  induction args as [|a args IH]; [congruence|]. inversion HA as [|? ? HA1 HA2]; subst. inversion HO as [|? ? HO1 HO2]; subst.
  destruct args as [|b args].
  - destruct (format_plain bits true cm [a] a 0 0 HT HA1 HO1) as (x & P & E). exists [x]. split; [auto|]. intros result. cbn [join_internal concat]. rewrite format_one, E, app_nil_r. reflexivity.
  - destruct (IH ltac:(discriminate) HA2 HO2) as (texts & F & J). destruct (format_plain bits true cm [a; ACharacter bits true c] a 0 0 HT HA1 HO1) as (x & P & E). exists (x :: texts). split; [now constructor|]. intros result.
    rewrite join_internal_step, format_two, E, (format_separator bits true cm _ c 1 2 HT) by auto. cbn [bind].
    destruct (Z.leb_spec 0 c); [lia|]. cbn [andb]. rewrite J. cbn [concat]. now rewrite app_nil_r, <- !app_assoc.
Qed.

(** ** split undoes join *)
Lemma separated_join c texts : separated c texts = Strings_Spec.join c texts.
Proof. induction texts as [|t [|t' texts] IH]; [reflexivity..|]. cbn [separated Strings_Spec.join app] in *. now rewrite IH. Qed.
Lemma strings_plain args texts : Forall2 plain (map AString args) texts -> texts = args.
Proof. revert texts. induction args as [|a args IH]; intros texts F; inversion F as [|? t ? ts P F2]; subst; [reflexivity|]. cbn [plain] in P. now rewrite P, (IH _ F2). Qed.
Theorem split_join : forall bits sg cm separator strings, character_type bits sg cm -> 0 <= separator <= cm -> strings <> [] -> Forall (fun s => ~ In separator s) strings -> Forall (fun s => Z.of_nat (length s) < 2 ^ 64) strings ->
  exists joined, join bits sg cm separator (map AString strings) = Ok joined /\ split joined separator 0 = Ok (filter nonempty strings) /\ pieces_of separator joined strings.
Proof.
  intros bits sg cm c strings HT HC HN HF HL. destruct (join_shown bits sg cm c (map AString strings) HT HC) as (texts & F & J).
  - now destruct strings. - apply Forall_map. apply Forall_forall. intros x _. exact I. - apply Forall_map. exact HL.
  - apply strings_plain in F. subst texts. exists (separated c strings). split; [exact J|]. rewrite separated_join.
    assert (HP : pieces_of c (Strings_Spec.join c strings) strings) by (split; [assumption|]; split; [assumption|reflexivity]). split; [now apply split_pieces|assumption].
Qed.

(** ** generate_random_string *)
Definition in_range (drawn : nat -> Z) : Prop := forall i, 0 <= drawn i <= 61.
Lemma alpha_num_chars i : 0 <= i <= 61 -> exists c, lookup s_alpha_num (Z.to_nat i) = Some c /\ alphanumeric c /\ nth_error s_alpha_num (Z.to_nat i) = Some c.
Proof.
  intros H. rewrite lookup_nth. destruct (nth_error s_alpha_num (Z.to_nat i)) as [c|] eqn:E.
  - exists c. split; [reflexivity|]. split; [|reflexivity]. apply nth_error_In in E. assert (G : Forall alphanumeric s_alpha_num) by (unfold s_alpha_num, alphanumeric; repeat (constructor; [lia|]); constructor). rewrite Forall_forall in G. now apply G.
  - apply nth_error_None in E. unfold s_alpha_num in E. cbn [length] in E. lia.
Qed.
(** As many characters as asked for, all digits or letters; the next call goes on with the rest of the engine's numbers. *)
Theorem random_string : forall n drawn, in_range drawn -> exists s, generate_random_string n drawn = Ok (s, fun i => drawn (n + i)%nat) /\ length s = n /\ Forall alphanumeric s.
Proof.
  induction n as [|n IH]; intros drawn H; [exists []; cbn; auto|]. destruct (alpha_num_chars (drawn O) (H O)) as (c & E & A & _).
  destruct (IH (fun i => drawn (S i)) (fun i => H (S i))) as (s & E2 & L & F). exists (c :: s). cbn [generate_random_string]. rewrite E, E2. cbn [bind length]. split; [reflexivity|]. split; [now rewrite L|now constructor].
Qed.
(** Every string of digits and letters can be the result. *)
Theorem random_string_any : forall s, Forall alphanumeric s -> exists drawn, in_range drawn /\ exists rest, generate_random_string (length s) drawn = Ok (s, rest).
Proof.
  induction 1 as [|c s A F (drawn & R & rest & E)]; [exists (fun _ => 0); split; [intros i; lia|exists (fun _ => 0); reflexivity]|].
  assert (HX : exists k, 0 <= k <= 61 /\ lookup s_alpha_num (Z.to_nat k) = Some c).
  { assert (HI : In c s_alpha_num). { unfold alphanumeric in A. unfold s_alpha_num. cbn [In]. lia. }
    apply In_nth_error in HI. destruct HI as (k & HK). exists (Z.of_nat k). rewrite Nat2Z.id, lookup_nth. split; [|assumption]. assert (k < length s_alpha_num)%nat by (apply nth_error_Some; congruence). cbn [length s_alpha_num] in H. lia. }
  destruct HX as (k & HK & HL). exists (fun i => match i with O => k | S j => drawn j end). split; [intros [|i]; [assumption|apply R]|]. exists rest. cbn [generate_random_string length]. rewrite HL. cbn [bind]. 
  change (fun i => drawn i) with drawn. now rewrite E.
Qed.
(** The distribution's range is that of the alphabet: different numbers, different characters. *)
Theorem random_characters : limit = 61 /\ forall i j c, 0 <= i <= limit -> 0 <= j <= limit -> nth_error s_alpha_num (Z.to_nat i) = Some c -> nth_error s_alpha_num (Z.to_nat j) = Some c -> i = j.
Proof.
  split; [reflexivity|]. intros i j c Hi Hj E1 E2. assert (HD : NoDup s_alpha_num) by (unfold s_alpha_num; repeat (constructor; [cbn [In]; lia|]); constructor).
  rewrite NoDup_nth_error in HD. assert (HL : (Z.to_nat i < length s_alpha_num)%nat) by (apply nth_error_Some; congruence).
  specialize (HD (Z.to_nat i) (Z.to_nat j) HL ltac:(congruence)). lia.
Qed.

(** ** Examples *)
(** join('.', "a", -7, true, 'x') *)
Example join_run : character_type 8 true 127 /\ join 8 true 127 46 [AString [97]; AInteger 32 true (-7); ABoolean true; ACharacter 8 true 120] =
  Ok [97; 46; 45; 55; 46; 116; 114; 117; 101; 46; 120].
Proof. split; [split; [now left|reflexivity]|reflexivity]. Qed.
(** join('\xa7', "a", "b") is "ab" where char is signed. *)
Example join_lost_separator : join 8 true 127 (-89) [AString [97]; AString [98]] = Ok [97; 98].
Proof. reflexivity. Qed.
Example random_run : exists rest, generate_random_string 3 (fun i => match i with O => 0 | 1%nat => 61 | _ => 10 end) = Ok ([48; 122; 65], rest).
Proof. eexists. reflexivity. Qed.
