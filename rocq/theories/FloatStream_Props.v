(** C69: floating-point values formatted through a stream (builds without floating-point std::to_chars). *)
From Verif Require Import Common Bits Lexer_Model Lexer_Props Format_Model Format_Spec Format_Proofs Float_Model Float_Spec Float_Proofs Float_Props FloatStream_Model.

(** ** What the C library writes: the texts of Float_Spec with a sign *)
Definition is_finite_value (v : magnitude) : bool := match v with Finite _ _ => true | _ => false end.
Definition c_sign (plus negative : bool) : list Z := if negative then [45] else if plus then [43] else [].
(** printf with a decimal presentation and the precision p. *)
Definition c_library (printf : cformat -> list Z) (negative : bool) (v : magnitude) (p : Z) : Prop :=
  forall plus sharp t upper, decimal_type t ->
    exists number, printf_text t sharp (Z.to_nat p) v number /\
      printf (CFormat plus sharp (Some p) t upper) = c_sign plus negative ++ in_case (if upper then CUpper else CLower) number.

(** There is such a library. *)
Theorem c_library_exists : forall negative v p, (forall m e, v = Finite m e -> 0 <= m) -> exists printf, c_library printf negative v p.
Proof.
  intros neg v p HM.
  destruct (printf_text_exists TFixed false (Z.to_nat p) v ltac:(unfold decimal_type; tauto) HM) as (f0 & F0). destruct (printf_text_exists TFixed true (Z.to_nat p) v ltac:(unfold decimal_type; tauto) HM) as (f1 & F1).
  destruct (printf_text_exists TScientific false (Z.to_nat p) v ltac:(unfold decimal_type; tauto) HM) as (e0 & E0). destruct (printf_text_exists TScientific true (Z.to_nat p) v ltac:(unfold decimal_type; tauto) HM) as (e1 & E1).
  destruct (printf_text_exists TGeneral false (Z.to_nat p) v ltac:(unfold decimal_type; tauto) HM) as (g0 & G0). destruct (printf_text_exists TGeneral true (Z.to_nat p) v ltac:(unfold decimal_type; tauto) HM) as (g1 & G1).
  exists (fun c => c_sign (c_plus c) neg ++ in_case (if c_upper c then CUpper else CLower)
    (match c_type c with TFixed => if c_sharp c then f1 else f0 | TScientific => if c_sharp c then e1 else e0 | _ => if c_sharp c then g1 else g0 end)).
  intros plus sharp t upper HT. cbn [c_plus c_upper c_type c_sharp]. destruct HT as [-> |[-> | ->]], sharp; eexists; (split; [|reflexivity]); assumption.
Qed.

(** ** The stream is left as it was *)
Theorem stream_restored : forall c s, swidth s = 0 -> str s = [] -> snd (run_call c s) = s.
Proof.
  intros [printf fin [pos fill al sg alt zp w wp p pp lf t cs pi sz] width precision] [f1 f2 f3 f4 f5 f6 f7 f8 fc fw fp st] HW HS. cbn [swidth str] in HW, HS. subst fw st.
  unfold run_call, format_stream. cbn [c_printf c_finite c_spec c_width c_prec m_sign m_alternate_form m_zero_padding m_type m_case].
  destruct sg, alt, zp, t, cs, fin; reflexivity.
Qed.
(** So nothing a thread has formatted before changes what it formats later. *)
Theorem formatting_has_no_history : forall cs, run_calls cs new_stream = (map (fun c => fst (run_call c new_stream)) cs, new_stream).
Proof.
  induction cs as [|c cs IH]; [reflexivity|]. cbn [run_calls map]. pose proof (stream_restored c new_stream eq_refl eq_refl) as E.
  destruct (run_call c new_stream) as [out s] eqn:ER. cbn [snd] in E. subst s. rewrite IH. reflexivity.
Qed.

(** ** The characters of a number *)
Definition number_char (c : Z) : Prop := 48 <= c <= 57 \/ c = 46 \/ c = 101 \/ c = 43 \/ c = 45.
Lemma digits_numeric l : decimal_digits l -> Forall number_char l.
Proof. intros H. eapply Forall_impl; [|exact H]. intros c D. left. unfold digit_of in D. lia. Qed.
Lemma exponent_numeric x ex : exponent_text x ex -> Forall number_char ex.
Proof.
  intros (ds & -> & (D & _)). constructor; [unfold number_char; lia|]. constructor; [destruct (x <? 0); unfold number_char; lia|].
  apply Forall_app. split; [destruct (Z.abs x <? 10); repeat constructor; unfold number_char; lia|now apply digits_numeric].
Qed.
Lemma without_zeros_digits alt fp fp' : without_zeros alt fp fp' -> decimal_digits fp -> decimal_digits fp'.
Proof. destruct alt; [cbn; now intros ->|apply sub_digits]. Qed.
Lemma number_chars t alt p m e s : printf_text t alt p (Finite m e) s -> exists c r, s = c :: r /\ 48 <= c <= 57 /\ Forall number_char r.
Proof.
  assert (HC : forall c l, decimal_digits (c :: l) -> 48 <= c <= 57 /\ decimal_digits l).
  { intros c l H. inversion H as [|? ? D D']; subst. split; [|assumption]. unfold digit_of in D. lia. }
  cbn [printf_text]. destruct t; try contradiction.
  - intros (x & c & fp & ex & (D & _) & X & ->). destruct (HC _ _ D) as (B & D'). exists c, (point alt fp ++ ex). split; [reflexivity|]. split; [assumption|].
    apply Forall_app. split; [apply point_chars; [unfold number_char; lia|now apply digits_numeric]|now apply exponent_numeric in X].
  - intros (ip & fp & (D1 & D2 & _ & N & _) & ->). destruct ip as [|c ip]; [congruence|]. destruct (HC _ _ D1) as (B & D'). exists c, (ip ++ point alt fp). split; [reflexivity|]. split; [assumption|].
    apply Forall_app. split; [now apply digits_numeric|apply point_chars; [unfold number_char; lia|now apply digits_numeric]].
  - intros (x & c & ds & (D & _) & [(B & ip & fp & fp' & (D1 & D2 & _ & N & _) & W & ->)|(B & ds' & ex & W & X & ->)]).
    + destruct ip as [|i ip]; [congruence|]. destruct (HC _ _ D1) as (B' & D'). exists i, (ip ++ point alt fp'). split; [reflexivity|]. split; [assumption|].
      apply Forall_app. split; [now apply digits_numeric|apply point_chars; [unfold number_char; lia|apply digits_numeric; eapply without_zeros_digits; eassumption]].
    + destruct (HC _ _ D) as (B' & D'). exists c, (point alt ds' ++ ex). split; [reflexivity|]. split; [assumption|].
      apply Forall_app. split; [apply point_chars; [unfold number_char; lia|apply digits_numeric; eapply without_zeros_digits; eassumption]|now apply exponent_numeric in X].
Qed.
(** The text begins with no sign, and not with 0x. *)
Definition plain_start (l : list Z) : Prop := match l with [] => False | c :: r => c <> 43 /\ c <> 45 /\ match r with [] => True | d :: _ => c <> 48 \/ d <> 120 /\ d <> 88 end end.
Lemma number_start t alt p v s c : printf_text t alt p v s -> plain_start (in_case c s).
Proof.
  destruct v as [m e| |]; [|cbn; intros ->; destruct c; cbn; lia..]. intros H. apply number_chars in H. destruct H as (a & r & -> & B & F).
  destruct c; cbn [in_case map].
  - cbn. split; [lia|]. split; [lia|]. destruct r as [|d r]; [trivial|]. cbn. right. inversion F; subst. unfold number_char in *. lia.
  - cbn. destruct (Z.leb_spec 97 a); [lia|]. cbn [andb]. split; [lia|]. split; [lia|]. destruct r as [|d r]; [exact I|]. right.
    inversion F as [|? ? D F']; subst. unfold number_char in D. destruct (Z.leb_spec 97 d), (Z.leb_spec d 122); cbn [andb]; lia.
Qed.

(** ** What is shown *)
(** With the option that shows a blank for a positive sign, every plus sign of the number becomes a blank. *)
Definition blanks_for_plus (o : sign_option) (s : list Z) : list Z :=
  match o with SNegativeOnlyWithPositivePadding => map (fun c => if c =? 43 then 32 else c) s | _ => s end.

Lemma widen_false l : map (widen false) l = l.
Proof. induction l as [|a l IH]; [reflexivity|]. cbn. now rewrite IH. Qed.
Lemma widen_true l : map (widen true) l = map (fun c => if c =? 43 then 32 else c) l.
Proof. reflexivity. Qed.
Definition is_padding_sign (o : sign_option) : bool := match o with SNegativeOnlyWithPositivePadding => true | _ => false end.
Definition shows_plus (o : sign_option) : bool := match o with SAlways | SNegativeOnlyWithPositivePadding => true | _ => false end.
Lemma blanks_widen o l : map (widen (is_padding_sign o)) l = blanks_for_plus o l.
Proof. destruct o; try apply widen_false. reflexivity. Qed.
Lemma blanks_app o a b : blanks_for_plus o (a ++ b) = blanks_for_plus o a ++ blanks_for_plus o b.
Proof. destruct o; try reflexivity. apply map_app. Qed.
Lemma blanks_length o a : length (blanks_for_plus o a) = length a.
Proof. destruct o; try reflexivity. apply map_length. Qed.
Lemma sign_shown o neg : blanks_for_plus o (c_sign (shows_plus o) neg) = shown_sign o neg.
Proof. destruct o, neg; reflexivity. Qed.

Definition presentation (finite : bool) (t : ftype) : ftype := match t with TFixed => if finite then TFixed else TGeneral | _ => t end.
Definition filled (spec : specifier) (width : Z) (text : list Z) : list Z :=
  format_string_value (Specifier (m_position spec) (m_fill spec) (match m_alignment spec with ADefault => ARight | a => a end) (m_sign spec) (m_alternate_form spec) (m_zero_padding spec)
                 (m_width spec) (m_width_position spec) None None (m_locale_specific_form spec) (m_type spec) (m_case spec) (m_parse_index spec) (m_size spec)) width None text.
Definition stream_for (spec : specifier) (width precision : Z) (finite : bool) : stream :=
  let t := presentation finite (m_type spec) in
  Stream (shows_plus (m_sign spec)) (m_alternate_form spec) (match m_case spec with CUpper => true | CLower => false end)
    (match t with TFixed => true | _ => false end) (match t with TScientific => true | _ => false end) false (m_zero_padding spec)
    (is_padding_sign (m_sign spec)) (if m_zero_padding spec then 48 else 32) (if m_zero_padding spec then streamsize width else 0) (streamsize precision) [].
Lemma format_stream_eq printf finite spec width precision : decimal_type (m_type spec) ->
  fst (format_stream printf finite spec width precision new_stream) =
  filled spec width (inserted (stream_for spec width precision finite)
    (printf (CFormat (shows_plus (m_sign spec)) (m_alternate_form spec) (Some (streamsize precision)) (presentation finite (m_type spec)) (match m_case spec with CUpper => true | CLower => false end)))).
Proof.
  destruct spec as [pos fill al sg alt zp w wp p pp lf t cs pi sz]. cbn [m_type]. unfold format_stream, filled, stream_for. cbn [m_position m_fill m_alignment m_sign m_alternate_form m_zero_padding m_width m_width_position m_precision m_precision_position m_locale_specific_form m_type m_case m_parse_index m_size].
  intros HT. destruct sg, alt, zp, cs, finite; destruct HT as [-> |[-> | ->]]; reflexivity.
Qed.
Lemma streamsize_small n : 0 <= n < 2 ^ 63 -> streamsize n = n.
Proof. intros H. unfold streamsize, signed. change (2 ^ (64 - 1)) with (2 ^ 63). change (2 ^ 64) with (2 * 2 ^ 63). rewrite Z.mod_small by lia. destruct (Z.ltb_spec n (2 ^ 63)); lia. Qed.

Lemma inserted_eq spec width precision finite negative n : plain_start n -> 0 <= width < 2 ^ 63 ->
  let prefix := shown_sign (m_sign spec) negative in let shown := blanks_for_plus (m_sign spec) n in
  inserted (stream_for spec width precision finite) (c_sign (shows_plus (m_sign spec)) negative ++ n) =
    prefix ++ repeat 48 (if m_zero_padding spec then Z.to_nat width - length (prefix ++ n) else 0) ++ shown.
Proof.
  intros HN HW. cbv zeta. unfold inserted, stream_for. cbn [left internal padding_facet sfill swidth].
  assert (HL : length (c_sign (shows_plus (m_sign spec)) negative) = length (shown_sign (m_sign spec) negative)) by (destruct (m_sign spec), negative; reflexivity).
  rewrite blanks_widen, blanks_app, sign_shown. destruct (m_zero_padding spec).
  - rewrite streamsize_small by assumption. rewrite !app_length, HL. set (k := (Z.to_nat width - _)%nat). clearbody k.
    destruct n as [|a n]; [contradiction|]. cbn in HN. destruct HN as (H1 & H2 & H3).
    assert (CASE : c_sign (shows_plus (m_sign spec)) negative = [] /\ shown_sign (m_sign spec) negative = [] \/
                   exists c w, c_sign (shows_plus (m_sign spec)) negative = [c] /\ shown_sign (m_sign spec) negative = [w] /\ ((c =? 43) || (c =? 45)) = true).
    { destruct (m_sign spec), negative; cbn; eauto 10. }
    destruct CASE as [(-> & ->)|(c & w & -> & -> & EC)].
    + cbn [app]. assert (E : exists b n', blanks_for_plus (m_sign spec) (a :: n) = b :: n') by (destruct (m_sign spec); cbn; eauto). destruct E as (b & n' & E). rewrite E.
      destruct (Z.eqb_spec a 43); [lia|]. destruct (Z.eqb_spec a 45); [lia|]. cbn [orb].
      destruct (Z.eq_dec a 48) as [-> |NE].
      * destruct n as [|x n]; [reflexivity|]. destruct n' as [|y n']; [reflexivity|]. destruct (Z.eqb_spec x 120), (Z.eqb_spec x 88); cbn [orb]; try reflexivity; lia.
      * assert (EM : forall (A : Type) (f : Z -> list Z -> Z -> list Z -> A) (d : A), (match a :: n, n' with 48 :: x :: r, y :: rest' => f x r y rest' | _, _ => d end) = d).
        { intros. destruct a as [|q|q]; try reflexivity. do 6 (destruct q; try reflexivity); exfalso; now apply NE. }
        exact (EM _ (fun x _ y rest' => if (x =? 120) || (x =? 88) then b :: y :: repeat 48 k ++ rest' else repeat 48 k ++ b :: n') (repeat 48 k ++ b :: n')).
    + cbn [app]. rewrite EC. reflexivity.
  - cbn [repeat app Z.to_nat Nat.sub]. reflexivity.
Qed.

Lemma filled_parts spec width text : 0 <= width -> exists left_ right_, let fill := value_or (m_fill spec) 32 in
  filled spec width text = repeat fill left_ ++ text ++ repeat fill right_ /\
  match m_alignment spec with ALeft => left_ = O | ARight | ADefault => right_ = O | ACenter => (left_ <= right_ <= left_ + 1)%nat end /\
  Z.of_nat (left_ + right_ + length text) = Z.max width (Z.of_nat (length text)).
Proof.
  intros HW. unfold filled, format_string_value, padding. cbn [m_fill m_alignment]. rewrite Nat2Z.id, firstn_all.
  set (N := Z.of_nat (length text)). set (p := Z.max N width - N). assert (0 <= p) by (unfold p; lia).
  destruct (m_alignment spec); cbv zeta.
  - exists (Z.to_nat p), O. cbn [repeat]. rewrite app_nil_r. split; [reflexivity|]. split; [reflexivity|]. unfold p, N in *. lia.
  - exists O, (Z.to_nat p). split; [reflexivity|]. split; [reflexivity|]. unfold p, N in *. lia.
  - exists (Z.to_nat p), O. cbn [repeat]. rewrite app_nil_r. split; [reflexivity|]. split; [reflexivity|]. unfold p, N in *. lia.
  - exists (Z.to_nat (p / 2)), (Z.to_nat (if p mod 2 =? 0 then p / 2 else p / 2 + 1)). split; [reflexivity|].
    pose proof (Z.div_mod p 2 ltac:(lia)) as E. pose proof (Z.mod_pos_bound p 2 ltac:(lia)). assert (0 <= p / 2) by (apply Z.div_pos; lia).
    destruct (Z.eqb_spec (p mod 2) 0); (split; [lia|]); unfold p, N in *; lia.
Qed.

(** What is shown, exactly: for every value, presentation, sign, alternate form, case, fill, alignment, width and precision. *)
Theorem stream_exact : forall printf negative v spec width precision,
  c_library printf negative v precision -> decimal_type (m_type spec) -> 0 <= width < 2 ^ 63 -> 0 <= precision < 2 ^ 31 -> (m_zero_padding spec = true -> m_alignment spec = ADefault) ->
  exists number left_ zeros right_, let fill := value_or (m_fill spec) 32 in let prefix := shown_sign (m_sign spec) negative in
    let out := repeat fill left_ ++ prefix ++ repeat 48 zeros ++ blanks_for_plus (m_sign spec) (in_case (m_case spec) number) ++ repeat fill right_ in
    fst (format_stream printf (is_finite_value v) spec width precision new_stream) = out /\
    printf_text (m_type spec) (m_alternate_form spec) (Z.to_nat precision) v number /\
    placed (m_alignment spec) (m_zero_padding spec) left_ zeros right_ /\ Z.of_nat (length out) = Z.max width (Z.of_nat (length (prefix ++ number))).
Proof.
  intros printf neg v spec width precision HC HT HW HP HZ. rewrite format_stream_eq by assumption. rewrite (streamsize_small precision) by (change (2 ^ 63) with (2 ^ 31 * 2 ^ 32); lia).
  assert (HT' : decimal_type (presentation (is_finite_value v) (m_type spec))).
  { destruct HT as [-> |[-> | ->]]; cbn [presentation]; unfold decimal_type; [destruct (is_finite_value v)|..]; tauto. }
  destruct (HC (shows_plus (m_sign spec)) (m_alternate_form spec) _ (match m_case spec with CUpper => true | CLower => false end) HT') as (number & HN & ->).
  assert (HN' : printf_text (m_type spec) (m_alternate_form spec) (Z.to_nat precision) v number).
  { destruct v as [m e| |]; [|exact HN..]. replace (presentation (is_finite_value (Finite m e)) (m_type spec)) with (m_type spec) in HN by (destruct HT as [-> |[-> | ->]]; reflexivity). exact HN. }
  assert (EC : (if match m_case spec with CUpper => true | CLower => false end then CUpper else CLower) = m_case spec) by now destruct (m_case spec). rewrite EC.
  rewrite inserted_eq by (assumption || (eapply number_start; exact HN')). set (prefix := shown_sign (m_sign spec) neg). set (shown := blanks_for_plus (m_sign spec) (in_case (m_case spec) number)).
  assert (HL : length shown = length number) by (unfold shown; now rewrite blanks_length, in_case_length).
  assert (HL2 : length (prefix ++ in_case (m_case spec) number) = (length prefix + length number)%nat) by (rewrite app_length, in_case_length; reflexivity). rewrite HL2.
  set (z := if m_zero_padding spec then (Z.to_nat width - (length prefix + length number))%nat else O).
  destruct (filled_parts spec width (prefix ++ repeat 48 z ++ shown)) as (l & r & E & PL & LEN); [lia|]. cbv zeta in E. rewrite E.
  exists number, l, z, r. cbv zeta. split; [now rewrite <- !app_assoc|]. split; [assumption|].
  assert (LT : length (prefix ++ repeat 48 z ++ shown) = (length prefix + z + length number)%nat) by (rewrite !app_length, repeat_length; lia). rewrite LT in LEN.
  split.
  - unfold placed. destruct (m_zero_padding spec) eqn:EZ.
    + rewrite HZ in * by reflexivity. split; [assumption|]. unfold z in *. lia.
    + destruct (m_alignment spec); auto.
  - rewrite !app_length, !repeat_length. fold shown. rewrite HL. destruct (m_zero_padding spec) eqn:EZ; unfold z in *; lia.
Qed.

(** As the option strings say (C60), if no plus sign stands in the number of a value shown with a blank for its sign. *)
Theorem stream_formatted_partial : forall printf negative v spec width precision,
  c_library printf negative v precision -> decimal_type (m_type spec) -> 0 <= width < 2 ^ 63 -> 0 <= precision < 2 ^ 31 -> (m_zero_padding spec = true -> m_alignment spec = ADefault) ->
  (m_sign spec = SNegativeOnlyWithPositivePadding -> forall number, printf_text (m_type spec) (m_alternate_form spec) (Z.to_nat precision) v number -> ~ In 43 number) ->
  exists number left_ zeros right_, let fill := value_or (m_fill spec) 32 in let prefix := shown_sign (m_sign spec) negative in
    let out := repeat fill left_ ++ prefix ++ repeat 48 zeros ++ in_case (m_case spec) number ++ repeat fill right_ in
    fst (format_stream printf (is_finite_value v) spec width precision new_stream) = out /\
    printf_text (m_type spec) (m_alternate_form spec) (Z.to_nat precision) v number /\
    placed (m_alignment spec) (m_zero_padding spec) left_ zeros right_ /\ Z.of_nat (length out) = Z.max width (Z.of_nat (length (prefix ++ number))).
Proof.
  intros printf neg v spec width precision HC HT HW HP HZ HB. destruct (stream_exact _ _ _ _ _ _ HC HT HW HP HZ) as (number & l & z & r & E & N & P & L).
  exists number, l, z, r. cbv zeta in *. assert (EB : blanks_for_plus (m_sign spec) (in_case (m_case spec) number) = in_case (m_case spec) number); [|now rewrite <- EB].
  unfold blanks_for_plus. destruct (m_sign spec); try reflexivity. specialize (HB eq_refl _ N).
  assert (HB' : ~ In 43 (in_case (m_case spec) number)).
  { destruct (m_case spec); [assumption|]. intros I. apply in_map_iff in I. destruct I as (c & EC & I). destruct (Z.leb_spec 97 c), (Z.leb_spec c 122); cbn [andb] in EC; try lia; subst; contradiction. }
  clear - HB'. induction (in_case (m_case spec) number) as [|c s IH]; [reflexivity|]. cbn [map]. rewrite IH by (intros ?; apply HB'; now right). destruct (Z.eqb_spec c 43); [|reflexivity]. exfalso. apply HB'. now left.
Qed.
(** Which is so for %f. *)
Theorem fixed_has_no_plus : forall alternate p v number, printf_text TFixed alternate p v number -> ~ In 43 number.
Proof.
  intros alt p [m e| |] number H I; [|cbn in H; subst; cbn in I; lia..]. destruct H as (ip & fp & (D1 & D2 & _) & ->).
  assert (F : Forall (fun c => c <> 43) (ip ++ point alt fp)); [|rewrite Forall_forall in F; now apply (F 43)].
  assert (G : forall l, decimal_digits l -> Forall (fun c => c <> 43) l) by (intros l D; eapply Forall_impl; [|exact D]; intros c X; unfold digit_of in X; lia).
  apply Forall_app. split; [auto|apply point_chars; [lia|auto]].
Qed.
(** But not for %e: a value of at least 1 (here: whose exponent is not negative) is shown with a blank inside the number. *)
Theorem blank_in_exponent_refuted : forall printf v spec precision number,
  c_library printf false v precision -> m_type spec = TScientific -> 0 <= precision < 2 ^ 31 -> m_zero_padding spec = false ->
  m_sign spec = SNegativeOnlyWithPositivePadding -> printf_text TScientific (m_alternate_form spec) (Z.to_nat precision) v number -> In 43 number ->
  fst (format_stream printf (is_finite_value v) spec 0 precision new_stream) <> [32] ++ in_case (m_case spec) number.
Proof.
  intros printf v spec precision number HC HT HP HZ HS HN HI E. destruct (stream_exact printf false v spec 0 precision) as (number' & l & z & r & E' & N & P & L); [assumption|unfold decimal_type; tauto|lia|assumption|congruence|].
  cbv zeta in *. rewrite HT in N. pose proof (printf_text_unique _ _ _ _ _ _ N HN) as ->. rewrite E' in E. rewrite HS in *. cbn [shown_sign] in *.
  assert (HX : l = O /\ z = O /\ r = O).
  { rewrite !app_length, !repeat_length, blanks_length, in_case_length in L. cbn [length] in L. lia. }
  destruct HX as (-> & -> & ->). cbn [repeat app] in E. rewrite app_nil_r in E. injection E as E. cbn [blanks_for_plus] in E.
  assert (HI' : In 43 (in_case (m_case spec) number)) by (destruct (m_case spec); [assumption|]; apply in_map_iff; exists 43; split; [reflexivity|assumption]).
  rewrite <- E in HI'. apply in_map_iff in HI'. destruct HI' as (c & EC & _). destruct (Z.eqb_spec c 43); lia.
Qed.

(** ** Both builds show the same *)
Lemma placed_unique a zp l z r l' z' r' : placed a zp l z r -> placed a zp l' z' r' -> (l + z + r = l' + z' + r')%nat -> l = l' /\ z = z' /\ r = r'.
Proof. unfold placed. destruct a; [destruct zp| | |]; lia. Qed.
Theorem builds_agree : forall printf size buf negative v spec width precision,
  c_library printf negative v precision -> converted size spec precision v buf -> fits size (m_type spec) precision v ->
  (m_alternate_form spec = true -> is_finite v /\ (m_type spec = TGeneral -> no_leading_zeros v)) ->
  (m_sign spec = SNegativeOnlyWithPositivePadding -> forall number, printf_text (m_type spec) (m_alternate_form spec) (Z.to_nat precision) v number -> ~ In 43 number) ->
  decimal_type (m_type spec) -> Z.of_nat size < 2 ^ 32 -> 0 <= width < 2 ^ 63 -> 0 <= precision < 2 ^ 31 -> (m_zero_padding spec = true -> m_alignment spec = ADefault) ->
  format_float spec width precision negative buf = Some (fst (format_stream printf (is_finite_value v) spec width precision new_stream)).
Proof.
  intros printf size buf neg v spec width precision HC HB HF HA HPL HT HS HW HP HZ.
  destruct (stream_formatted_partial _ _ _ _ _ _ HC HT HW HP HZ HPL) as (n1 & l1 & z1 & r1 & E1 & N1 & P1 & L1).
  destruct (float_formatted size spec width precision neg v buf HS ltac:(change (2 ^ 64) with (2 * 2 ^ 63); lia) HP HT HB HF HA) as (n2 & l2 & z2 & r2 & E2 & N2 & P2 & L2).
  cbv zeta in *. pose proof (printf_text_unique _ _ _ _ _ _ N1 N2) as ->. rewrite E1, E2.
  destruct (placed_unique _ _ _ _ _ _ _ _ P1 P2) as (-> & -> & ->); [|reflexivity].
  rewrite !app_length, !repeat_length in L1, L2. lia.
Qed.

(** Not so for hexadecimal floating-point numbers: printf's %a writes 0x in front of the digits, std::to_chars does not. *)
Theorem hexfloat_builds_refuted : forall printf spec precision h d c r, m_type spec = THexFloat -> m_sign spec = SDefault -> m_alternate_form spec = false -> m_case spec = CLower -> m_zero_padding spec = false ->
  printf (CFormat false false None THexFloat false) = [48; 120] ++ h -> c <> 120 ->
  format_float spec 0 precision false (d :: c :: r) <> Some (fst (format_stream printf true spec 0 precision new_stream)).
Proof.
  intros printf spec precision h d c r HT HS HA HC HZ HP Hc E.
  assert (E1 : exists q, format_float spec 0 precision false (d :: c :: r) = Some (d :: c :: r ++ q)).
  { unfold format_float, convert_value. rewrite HA, HC. unfold align_number, float_prefix, float_prefix_size, float_number, padding. rewrite HS, HZ. cbn [m_digits m_exponent m_append_decimal m_zeroes_to_append Z.to_nat repeat app].
    assert (EU : forall n, 0 <= u64 n) by (intros n; apply Z.mod_pos_bound; lia). set (N := u64 _). assert (EN : 0 <= N) by apply EU. clearbody N. replace (Z.max N 0 - N) with 0 by lia.
    cbn [Z.to_nat repeat app Z.div Z.modulo]. rewrite app_nil_r. exists []. rewrite app_nil_r. destruct (m_alignment spec); cbn [repeat app]; rewrite ?app_nil_r; reflexivity. }
  assert (E2 : exists q, fst (format_stream printf true spec 0 precision new_stream) = 48 :: 120 :: q).
  { unfold format_stream, insert, inserted. rewrite HS, HA, HZ, HT, HC. cbn. unfold conversion_for. cbn. rewrite HP. cbn. exists h.
    unfold format_string_value, padding. cbn [m_fill m_alignment]. rewrite Nat2Z.id, firstn_all. rewrite widen_false. set (N := Z.of_nat _). assert (0 <= N) by (unfold N; lia). replace (Z.max N 0 - N) with 0 by lia.
    destruct (m_alignment spec); cbn [repeat app Z.to_nat Z.div Z.modulo Z.eqb]; rewrite ?app_nil_r; reflexivity. }
  destruct E1 as (q1 & E1). destruct E2 as (q2 & E2). rewrite E1, E2 in E. congruence.
Qed.
(** And the precision is ignored for them. *)
Theorem hexfloat_precision_refuted : forall printf spec width p p', m_type spec = THexFloat ->
  fst (format_stream printf true spec width p new_stream) = fst (format_stream printf true spec width p' new_stream).
Proof.
  intros printf [pos fill al sg alt zp w wp pr pp lf t cs pi sz] width p p' HT. cbn [m_type] in HT. subst t. unfold format_stream. cbn [m_position m_fill m_alignment m_sign m_alternate_form m_zero_padding m_width m_width_position m_precision m_precision_position m_locale_specific_form m_type m_case m_parse_index m_size].
  destruct sg, alt, zp, cs; reflexivity.
Qed.

(** ** Examples: 1.5 *)
Definition one_and_a_half : magnitude := Finite 3 (-1).
Definition blank_scientific : specifier := Specifier 0 (Some 42) ACenter SNegativeOnlyWithPositivePadding false false None None None None false TScientific CUpper 0 0.
Example example_scientific : printf_text TScientific false 5 one_and_a_half [49; 46; 53; 48; 48; 48; 48; 101; 43; 48; 48].
Proof.
  exists 0, 49, [53; 48; 48; 48; 48], [101; 43; 48; 48]. split.
  - split; [repeat (apply Forall_cons; [left; lia|]); apply Forall_nil|]. split; [reflexivity|]. right. split; [cbn; lia|]. exists 0, 150000. cbn [numerator denominator].
    split; [vm_compute; congruence|]. split; [vm_compute; intros X; now apply X|]. split; [split; [vm_compute; congruence|vm_compute; discriminate]|]. left. split; [vm_compute; reflexivity|]. split; [reflexivity|reflexivity].
  - split; [|reflexivity]. exists [48]. split; [reflexivity|]. split; [constructor; [left; lia|constructor]|]. split; [reflexivity|]. split; [discriminate|]. now left.
Qed.
(** With the options of {:*^ 14.5E}, between stars: the sign's blank and a blank for the exponent's plus. *)
Example example_blank : exists printf, c_library printf false one_and_a_half 5 /\
  fst (format_stream printf true blank_scientific 14 5 new_stream) = [42; 32; 49; 46; 53; 48; 48; 48; 48; 69; 32; 48; 48; 42].
Proof.
  destruct (c_library_exists false one_and_a_half 5) as (printf & HC); [intros m e E; injection E as <- <-; lia|]. exists printf. split; [assumption|].
  destruct (stream_exact printf false one_and_a_half blank_scientific 14 5) as (n & l & z & r & E & N & P & L); [assumption|unfold decimal_type; cbn; tauto|lia|lia|discriminate|].
  cbv zeta in *. change (Z.to_nat 5) with 5%nat in N. pose proof (printf_text_unique _ _ _ _ _ _ N example_scientific) as ->. change (is_finite_value one_and_a_half) with true in E. rewrite E.
  cbn [blank_scientific m_alignment m_zero_padding placed] in P. rewrite !app_length, !repeat_length, blanks_length, in_case_length in L. cbn [blank_scientific m_sign shown_sign length] in L.
  assert (HX : l = 1%nat /\ z = O /\ r = 1%nat) by (cbn in L; lia). destruct HX as (-> & -> & ->). reflexivity.
Qed.
