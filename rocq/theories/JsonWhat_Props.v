(** C78: the exceptions of fly::Json explain themselves. *)
From Coq Require Import String.
From Verif Require Import Common Lexer_Model Unicode_Model Format_Model Format_Spec Format_Proofs Format_Props FormatString_Model FormatString_Props Join_Spec Join_Props Unicode_Spec Unicode_Proofs Json_Model Json_Spec Json_String_Proofs Json_Props
  JsonApi_Model JsonWhat_Model JsonWhat_Spec.
Import List.ListNotations.
Open Scope list_scope.
Open Scope Z_scope.

Lemma char8 sg : character_type 8 sg (char_max sg).
Proof. split; [auto|now destruct sg]. Qed.

(** * The texts *)
Lemma show_string sg args p t n : fits t -> format_arg (char_max sg) args (sp0 (AString t) p n) (AString t) = Ok t.
Proof.
  intros H. destruct (format_plain 8 sg (char_max sg) args (AString t) p n (char8 sg)) as (x & -> & E); [exact I|unfold fits in H; cbn [own_character]; lia|exact E].
Qed.
Lemma show_user sg args p t n : format_arg (char_max sg) args (sp0 (AUser t) p n) (AUser t) = Ok t.
Proof. reflexivity. Qed.
Lemma show_integer sg args p w s v n : native_int w -> int_ok w s v -> exists t, number v t /\ format_arg (char_max sg) args (sp0 (AInteger w s v) p n) (AInteger w s v) = Ok t.
Proof.
  intros HN HI. destruct (format_plain 8 sg (char_max sg) args (AInteger w s v) p n (char8 sg)) as (x & (d & P & ->) & E); [now split|exact I|].
  exists ((if v <? 0 then [45] else []) ++ d). split; [now exists d|exact E].
Qed.
Ltac by_format specs := unfold fmt, format_to; match goal with |- context [parse_format ?b ?t ?f] => change (parse_format b t f) with (@Ok (option (list specifier)) (Some specs)) end; cbn [bind]; lazy -[format_arg app char_max].
Ltac shown H := lazy -[format_arg app char_max] in H; rewrite H; lazy -[format_arg app char_max].
Lemma text_bare sg m : fits m -> json_exception sg m = Ok (says JsonException m).
Proof. intros H. unfold json_exception. pose proof (show_string sg [AString m] 0 m 15 H) as E. by_format [sp0 (AString m) 0 15]. shown E. now rewrite app_nil_r. Qed.
Lemma text_named_any sg c m : fits c -> fits m -> json_exception_named sg c m = Ok (c ++ words ": " ++ m).
Proof.
  intros HC H. unfold json_exception_named. set (args := [AString c; AString m]).
  pose proof (show_string sg args 0 c 0 HC) as E. pose proof (show_string sg args 1 m 4 H) as F. unfold args in *. by_format [sp0 (AString c) 0 0; sp0 (AString m) 1 4].
  shown E. shown F. rewrite app_nil_r. reflexivity.
Qed.
Lemma text_named sg e m : fits m -> json_exception_named sg (class_name e) m = Ok (says e m).
Proof. intros H. apply text_named_any; [destruct e; reflexivity|exact H]. Qed.
Lemma text_about sg m v : fits m -> fmt sg (txt "JsonException: {}: ({})") [AString m; AUser v] = Ok (says_of JsonException m v).
Proof.
  intros H. set (args := [AString m; AUser v]).
  pose proof (show_string sg args 0 m 15 H) as E. pose proof (show_user sg args 1 v 20) as F. unfold args in *. by_format [sp0 (AString m) 0 15; sp0 (AUser v) 1 20].
  shown E. shown F. reflexivity.
Qed.
Lemma text_iterator sg m v : fits m -> fmt sg (txt "{}: ({})") [AString m; AUser v] = Ok (m ++ words ": (" ++ v ++ words ")").
Proof.
  intros H. set (args := [AString m; AUser v]).
  pose proof (show_string sg args 0 m 0 H) as E. pose proof (show_user sg args 1 v 5) as F. unfold args in *. by_format [sp0 (AString m) 0 0; sp0 (AUser v) 1 5].
  shown E. shown F. reflexivity.
Qed.
Lemma text_different sg v v' : fmt sg (txt "Cannot compare iterators of different JSON instances: ({}) ({})") [AUser v; AUser v'] =
  Ok (words "Cannot compare iterators of different JSON instances: (" ++ v ++ words ") (" ++ v' ++ words ")").
Proof.
  set (args := [AUser v; AUser v']).
  pose proof (show_user sg args 0 v 55) as E. pose proof (show_user sg args 1 v' 60) as F. unfold args in *. by_format [sp0 (AUser v) 0 55; sp0 (AUser v') 1 60].
  shown E. shown F. reflexivity.
Qed.
Lemma text_nothing sg v : fmt sg (txt "Cannot dereference an empty or past-the-end iterator: ({})") [AUser v] = Ok (words "Cannot dereference an empty or past-the-end iterator: (" ++ v ++ words ")").
Proof.
  pose proof (show_user sg [AUser v] 0 v 55) as E. by_format [sp0 (AUser v) 0 55]. shown E. reflexivity.
Qed.
Lemma text_range sg o v : int_ok 64 true o -> exists n, number o n /\ fmt sg (txt "Offset {} is out-of-range: ({})") [AInteger 64 true o; AUser v] = Ok (words "Offset " ++ n ++ words " is out-of-range: (" ++ v ++ words ")").
Proof.
  intros H. set (args := [AInteger 64 true o; AUser v]). destruct (show_integer sg args 0 64 true o 7 ltac:(unfold native_int; auto) H) as (n & N & E). exists n. split; [exact N|].
  pose proof (show_user sg args 1 v 28) as F. unfold args in *. by_format [sp0 (AInteger 64 true o) 0 7; sp0 (AUser v) 1 28]. shown E. shown F. reflexivity.
Qed.
Lemma text_index sg o : int_ok 64 false o -> exists n, number o n /\ fmt sg (txt "Given index ({}) not found") [AInteger 64 false o] = Ok (words "Given index (" ++ n ++ words ") not found").
Proof.
  intros H. set (args := [AInteger 64 false o]). destruct (show_integer sg args 0 64 false o 13 ltac:(unfold native_int; auto) H) as (n & N & E). exists n. split; [exact N|].
  unfold args in *. by_format [sp0 (AInteger 64 false o) 0 13]. shown E. reflexivity.
Qed.
Lemma text_key sg k : fits k -> fmt sg (txt "Given key ({}) not found") [AString k] = Ok (words "Given key (" ++ k ++ words ") not found").
Proof. intros H. pose proof (show_string sg [AString k] 0 k 11 H) as E. by_format [sp0 (AString k) 0 11]. shown E. reflexivity. Qed.
Lemma text_escape sg c : 0 <= c <= char_max sg -> fmt sg (txt "Invalid escape character '{}'") [ACharacter 8 sg c] = Ok (words "Invalid escape character '" ++ [c] ++ words "'").
Proof.
  intros H. assert (HI : int_ok 8 sg c) by (destruct sg; unfold int_ok, char_max in *; cbn; lia). destruct (format_plain 8 sg (char_max sg) [ACharacter 8 sg c] (ACharacter 8 sg c) 0 26 (char8 sg)) as (x & -> & E); [split; [unfold native_int; auto|exact HI]|now repeat split|].
  by_format [sp0 (ACharacter 8 sg c) 0 26]. shown E. reflexivity.
Qed.
Lemma fits_part a b c : fits (a ++ b ++ c) -> fits b.
Proof. unfold fits. rewrite !app_length. lia. Qed.
(** what(): the class, the reason, and the text of the instances it is about. *)
Theorem what_text : forall fp sg,
  (forall m, fits m -> what fp sg (Bare m) = Ok (says JsonException m)) /\
  (forall m j s, serialize fp sg j = Ok s -> fits m -> what fp sg (About m j) = Ok (says_of JsonException m s)) /\
  (forall m j s, serialize fp sg j = Ok s -> fits (says_of JsonIteratorException m s) -> what fp sg (AtIterator m j) = Ok (says_of JsonIteratorException m s)) /\
  (forall j j' s s', serialize fp sg j = Ok s -> serialize fp sg j' = Ok s' -> let text := says BadJsonComparisonException (words "Cannot compare iterators of different JSON instances: (" ++ s ++ words ") (" ++ s' ++ words ")") in
    fits text -> what fp sg (Different j j') = Ok text) /\
  (forall j s, serialize fp sg j = Ok s -> let text := says_of NullJsonException (words "Cannot dereference an empty or past-the-end iterator") s in fits text -> what fp sg (NothingAt j) = Ok text) /\
  what fp sg Nothing = Ok (says NullJsonException (words "Cannot dereference an empty or past-the-end iterator")) /\
  (forall o j s, serialize fp sg j = Ok s -> - 2 ^ 63 <= o < 2 ^ 63 -> exists n, number o n /\
    let text := says_of OutOfRangeJsonException (words "Offset " ++ n ++ words " is out-of-range") s in fits text -> what fp sg (OutOfRange o j) = Ok text).
Proof.
  intros fp sg. split; [intros m H; now apply text_bare|]. split; [intros m j s E H; cbn [what]; unfold json_exception_about, shown; rewrite E; cbn [bind]; now apply text_about|].
  split. { intros m j s E H. cbn [what]. unfold shown. rewrite E. cbn [bind]. rewrite text_iterator; [|unfold says_of, says, fits in *; rewrite !app_length in H; lia]. cbn [bind].
    change (txt "JsonIteratorException") with (class_name JsonIteratorException). rewrite text_named; [reflexivity|]. unfold says_of, says in H. unfold fits in *. rewrite !app_length in *. lia. }
  split. { intros j j' s s' E E' text H. cbn [what]. unfold shown. rewrite E, E'. cbn [bind]. rewrite text_different. cbn [bind].
    change (txt "BadJsonComparisonException") with (class_name BadJsonComparisonException). rewrite text_named; [reflexivity|]. unfold text, says, fits in *. rewrite !app_length in *. lia. }
  split. { intros j s E text H. cbn [what]. unfold shown. rewrite E. cbn [bind]. rewrite text_nothing. cbn [bind].
    change (txt "NullJsonException") with (class_name NullJsonException). rewrite text_named; [reflexivity|]. unfold text, says_of, says, fits in *. rewrite !app_length in *. cbn [length] in *. cbn. cbn in H. lia. }
  split; [reflexivity|]. intros o j s E HO. destruct (text_range sg o s) as (n & N & ET); [exact HO|]. exists n. split; [exact N|]. intros text H. cbn [what]. unfold shown. rewrite E. cbn [bind]. rewrite ET. cbn [bind].
  change (txt "OutOfRangeJsonException") with (class_name OutOfRangeJsonException). rewrite text_named; [unfold text, says_of, says; now rewrite <- !app_assoc|]. unfold text, says_of, says, fits in *. rewrite !app_length in *. cbn in *. lia.
Qed.

(** * When *)
Lemma char_shown sg c : byte c -> exists m, fmt sg (txt "Invalid escape character '{}'") [ACharacter 8 sg (char_value sg c)] = Ok m.
Proof.
  intros HB. set (v := char_value sg c). assert (HI : int_ok 8 sg v).
  { unfold v, char_value, byte, int_ok in *. destruct sg; cbn; [unfold signed; destruct (Z.ltb_spec c (2 ^ (8 - 1))); rewrite Z.mod_small by lia; destruct (Z.ltb_spec c (2 ^ (8 - 1))); lia|lia]. }
  pose proof (format_separator 8 sg (char_max sg) [ACharacter 8 sg v] v 0 26 (char8 sg) HI) as E. by_format [sp0 (ACharacter 8 sg v) 0 26]. shown E. eauto.
Qed.
Lemma control_text : forall sg c, 0 <= c < 32 -> fmt sg (txt "Character {:#04x} must be escaped") [ACharacter 8 sg (char_value sg c)] = Ok (words "Character 0x" ++ two_digits c ++ words " must be escaped").
Proof.
  intros sg c H. assert (G : forallb (fun c => match fmt sg (txt "Character {:#04x} must be escaped") [ACharacter 8 sg (char_value sg c)] with Ok t => if list_eq_dec Z.eq_dec t (words "Character 0x" ++ two_digits c ++ words " must be escaped") then true else false | UB => false end) (map Z.of_nat (seq 0 32)) = true) by (destruct sg; vm_compute; reflexivity).
  rewrite forallb_forall in G. specialize (G c). destruct (fmt sg _ _) as [t|]; [|discriminate G; apply in_map_iff; exists (Z.to_nat c); split; [lia|apply in_seq; lia]].
  destruct (list_eq_dec Z.eq_dec t (words "Character 0x" ++ two_digits c ++ words " must be escaped")) as [->|]; [reflexivity|]. discriminate G. apply in_map_iff. exists (Z.to_nat c). split; [lia|apply in_seq; lia].
Qed.
Lemma quote_text sg : fmt sg (txt "Character '{}' must be escaped") [ACharacter 8 sg (char_value sg 34)] = Ok (words "Character '""' must be escaped").
Proof. destruct sg; reflexivity. Qed.
Lemma string_reasons sg : forall fuel it, Forall byte it -> (length it <= fuel)%nat ->
  match string_reason sg fuel it with Some x => (exists m, x = Ok m) /\ validate_string fuel sg it = None | None => validate_string fuel sg it <> None end.
Proof.
  induction fuel as [|fuel IH]; intros it HB HL; [destruct it; cbn in *; [discriminate|lia]|]. destruct it as [|ch r]; [cbn; discriminate|]. cbn [string_reason validate_string].
  inversion HB as [|? ? Hc Hr]; subst. cbn [length] in HL. destruct (Z.eqb_spec ch 92) as [->|N92].
  - destruct r as [|e r']; [split; [eauto|reflexivity]|]. inversion Hr as [|? ? He Hr']; subst. cbn [length] in HL. destruct (simple_escape e) as [c|].
    + specialize (IH r' Hr' ltac:(lia)). destruct (string_reason sg fuel r'); [destruct IH as (? & ->); split; [assumption|reflexivity]|]. destruct (validate_string fuel sg r'); [discriminate|congruence].
    + destruct (Z.eqb_spec e 117) as [->|]; [|split; [now apply char_shown|reflexivity]].
      destruct (unescape_codepoint (U8 sg) (92 :: 117 :: r')) as [[s1|] it'] eqn:EU; [|split; [eauto|reflexivity]].
      assert (G : Forall byte it' /\ (length it' <= fuel)%nat).
      { apply unescape_codepoint_iff in EU. destruct EU as [(h & v & Hh & _ & -> & _)|(h & l & hv & lv & v & Hh & Hl & _ & _ & _ & -> & _)]; [apply Forall_app in Hr'; rewrite app_length in HL; split; [tauto|lia]|].
        rewrite !Forall_app in Hr'. rewrite !app_length in HL. cbn [length] in HL. split; [tauto|lia]. }
      specialize (IH it' (proj1 G) (proj2 G)). destruct (string_reason sg fuel it'); [destruct IH as (? & ->); split; [assumption|reflexivity]|]. destruct (validate_string fuel sg it'); [discriminate|congruence].
  - destruct ((char_value sg ch >=? 0) && (char_value sg ch <? 32)) eqn:EC.
    + rewrite char_value_ctrl in EC by assumption. apply Z.ltb_lt in EC. unfold byte in Hc. rewrite control_text by lia. split; [eauto|reflexivity].
    + destruct (Z.eqb_spec ch 34) as [->|]; [rewrite quote_text; split; [eauto|reflexivity]|].
      specialize (IH r Hr ltac:(lia)). destruct (string_reason sg fuel r); [destruct IH as (? & ->); split; [assumption|reflexivity]|]. destruct (validate_string fuel sg r); [discriminate|congruence].
Qed.
(** A text becomes a JSON string, or there is a message. *)
Theorem text_explained : forall sg s, Forall byte s -> match text_reason sg s with Some x => (exists m, x = Ok m) /\ convert_to_string sg s = None | None => convert_to_string sg s <> None end.
Proof.
  intros sg s HB. unfold text_reason, convert_to_string. destruct (Unicode_Model.validate (U8 sg) s); [|split; [eauto|reflexivity]]. apply string_reasons; [assumption|reflexivity].
Qed.

Definition agrees (x : option (res reason)) (out : json * outcome result) : Prop :=
  match x with
  | None => forall e, snd out = Throw e -> ~ from_library e
  | Some y => exists r, y = Ok r /\ snd out = Throw (class_of r)
  end.
Lemma key_agrees sg k : Forall byte k -> match key_reason sg k with Some y => (exists r, y = Ok r /\ class_of r = JsonException) /\ key_of sg k = None | None => key_of sg k <> None end.
Proof.
  intros HB. unfold key_reason, key_of. pose proof (text_explained sg k HB) as H. destruct (text_reason sg k) as [y|]; [|exact H]. destruct H as ((m & ->) & ->). cbn. split; [exists (Bare m); split; reflexivity|reflexivity].
Qed.
Lemma index_agrees sg j l n : 0 <= n < 2 ^ 64 -> match index_reason sg j l n with Some y => Z.of_nat (length l) <=? n = true /\ exists d, number n d /\ y = Ok (About (words "Given index (" ++ d ++ words ") not found") j) | None => Z.of_nat (length l) <=? n = false end.
Proof.
  intros H. unfold index_reason. destruct (Z.of_nat (length l) <=? n); [|reflexivity]. split; [reflexivity|]. destruct (text_index sg n) as (d & N & E); [exact H|]. exists d. split; [exact N|]. now rewrite E.
Qed.
Ltac keyed HB sg k := let H := fresh in pose proof (key_agrees sg k HB) as H; destruct (key_reason sg k) as [y|]; [destruct H as ((r & -> & HC) & HK); rewrite HK|destruct (key_of sg k) as [k'|] eqn:HK; [clear H|congruence]].
Ltac done_some := eexists; split; [reflexivity|cbn; try congruence; reflexivity].
Ltac done_none := let e := fresh in intros e; cbn [snd]; try discriminate; let H := fresh in intros H; injection H as <-; intros (? & ?); congruence.
(** An operation throws an exception of the library exactly if there is an explanation, which is of the same class. *)
Theorem explained : forall sg me mb at_ self t o j, arguments o ->
  match explain sg at_ self t o j with
  | None => forall e, snd (run sg me mb at_ self o j) = Throw e -> ~ from_library e
  | Some y => exists r, y = Ok r /\ snd (run sg me mb at_ self o j) = Throw (class_of r)
  end.
Proof.
  intros sg me mb at_ self t o j HA. change (agrees (explain sg at_ self t o j) (run sg me mb at_ self o j)).
  destruct o; cbn [arguments explain run need_object need_array want_object want_array as_object as_array promote_object promote_array in_array first_of is_iterable] in *.
  - destruct HA as (HB & HF). destruct j; cbn [need_object as_object first_of]; try done_some. keyed HB sg key; cbn [first_of]; [eexists; split; [reflexivity|cbn; congruence]|].
    destruct (map_find k' m) as [v|]; [done_none|]. rewrite text_key; [done_some|]. destruct t; [reflexivity|assumption].
  - destruct j; cbn [need_array as_array first_of in_array]; try done_some. pose proof (index_agrees sg (JArray l) l n HA) as H. destruct (index_reason sg (JArray l) l n); [destruct H as (-> & d & _ & ->); done_some|rewrite H; done_none].
  - destruct HA as (HB & HF). destruct j; cbn [need_object as_object want_object promote_object first_of]; try done_some; (keyed HB sg key; [eexists; split; [reflexivity|cbn; congruence]|done_none]).
  - destruct j; cbn [want_array promote_array need_array]; try done_some; (destruct (_ <=? n); [destruct (me <? _); [done_none|destruct (_ <=? n); done_none]|done_none]).
  - destruct j as [| |[|e m]|[|x l]| | | |]; cbn [is_iterable]; try done_some; done_none.
  - destruct j as [| |[|e m]|[|x l]| | | |]; cbn [is_iterable]; try done_some; cbn [size length selector_at].
    + destruct (nth_error (e :: m) (S (length m) - 1)) eqn:E; [done_none|]. apply nth_error_None in E. cbn [length] in E. lia.
    + destruct (nth_error (x :: l) (S (length l) - 1)) eqn:E; [done_none|]. apply nth_error_None in E. cbn [length] in E. lia.
  - destruct j; cbn [is_iterable]; try done_some; done_none.
  - destruct j; cbn [is_iterable]; try done_some; done_none.
  - done_none.
  - done_none.
  - destruct j; try done_some; [destruct (mb <? n)|destruct (me <? n)]; done_none.
  - done_none.
  - destruct HA as (HB & HF). keyed HB sg key; cbn [first_of]; [eexists; split; [reflexivity|cbn; congruence]|]. destruct j; cbn [need_object as_object]; try done_some. destruct (map_insert k' value m) as (m' & p & b). done_none.
  - destruct (same_owner first last); cbn [negb]; [|done_some]. destruct (owner first) as [r|]; [|done_some]. destruct (at_ r) as [source|]; [|done_none].
    destruct source; cbn [as_object]; try done_some. destruct j; cbn [need_object as_object]; try done_some. destruct (_ && _); done_none.
  - destruct HA as (HB & HF). keyed HB sg key; cbn [first_of]; [eexists; split; [reflexivity|cbn; congruence]|]. destruct j; cbn [need_object as_object]; try done_some. destruct (map_insert k' value m) as (m' & p & b). destruct b; done_none.
  - destruct HA as (HB & HF). destruct j; cbn [need_object as_object want_object promote_object first_of]; try done_some; (keyed HB sg key; [eexists; split; [reflexivity|cbn; congruence]|]).
    + destruct (map_insert k' value []) as (m' & p & b). done_none.
    + destruct (map_insert k' value m) as (m' & p & b). done_none.
  - destruct j; cbn [need_array as_array first_of]; try done_some. destruct (owned self pos); cbn [negb]; [|done_some]. destruct (_ <? position pos)%nat; [done_none|]. destruct (me <? _); done_none.
  - destruct (same_owner first last); cbn [negb]; [|done_some]. destruct (owner first) as [r|]; [|done_some]. destruct (at_ r) as [source|]; [|done_none].
    destruct source; cbn [as_array]; try done_some. destruct (owned self first); [done_some|]. destruct j; cbn [need_array as_array first_of]; try done_some. destruct (owned self pos); cbn [negb]; [|done_some].
    destruct (_ || _); [done_none|]. destruct (me <? _); done_none.
  - destruct j; cbn [want_array promote_array need_array]; try done_some; destruct (me <? _); done_none.
  - destruct j; cbn [need_array as_array first_of in_array]; try done_some. cbn [size]. pose proof (index_agrees sg (JArray l) l (u64 (Z.of_nat (length l) - 1))) as H.
    destruct (index_reason sg (JArray l) l _); [destruct H as (-> & d & _ & ->); [unfold u64; apply Z.mod_pos_bound; lia|done_some]|rewrite H; [done_none|unfold u64; apply Z.mod_pos_bound; lia]].
  - destruct HA as (HB & HF). destruct j; cbn [need_object as_object first_of]; try done_some. keyed HB sg key; cbn [first_of]; [eexists; split; [reflexivity|cbn; congruence]|]. destruct (map_erase k' m). done_none.
  - destruct j; cbn [need_array as_array first_of in_array]; try done_some. pose proof (index_agrees sg (JArray l) l n HA) as H. destruct (index_reason sg (JArray l) l n); [destruct H as (-> & d & _ & ->); done_some|rewrite H; done_none].
  - destruct j; cbn [is_iterable negb]; try done_some; (destruct (owned self pos); cbn [negb]; [|done_some]; destruct (position pos =? _)%nat; [done_some|]; destruct (_ <? position pos)%nat; done_none).
  - destruct j; cbn [is_iterable negb]; try done_some; (destruct (negb (owned self first) || negb (same_owner first last)); [done_some|]; destruct (_ || _); done_none).
  - destruct HA as (HB & HF). destruct j; cbn [need_object as_object first_of]; try done_some. keyed HB sg key; cbn [first_of]; [eexists; split; [reflexivity|cbn; congruence]|done_none].
  - destruct HA as (HB & HF). destruct j; cbn [need_object as_object first_of]; try done_some. keyed HB sg key; cbn [first_of]; [eexists; split; [reflexivity|cbn; congruence]|done_none].
  - destruct HA as (HB & HF). destruct j; cbn [need_object as_object first_of]; try done_some. keyed HB sg key; cbn [first_of]; [eexists; split; [reflexivity|cbn; congruence]|done_none].
  - done_none.
Qed.

(** * What the reasons say *)
Definition about (j : json) (x : option (res reason)) : Prop := forall r m v, x = Some (Ok r) -> (r = About m v \/ r = AtIterator m v \/ r = NothingAt v) -> v = j.
Lemma about_none j : about j None. Proof. intros r m v H. discriminate. Qed.
Lemma about_bare j x : about j (Some (Ok (Bare x))). Proof. intros r m v H [E|[E|E]]; congruence. Qed.
Lemma about_this j x : about j (Some (Ok (About x j))). Proof. intros r m v H [E|[E|E]]; congruence. Qed.
Lemma about_iterator j x : about j (Some (Ok (AtIterator x j))). Proof. intros r m v H [E|[E|E]]; congruence. Qed.
Lemma about_nothing j : about j (Some (Ok (NothingAt j))). Proof. intros r m v H [E|[E|E]]; congruence. Qed.
Lemma about_first j x y : about j x -> about j y -> about j (first_of x y). Proof. intros A B. destruct x; assumption. Qed.
Lemma about_key j sg k : about j (key_reason sg k).
Proof. intros r m v H HR. unfold key_reason in H. destruct (text_reason sg k) as [[m'|]|]; cbn in H; [injection H as <-; intuition congruence|discriminate|discriminate]. Qed.
Lemma about_text j (t : res (list Z)) : about j (Some (let! m := t in Ok (About m j))).
Proof. destruct t; [apply about_this|intros r m v H; discriminate]. Qed.
Lemma about_index j sg l n : about j (index_reason sg j l n).
Proof. unfold index_reason. destruct (_ <=? n); [apply about_text|apply about_none]. Qed.
Ltac blamed :=
  repeat match goal with
  | |- about _ None => apply about_none
  | |- about _ (Some (Ok (Bare _))) => apply about_bare
  | |- about ?j (Some (Ok (About _ ?j))) => apply about_this
  | |- about ?j (Some (Ok (AtIterator _ ?j))) => apply about_iterator
  | |- about ?j (Some (Ok (NothingAt ?j))) => apply about_nothing
  | |- about _ (key_reason _ _) => apply about_key
  | |- about ?j (index_reason _ ?j _ _) => apply about_index
  | |- about ?j (Some (bind _ (fun m => Ok (About m ?j)))) => apply about_text
  | |- about _ (first_of _ _) => apply about_first
  | |- about _ (match ?x with _ => _ end) => is_var x; destruct x
  | |- about _ (match ?x with _ => _ end) => destruct x
  end.
(** If the reason mentions an instance, it is the one the operation was called on. *)
Theorem blames_this : forall sg at_ self t o j r v m, explain sg at_ self t o j = Some (Ok r) -> (r = About m v \/ r = AtIterator m v \/ r = NothingAt v) -> v = j.
Proof.
  intros sg at_ self t o j r v m. revert r m v. change (about j (explain sg at_ self t o j)).
  destruct o; cbn [explain]; unfold want_object, want_array, need_object, need_array, in_array; blamed; try (destruct j; blamed).
Qed.
(** at and erase name the index; pop_back of an empty array names 2^64 - 1. *)
Theorem index_shown : forall sg at_ self t l n o, o = AtIndex n \/ o = EraseIndex n -> Z.of_nat (length l) <= n < 2 ^ 64 ->
  exists d, number n d /\ explain sg at_ self t o (JArray l) = Some (Ok (About (words "Given index (" ++ d ++ words ") not found") (JArray l))).
Proof.
  intros sg at_ self t l n o HO Hn. destruct (text_index sg n) as (d & N & E); [unfold int_ok; cbn; lia|]. exists d. split; [exact N|].
  assert (G : index_reason sg (JArray l) l n = Some (Ok (About (words "Given index (" ++ d ++ words ") not found") (JArray l)))).
  { unfold index_reason. destruct (Z.leb_spec (Z.of_nat (length l)) n); [|lia]. now rewrite E. }
  destruct HO as [-> | ->]; exact G.
Qed.
Theorem pop_back_shown : forall sg at_ self t, explain sg at_ self t PopBack (JArray []) = Some (Ok (About (words "Given index (18446744073709551615) not found") (JArray []))).
Proof. intros sg at_ self t. destruct sg; vm_compute; reflexivity. Qed.
(** at(key) names the key as it was given, if it was given as a view or pointer. *)
Theorem key_shown_partial : forall sg at_ self m k k', Forall byte k -> fits k -> convert_to_string sg k = Some k' -> map_find k' m = None ->
  explain sg at_ self ViewedKey (AtKey k) (JObject m) = Some (Ok (About (words "Given key (" ++ k ++ words ") not found") (JObject m))).
Proof.
  intros sg at_ self m k k' HB HF E EM. cbn [explain need_object first_of]. pose proof (key_agrees sg k HB) as H. unfold key_of in *. destruct (key_reason sg k); [destruct H; congruence|]. cbn [first_of]. rewrite E, EM.
  cbn [after_move]. now rewrite text_key.
Qed.
(** A std::string has been moved from when the text is made: the key is never named. *)
Theorem key_lost_refuted : forall sg at_ self m k k', Forall byte k -> convert_to_string sg k = Some k' -> map_find k' m = None ->
  explain sg at_ self OwnedKey (AtKey k) (JObject m) = Some (Ok (About (words "Given key () not found") (JObject m))).
Proof.
  intros sg at_ self m k k' HB E EM. cbn [explain need_object first_of]. pose proof (key_agrees sg k HB) as H. unfold key_of in *. destruct (key_reason sg k); [destruct H; congruence|]. cbn [first_of]. rewrite E, EM.
  cbn [after_move]. rewrite text_key; reflexivity.
Qed.
(** The value in parentheses can be parsed back. *)
Theorem what_read_back : forall fp sg m j, well_formed j -> fits m -> exists s, serialize fp sg j = Ok s /\ what fp sg (About m j) = Ok (says_of JsonException m s) /\
  (is_container j = true -> forall sg', parse fp sg' strict s = Some (read_back j)).
Proof.
  intros fp sg m j HW HF. destruct (serialize_value fp sg j HW) as (s & E & HB & HV). exists s. split; [exact E|]. split; [destruct (what_text fp sg) as (_ & W & _); exact (W m j s E HF)|]. intros HC sg'.
  destruct (round_trip fp sg sg' x87 j HW HC) as (s' & E' & EP & _). congruence.
Qed.

(** * Texts that are no JSON strings *)
Lemma after_literal sg p s : literal p s -> forall rest fuel, Forall byte (p ++ rest) -> (length (p ++ rest) <= fuel)%nat ->
  exists fuel', (length rest <= fuel')%nat /\ string_reason sg fuel (p ++ rest) = string_reason sg fuel' rest.
Proof.
  induction 1 as [|c w s H1 H2 H3 HL IH|e c w s HI HL IH|h v w s Hh HS HL IH|h l hv lv v w s Hh Hl Hv EH EL HL IH]; intros rest fuel HB HF.
  - exists fuel. split; [exact HF|reflexivity].
  - cbn [app length] in *. destruct fuel as [|fuel]; [lia|]. inversion HB as [|? ? Hc Hr]; subst. destruct (IH rest fuel Hr ltac:(lia)) as (f & L & E). exists f. split; [exact L|].
    cbn [string_reason]. destruct (Z.eqb_spec c 92); [contradiction|]. rewrite char_value_ctrl by assumption. destruct (Z.ltb_spec c 32); [lia|]. destruct (Z.eqb_spec c 34); [contradiction|]. exact E.
  - cbn [app length] in *. destruct fuel as [|fuel]; [lia|]. inversion HB as [|? ? _ HB1]; subst. inversion HB1 as [|? ? _ HB2]; subst. destruct (IH rest fuel HB2 ltac:(lia)) as (f & L & E). exists f. split; [exact L|].
    cbn [string_reason]. change (92 =? 92) with true. cbv iota. apply simple_escape_iff in HI. now rewrite HI.
  - rewrite <- !app_assoc in *. cbn [app] in *. destruct fuel as [|fuel]; [cbn in HF; lia|]. inversion HB as [|? ? _ HB1]; subst. inversion HB1 as [|? ? _ HB2]; subst. apply Forall_app in HB2. cbn [length] in HF. rewrite app_length in HF.
    destruct (IH rest fuel (proj2 HB2) ltac:(lia)) as (f & L & E). exists f. split; [exact L|]. cbn [string_reason]. change (92 =? 92) with true. cbv iota. change (simple_escape 117) with (@None Z). change (117 =? 117) with true. cbv iota.
    assert (EU : unescape_codepoint (U8 sg) (92 :: 117 :: h ++ w ++ rest) = (Some (utf8 v), w ++ rest)) by (apply unescape_codepoint_iff; left; exists h, v; auto). rewrite EU. exact E.
  - rewrite <- !app_assoc in *. cbn [app] in *. destruct fuel as [|fuel]; [cbn in HF; lia|]. inversion HB as [|? ? _ HB1]; subst. inversion HB1 as [|? ? _ HB2]; subst. apply Forall_app in HB2. destruct HB2 as (_ & HB2).
    inversion HB2 as [|? ? _ HB3]; subst. inversion HB3 as [|? ? _ HB4]; subst. apply Forall_app in HB4. cbn [length] in HF. rewrite !app_length in HF. cbn [length] in HF. rewrite ?app_length in HF. cbn [length] in HF.
    destruct (IH rest fuel (proj2 HB4) ltac:(rewrite app_length; lia)) as (f & L & E). exists f. split; [exact L|]. cbn [string_reason]. change (92 =? 92) with true. cbv iota. change (simple_escape 117) with (@None Z). change (117 =? 117) with true. cbv iota.
    match goal with |- context [unescape_codepoint (U8 sg) ?t] => assert (EU : unescape_codepoint (U8 sg) t = (Some (utf8 ((fun x => x) v)), w ++ rest)) end.
    { apply unescape_codepoint_iff; right. eexists h, l, _, _, v. repeat (split; [eassumption || reflexivity|]). split; reflexivity. }
    rewrite EU. exact E.
Qed.
Lemma located sg p s rest : literal p s -> utf8_text (p ++ rest) -> exists fuel, (length rest <= fuel)%nat /\ Forall byte rest /\ text_reason sg (p ++ rest) = string_reason sg fuel rest.
Proof.
  intros HL HT. pose proof (utf8_text_bytes _ HT) as HB. destruct (after_literal sg p s HL rest (length (p ++ rest)) HB ltac:(lia)) as (f & L & E). exists f. split; [exact L|]. split; [now apply Forall_app in HB|]. unfold text_reason.
  assert (V : Unicode_Model.validate (U8 sg) (p ++ rest) = true) by (apply (validate_iff (U8 sg)); [exact HB|exact HT]). now rewrite V.
Qed.
(** The first character that is not allowed is named. *)
Theorem control_shown : forall sg p s c rest, literal p s -> 0 <= c < 32 -> utf8_text (p ++ c :: rest) ->
  text_reason sg (p ++ c :: rest) = Some (Ok (words "Character 0x" ++ two_digits c ++ words " must be escaped")).
Proof.
  intros sg p s c rest HL HC HT. destruct (located sg p s (c :: rest) HL HT) as (f & L & HB & ->). destruct f as [|f]; [cbn in L; lia|]. cbn [string_reason]. inversion HB as [|? ? Hc _]; subst.
  destruct (Z.eqb_spec c 92); [lia|]. rewrite char_value_ctrl by assumption. destruct (Z.ltb_spec c 32); [|lia]. now rewrite control_text.
Qed.
Theorem quote_shown : forall sg p s rest, literal p s -> utf8_text (p ++ 34 :: rest) -> text_reason sg (p ++ 34 :: rest) = Some (Ok (words "Character '""' must be escaped")).
Proof.
  intros sg p s rest HL HT. destruct (located sg p s (34 :: rest) HL HT) as (f & L & HB & ->). destruct f as [|f]; [cbn in L; lia|]. cbn [string_reason]. change (34 =? 92) with false. cbv iota.
  rewrite char_value_ctrl by (unfold byte; lia). change (34 <? 32) with false. change (34 =? 34) with true. cbv iota. now rewrite quote_text.
Qed.
Theorem escape_shown : forall sg p s c rest, literal p s -> utf8_text (p ++ 92 :: c :: rest) -> (forall v, ~ In (c, v) escapes) -> c <> 117 -> 0 <= c < 128 ->
  text_reason sg (p ++ 92 :: c :: rest) = Some (Ok (words "Invalid escape character '" ++ [c] ++ words "'")).
Proof.
  intros sg p s c rest HL HT HN HU HC. destruct (located sg p s (92 :: c :: rest) HL HT) as (f & L & HB & ->). destruct f as [|f]; [cbn in L; lia|]. cbn [string_reason]. change (92 =? 92) with true. cbv iota.
  destruct (simple_escape c) as [v|] eqn:E; [apply simple_escape_iff in E; now apply HN in E|]. destruct (Z.eqb_spec c 117); [contradiction|].
  assert (EV : char_value sg c = c) by (unfold char_value, signed; destruct sg; [|reflexivity]; rewrite Z.mod_small by lia; change (2 ^ (8 - 1)) with 128; destruct (Z.ltb_spec c 128); lia).
  rewrite EV, text_escape; [reflexivity|]. destruct sg; unfold char_max; lia.
Qed.
Theorem unfinished_shown : forall sg p s, literal p s -> utf8_text (p ++ [92]) -> text_reason sg (p ++ [92]) = Some (Ok (words "Expected escaped character after reverse solidus")).
Proof. intros sg p s HL HT. destruct (located sg p s [92] HL HT) as (f & L & HB & ->). destruct f as [|f]; [cbn in L; lia|]. reflexivity. Qed.
Theorem not_text_shown : forall sg s, Forall byte s -> ~ utf8_text s -> text_reason sg s = Some (Ok (words "Could not convert string-like type to a JSON string")).
Proof.
  intros sg s HB HT. unfold text_reason. destruct (Unicode_Model.validate (U8 sg) s) eqn:E; [|reflexivity]. apply (validate_iff (U8 sg)) in E; [contradiction|exact HB].
Qed.

(** * Iterators *)
Definition says_why {A} (x : outcome A) (r : option reason) : Prop := x <> Undefined -> match r with Some r => x = Throw (class_of r) | None => exists a, x = Return a end.
Lemma why_validated {A} w it (f : ref -> json -> outcome A) g : (forall r j, is_iterable j = true -> (position it <= size j)%nat -> says_why (f r j) (g j)) -> says_why (validated w it f) (explain_validated w it g).
Proof.
  intros H. unfold says_why, validated, explain_validated. destruct (owner it) as [r|]; [|intros _; reflexivity]. destruct (read w r) as [j|]; [|congruence]. destruct (is_iterable j) eqn:EI; [|cbn [andb]; congruence]. cbn [andb].
  destruct (Nat.leb_spec (position it) (size j)); [apply H; assumption|congruence].
Qed.
Lemma why_advance it r j o : says_why (advance it r j o) (explain_advance (position it) j o).
Proof.
  unfold says_why, advance, explain_advance. destruct (o =? - 2 ^ 63); [congruence|]. intros _. destruct (_ <? Z.abs o); [reflexivity|eauto].
Qed.
Lemma why_element r j p : is_iterable j = true -> (p <= size j)%nat -> says_why (element r j p) (explain_element p j).
Proof.
  unfold says_why, element, explain_element. intros HI HP _. destruct (Nat.eqb_spec p (size j)) as [->|N]; destruct j; try discriminate; cbn [selector_at size] in *.
  - now rewrite (proj2 (nth_error_None m (length m)) ltac:(lia)).
  - now rewrite (proj2 (nth_error_None l (length l)) ltac:(lia)).
  - destruct (nth_error m p) eqn:E; [cbn; eauto|]. apply nth_error_None in E. lia.
  - destruct (nth_error l p) eqn:E; [cbn; eauto|]. apply nth_error_None in E. lia.
Qed.
Theorem iterators_explained : forall w it o,
  says_why (deref w it) (explain_deref w it) /\ says_why (increment w it) (explain_increment w it) /\ says_why (decrement w it) (explain_decrement w it) /\
  says_why (add w it o) (explain_add w it o) /\ says_why (offset_by w it o) (explain_offset_by w it o) /\ says_why (key w it) (explain_key w it).
Proof.
  intros w it o. split; [apply why_validated; intros; now apply why_element|]. split; [apply why_validated; intros; apply why_advance|]. split; [apply why_validated; intros; apply why_advance|].
  split; [apply why_validated; intros r j HI HP; destruct j; try discriminate; cbn [only_array]; [intros _; reflexivity|apply why_advance]|].
  split; apply why_validated; intros r j HI HP.
  - destruct j; try discriminate; cbn [only_array]; [intros _; reflexivity|]. pose proof (why_advance it r (JArray l) o) as H. unfold says_why in *.
    unfold advance, explain_advance in *. destruct (o =? - 2 ^ 63); [congruence|]. destruct (_ <? Z.abs o) eqn:EL; cbn [first_of]; [intros _; reflexivity|]. cbn [position]. apply why_element; [reflexivity|].
    apply Z.ltb_ge in EL. cbn [size] in *. destruct (Z.leb_spec 0 o); lia.
  - destruct j; try discriminate; [|intros _; reflexivity]. intros _. unfold explain_element. cbn [size] in *. destruct (Nat.eqb_spec (position it) (length m)) as [E|N].
    + rewrite E. now rewrite (proj2 (nth_error_None m (length m)) ltac:(lia)).
    + destruct (nth_error m (position it)) eqn:E; [eauto|]. apply nth_error_None in E. lia.
Qed.
Lemma why_two {A} w a b (f : json -> outcome A) g : (forall j, is_iterable j = true -> says_why (f j) (g j)) -> (forall r s, owner a = Some r -> owner b = Some s -> read w r <> None /\ read w s <> None) ->
  says_why (validated2 w a b f) (explain_validated2 w a b g).
Proof.
  intros H HR. unfold says_why, validated2, explain_validated2, validated. destruct (owner a) as [r|]; [|intros _; reflexivity]. destruct (owner b) as [s|]; [|intros _; reflexivity].
  destruct (HR r s eq_refl eq_refl) as (R1 & R2). destruct (ref_dec r s) as [->|N].
  - destruct (read w s) as [j|]; [|congruence]. destruct (is_iterable j) eqn:EI; cbn [andb]; [|congruence]. destruct (position a <=? size j)%nat; [|congruence]. destruct (position b <=? size j)%nat; [|congruence]. now apply H.
  - intros _. destruct (read w r); [|congruence]. destruct (read w s); [reflexivity|congruence].
Qed.
(** Comparisons and differences, of iterators whose instances exist. *)
Theorem comparisons_explained : forall w a b, (forall r s, owner a = Some r -> owner b = Some s -> read w r <> None /\ read w s <> None) ->
  says_why (equal w a b) (explain_equal w a b) /\ says_why (less w a b) (explain_less w a b) /\ says_why (difference w a b) (explain_difference w a b).
Proof.
  intros w a b H. split; [|split]; apply why_two; try exact H; intros j HI.
  - intros _. eauto.
  - destruct j; try discriminate; cbn [only_array]; intros _; [reflexivity|eauto].
  - destruct j; try discriminate; cbn [only_array]; intros _; [reflexivity|eauto].
Qed.

(** * Examples *)
Example what_example : what no_floats true (About (txt "Given index (7) not found") (JArray [JNull; JSigned (-3)])) = Ok (words "JsonException: Given index (7) not found: ([null,-3])").
Proof. vm_compute. reflexivity. Qed.
Example key_example : let m := [([97], JNull)] in Forall (fun b => 0 <= b < 256) [98] /\ fits [98] /\ convert_to_string true [98] = Some [98] /\ map_find [98] m = None.
Proof. cbn zeta. split; [repeat constructor; lia|]. split; [reflexivity|]. split; reflexivity. Qed.
Example lost_example : run true 100 100 (fun _ => None) (0%nat, []) (AtKey [98]) (JObject [([97], JNull)]) = (JObject [([97], JNull)], Throw JsonException) /\
  what no_floats true (About (txt "Given key () not found") (JObject [([97], JNull)])) = Ok (words "JsonException: Given key () not found: ({""a"":null})").
Proof. split; vm_compute; reflexivity. Qed.
Example control_example : literal [97] [97] /\ utf8_text ([97] ++ 10 :: [98]) /\ text_reason true [97; 10; 98] = Some (Ok (words "Character 0x0a must be escaped")).
Proof.
  split; [apply lit_plain; try lia; constructor|]. split; [|vm_compute; reflexivity]. exists [97; 10; 98]. split; [repeat constructor; unfold scalar; lia|reflexivity].
Qed.
Example iterator_example : let w := fun _ : nat => JArray [JNull] in let it := Iterator (Some (0%nat, [])) 1 in
  deref w it = Throw NullJsonException /\ explain_deref w it = Some (NothingAt (JArray [JNull])) /\ what no_floats true (NothingAt (JArray [JNull])) =
    Ok (words "NullJsonException: Cannot dereference an empty or past-the-end iterator: ([null])").
Proof. split; [vm_compute; reflexivity|]. split; vm_compute; reflexivity. Qed.
Print Assumptions iterators_explained.
