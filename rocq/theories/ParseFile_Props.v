(** C39: byte order marks. *)
From Verif Require Import Common Bits Unicode_Spec Unicode_Model Unicode_Props Json_Model Json_Spec Json_String_Proofs Json_Props Ini_Model Ini_Props.
From Verif Require Import ParseFile_Model ParseFile_Spec ParseFile_Proofs.

(** A file that starts with no byte order mark is handed to the parser as it is. *)
Theorem unmarked_file : forall sg file, Forall byte file -> unmarked file -> file_text sg file = Some file.
Proof.
  intros sg file HB [H8 HU]. pose proof (detect file HB) as D. unfold file_text.
  destruct (prefix_dec utf8_bom file); [contradiction|]. destruct (prefix_dec (bom UTF32BE) file); [exfalso; eapply HU; eassumption|].
  destruct (prefix_dec (bom UTF32LE) file); [exfalso; eapply HU; eassumption|]. destruct (prefix_dec (bom UTF16BE) file); [exfalso; eapply HU; eassumption|].
  destruct (prefix_dec (bom UTF16LE) file); [exfalso; eapply HU; eassumption|]. destruct D as (s & -> & _ & EU & _). now rewrite EU.
Qed.
(** After a UTF-8 byte order mark the rest of the file is handed to the parser as it is. *)
Theorem utf8_file : forall sg bs, Forall byte bs -> file_text sg (utf8_bom ++ bs) = Some bs.
Proof.
  intros sg bs HB. pose proof (detect (utf8_bom ++ bs)) as D. unfold file_text.
  destruct (prefix_dec utf8_bom (utf8_bom ++ bs)) as [P|P]; [|exfalso; apply P; exists bs; reflexivity].
  rewrite D by (apply Forall_app; split; [byte_list|assumption]). reflexivity.
Qed.

Definition scheme_enc (e : scheme) : enc := match e with UTF16BE | UTF16LE => U16 | _ => U32 end.
(** The detected scheme: the first mark that fits, UTF-32LE before UTF-16LE. *)
Definition chosen (e : scheme) (file : list Z) : Prop :=
  prefix_of (bom e) file /\ (e = UTF16LE -> ~ prefix_of (bom UTF32LE) file).
Lemma chosen_text sg e file : Forall byte file -> chosen e file ->
  file_text sg file = ensure_utf8 sg (scheme_enc e) (unit_size e) (little e) (opened (skipn (length (bom e)) file) file).
Proof.
  intros HB [HP HL]. pose proof (detect file HB) as D. unfold file_text.
  assert (X : forall a b, (exists x y r r', a = x :: r /\ b = y :: r' /\ x <> y) -> prefix_of a file -> prefix_of b file -> False).
  { intros a b (x & y & r & r' & -> & -> & N) (z & E) (z' & E'). rewrite E in E'. injection E'. congruence. }
  Ltac clash X := exfalso; match goal with A : prefix_of ?a _, B : prefix_of ?b _ |- _ => solve [apply (X a b); [do 4 eexists; split; [reflexivity|]; split; [reflexivity|]; discriminate|exact A|exact B]] end.
  destruct e.
  all: destruct (prefix_dec utf8_bom file); [clash X|].
  all: destruct (prefix_dec (bom UTF32BE) file); try (now (rewrite D)); try clash X; try contradiction.
  all: destruct (prefix_dec (bom UTF32LE) file); try (now (rewrite D)); try clash X; try contradiction; try (exfalso; now apply HL).
  all: destruct (prefix_dec (bom UTF16BE) file); try (now (rewrite D)); try clash X; try contradiction.
  all: destruct (prefix_dec (bom UTF16LE) file); try (now (rewrite D)); try clash X; try contradiction.
Qed.
Lemma flat_map_length e us : (length us <= length (flat_map (unit_bytes e) us))%nat.
Proof.
  induction us as [|u us IH]; [reflexivity|]. cbn [flat_map length]. rewrite app_length. assert (1 <= length (unit_bytes e u))%nat by (destruct e; cbn; lia). lia.
Qed.
Lemma skipn_bom (b r : list Z) : skipn (length b) (b ++ r) = r.
Proof. rewrite skipn_app, skipn_all, Nat.sub_diag. reflexivity. Qed.
Lemma unit_bytes_byte e u : unit_range e u -> Forall byte (unit_bytes e u).
Proof.
  intros H. assert (B : forall x, byte (x mod 256)) by (intros x; unfold byte; apply Z.mod_pos_bound; lia). unfold unit_range in H.
  destruct e; cbn [unit_bytes bytes16 bytes32 rev app]; repeat (constructor; [first [apply B|unfold byte; dlia]|]); constructor.
Qed.
Lemma units_byte e us tail : Forall (unit_range e) us -> Forall byte tail -> Forall byte (bom e ++ flat_map (unit_bytes e) us ++ tail).
Proof.
  intros HU HT. apply Forall_app. split; [destruct e; byte_list|]. apply Forall_app. split; [|assumption].
  apply Forall_forall. intros x HI. apply in_flat_map in HI. destruct HI as (u & Hu & HI). rewrite Forall_forall in HU. pose proof (unit_bytes_byte e u (HU _ Hu)) as F. rewrite Forall_forall in F. now apply F.
Qed.

(** After the mark of another scheme, the code units that follow (a last incomplete one is dropped) are
    converted to UTF-8, and the file is rejected exactly when they are not well-formed. *)
Theorem marked_file : forall sg e us tail, let file := bom e ++ flat_map (unit_bytes e) us ++ tail in
  Forall (unit_range e) us -> Forall byte tail -> (length tail < unit_size e)%nat -> chosen e file ->
  (forall cs, Forall scalar cs -> us = text (unit_form e) cs -> file_text sg file = Some (text utf8 cs)) /\
  ((forall cs, Forall scalar cs -> us <> text (unit_form e) cs) -> file_text sg file = None).
Proof.
  intros sg e us tail file HU HB HT HC. assert (HBf : Forall byte file) by (now apply units_byte).
  rewrite (chosen_text sg e file HBf HC). unfold file at 1 3. rewrite skipn_bom. unfold ensure_utf8.
  assert (L : (length us + 2 <= length (unread (opened (flat_map (unit_bytes e) us ++ tail) file)) + 2)%nat)
    by (cbn [opened unread]; rewrite app_length; pose proof (flat_map_length e us); lia).
  rewrite (units_read e file tail HT us _ HU L).
  assert (EF : unit_form e = form (scheme_enc e)) by (destruct e; reflexivity).
  split.
  - intros cs Hcs ->. rewrite EF. now rewrite convert_exact.
  - intros HN. apply convert_rejects.
    + unfold units_ok, unit_ok. eapply Forall_impl; [|exact HU]. intros u Hu. unfold unit_range in Hu. destruct e; cbn [scheme_enc]; exact Hu.
    + intros (cs & Hcs & E). apply (HN cs Hcs). now rewrite EF.
Qed.
(** Every file with a mark of another scheme is of that shape, so that theorem covers all of them. *)
Theorem marked_file_shape : forall e file, Forall byte file -> prefix_of (bom e) file ->
  exists us tail, file = bom e ++ flat_map (unit_bytes e) us ++ tail /\ Forall (unit_range e) us /\ Forall byte tail /\ (length tail < unit_size e)%nat.
Proof.
  intros e file HB (r & ->). apply Forall_app in HB. destruct HB as [_ HB]. destruct (units_split e (length r) r (le_n _) HB) as (us & tail & -> & HU & HT).
  exists us, tail. split; [reflexivity|]. split; [assumption|]. split; [|assumption]. apply Forall_app in HB. apply HB.
Qed.

(** Text stored in any scheme with its mark is handed to the parser in UTF-8, unchanged; in UTF-16LE
    unless it starts with U+0000. *)
Lemma scalar_units e cs : Forall scalar cs -> Forall (unit_range e) (text (unit_form e) cs).
Proof.
  intros H. apply Forall_forall. intros u HI. unfold text in HI. apply in_flat_map in HI. destruct HI as (c & Hc & HI). rewrite Forall_forall in H. specialize (H c Hc). unfold scalar in H.
  unfold unit_range. destruct e; cbn [unit_form] in HI; unfold utf16, utf32 in HI; try (destruct HI as [<-|[]]; lia);
  (destruct (Z.ltb_spec c 0x10000); [destruct HI as [<-|[]]; lia|]); destruct HI as [<-|[<-|[]]]; dlia.
Qed.
Theorem encoded_file : forall sg e cs, Forall scalar cs -> (e = UTF16LE -> hd 1 cs <> 0) ->
  file_text sg (encoded e cs) = Some (text utf8 cs).
Proof.
  intros sg e cs Hcs HZ. pose proof (scalar_units e cs Hcs) as HU.
  pose proof (marked_file sg e (text (unit_form e) cs) [] HU ltac:(constructor) ltac:(destruct e; cbn; lia)) as M. cbv zeta in M. rewrite app_nil_r in M.
  destruct M as [M _]; [|now apply M]. split; [eexists; reflexivity|]. intros ->. specialize (HZ eq_refl). intros (r & E). cbn [bom app] in E.
  destruct cs as [|c cs]; [discriminate|]. cbn [hd] in HZ. cbn [text flat_map unit_form] in E. unfold utf16 at 1 in E. inversion Hcs as [|? ? Hc _]; subst. unfold scalar in Hc.
  assert (K : forall u r' r'', 0 < u -> 255 :: 254 :: unit_bytes UTF16LE u ++ r' = 255 :: 254 :: 0 :: 0 :: r'' -> False).
  { intros u r' r'' Hu E'. cbn [unit_bytes bytes16 rev app] in E'. injection E' as E1 E2 _. dlia. }
  destruct (Z.ltb_spec c 0x10000).
  - change ([c] ++ flat_map utf16 cs) with (c :: flat_map utf16 cs) in E. cbn [flat_map] in E. apply K in E; [assumption|lia].
  - set (u := 0xd800 + (c - 0x10000) / 1024) in E. assert (0 < u) by (unfold u; dlia). clearbody u.
    set (lo := 0xdc00 + (c - 0x10000) mod 1024) in E. clearbody lo.
    change ([u; lo] ++ flat_map utf16 cs) with (u :: lo :: flat_map utf16 cs) in E. cbn [flat_map] in E. apply K in E; assumption.
Qed.
(** The exception is real: UTF-16LE text that starts with U+0000 is taken for UTF-32LE and rejected or
    misread. *)
Theorem encoded_file_refuted : ~ (forall sg cs, Forall scalar cs -> file_text sg (encoded UTF16LE cs) = Some (text utf8 cs)).
Proof.
  intros H. specialize (H true [0; 65; 0] ltac:(repeat (constructor; [unfold scalar; lia|]); constructor)). vm_compute in H. discriminate.
Qed.

(** * The parsers *)
(** The result of parsing a file does not depend on the scheme it is stored in. *)
Theorem parse_json_any_scheme : forall fp sg o e cs, Forall scalar cs -> (e = UTF16LE -> hd 1 cs <> 0) ->
  parse_json_file fp sg o (encoded e cs) = parse fp sg o (text utf8 cs).
Proof. intros fp sg o e cs H1 H2. unfold parse_json_file. now rewrite encoded_file. Qed.
Theorem parse_ini_any_scheme : forall sg e cs, Forall scalar cs -> (e = UTF16LE -> hd 1 cs <> 0) ->
  parse_ini_file sg (encoded e cs) = parse_ini sg (text utf8 cs).
Proof. intros sg e cs H1 H2. unfold parse_ini_file. now rewrite encoded_file. Qed.
Theorem parse_json_utf8_marked : forall fp sg o bs, Forall byte bs -> parse_json_file fp sg o (utf8_bom ++ bs) = parse fp sg o bs.
Proof. intros fp sg o bs H. unfold parse_json_file. now rewrite utf8_file. Qed.
Theorem parse_json_unmarked : forall fp sg o file, Forall byte file -> unmarked file -> parse_json_file fp sg o file = parse fp sg o file.
Proof. intros fp sg o file H1 H2. unfold parse_json_file. now rewrite unmarked_file. Qed.
(** parse_string of UTF-16 and UTF-32 strings: the same document, or failure if ill-formed. *)
Theorem parse_json_string_exact : forall fp sg o e s, units_ok e s ->
  (forall cs, Forall scalar cs -> s = text (form e) cs -> parse_json_string fp sg o e s = parse fp sg o (text utf8 cs)) /\
  (~ valid e s -> parse_json_string fp sg o e s = None).
Proof.
  intros fp sg o e s HU. unfold parse_json_string. split.
  - intros cs Hcs ->. now rewrite convert_exact.
  - intros HN. now rewrite (proj2 (convert_rejects e (U8 sg) s HU) HN).
Qed.

(** A file is marked in at most one way, but for UTF-32LE, whose mark starts with that of UTF-16LE. *)
Example ambiguous_mark : prefix_of (bom UTF16LE) (bom UTF32LE). Proof. exists [0; 0]. reflexivity. Qed.
Example sample_file : encoded UTF16LE [91; 0x1f600; 93] = [0xff; 0xfe; 91; 0; 0x3d; 0xd8; 0x00; 0xde; 93; 0] /\
  file_text true (encoded UTF16LE [91; 0x1f600; 93]) = Some [91; 0xf0; 0x9f; 0x98; 0x80; 93] /\
  file_text true (encoded UTF32BE [91; 93]) = Some [91; 93] /\ file_text true [] = Some [].
Proof. vm_compute. auto. Qed.
Example sample_unmarked : unmarked [91; 93] /\ unmarked [].
Proof. split; (split; [|intros []]); intros (r & E); discriminate. Qed.
