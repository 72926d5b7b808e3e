(** C33: the INI parser. *)
From Verif Require Import Common Strings_Model Strings_Spec Strings_Proofs.
From Verif Require Import Json_Model Json_Spec Json_String_Proofs Json_Token_Proofs Ini_Model Ini_Spec Ini_Proofs.

(** Exactly the documents of the specification are accepted, with exactly that result. *)
Theorem parse_ini_exact : forall sg input j, Forall byte input -> (parse_ini sg input = Some j <-> ini_document input j).
Proof. exact parse_ini_iff. Qed.

(** The result does not depend on the signedness of char. *)
Theorem parse_ini_sign_independent : forall input, Forall byte input -> parse_ini true input = parse_ini false input.
Proof.
  intros input HB. destruct (parse_ini true input) as [j|] eqn:E.
  - symmetry. apply parse_ini_exact; [assumption|]. now apply (parse_ini_exact true).
  - destruct (parse_ini false input) as [j|] eqn:E'; [|reflexivity]. apply parse_ini_exact in E'; [|assumption].
    apply (parse_ini_exact true) in E'; [|assumption]. congruence.
Qed.

(** * Round trip *)
Lemma plain_literal s : Forall (fun c => 0x20 <= c /\ c <> 34 /\ c <> 92 /\ c <> 39) s -> literal s s.
Proof. induction 1 as [|c s (H1 & H2 & H3 & _) _ IH]; constructor; assumption. Qed.
Lemma plain_denotes s : plain s -> denotes s s.
Proof. intros (H1 & H2 & _). split; [assumption|]. now apply plain_literal. Qed.
Lemma plain_In s c : plain s -> In c s -> 0x20 <= c /\ c <> 34 /\ c <> 92 /\ c <> 39.
Proof. intros (_ & H & _) HI. rewrite Forall_forall in H. now apply H. Qed.
Lemma plain_no10 s : plain s -> ~ In 10 s.
Proof. intros H HI. destruct (plain_In _ _ H HI). lia. Qed.
Lemma begins_In s c : begins s c -> In c s. Proof. intros (r & ->). now left. Qed.
Lemma ends_In s c : ends s c -> In c s. Proof. intros (r & ->). apply in_or_app. right. now left. Qed.
Lemma hd_In (s : list Z) : s <> [] -> In (hd 0 s) s. Proof. destruct s; [congruence|now left]. Qed.
Lemma last_In (s : list Z) : s <> [] -> In (last s 0) s.
Proof. intros H. rewrite (app_removelast_last 0 H) at 2. apply in_or_app. right. now left. Qed.
Lemma plain_unquoted s : plain s -> unquoted s.
Proof.
  intros HP q Hq. split; intros HB; [apply begins_In in HB|apply ends_In in HB]; destruct (plain_In _ _ HP HB) as (_ & H1 & _ & H2); destruct Hq; congruence.
Qed.
Lemma plain_unquote s q : plain s -> q = 39 \/ q = 34 -> unquote q s s.
Proof. intros HP Hq. destruct (plain_unquoted s HP q Hq). now constructor. Qed.
Lemma plain_hd s : plain s -> s <> [] -> ~ space (hd 0 s) /\ ~ space (last s 0).
Proof.
  intros HP HN. pose proof (plain_In _ _ HP (hd_In _ HN)). pose proof (plain_In _ _ HP (last_In _ HN)).
  destruct HP as (_ & _ & HS). destruct (HS HN). unfold space. lia.
Qed.
Lemma stripped_self s : (s <> [] -> ~ space (hd 0 s) /\ ~ space (last s 0)) -> stripped s s.
Proof. intros H. exists [], []. split; [now rewrite app_nil_r|]. split; [constructor|]. split; [constructor|exact H]. Qed.
Lemma plain_stripped s : plain s -> stripped s s.
Proof. intros H. apply stripped_self. now apply plain_hd. Qed.
Lemma section_line s : plain s -> line ([91] ++ s ++ [93]) (Section_ s).
Proof.
  intros HP. apply (l_section _ s s s); [|now apply plain_stripped|now apply plain_unquoted|now apply plain_denotes].
  apply stripped_self. intros _. split; [cbn; unfold space; lia|]. rewrite app_assoc, last_last. unfold space; lia.
Qed.
Lemma all_nonempty d v ps : pieces_of d v ps -> v <> [] -> ~ begins v d -> ~ ends v d -> ~ occurs [d; d] v ->
  filter Strings_Spec.nonempty ps = ps.
Proof.
  intros (HN & HF & E) N1 N2 N3 N4. assert (G : ~ In [] ps).
  { intros HI. apply in_split in HI. destruct HI as (l1 & l2 & ->). destruct l1 as [|x l1], l2 as [|y l2]; cbn [app] in E.
    - cbn in E. congruence.
    - apply N2. change (join d ([] :: y :: l2)) with ([] ++ d :: join d (y :: l2)) in E. rewrite E. eexists. reflexivity.
    - apply N3. change (x :: l1 ++ [[]]) with ((x :: l1) ++ [[]]) in E. rewrite join_app in E by discriminate. rewrite E. eexists. reflexivity.
    - apply N4. change (x :: l1 ++ [] :: y :: l2) with ((x :: l1) ++ [] :: y :: l2) in E. rewrite join_app in E by discriminate.
      change (join d ([] :: y :: l2)) with ([] ++ d :: join d (y :: l2)) in E. exists (join d (x :: l1)), (join d (y :: l2)). exact E. }
  clear - G. induction ps as [|[|c p] ps IH]; [reflexivity|exfalso; apply G; now left|]. cbn [filter Strings_Spec.nonempty]. f_equal. apply IH. intros H. apply G. now right.
Qed.
Lemma last_app_r (a b : list Z) : b <> [] -> last (a ++ b) 0 = last b 0.
Proof. intros H. rewrite (app_removelast_last 0 H). rewrite app_assoc, !last_last. reflexivity. Qed.
Lemma pair_line k v : plain_name k -> plain_value v -> line (k ++ [61] ++ v) (Pair k v).
Proof.
  intros (HK & NK & N61 & N59 & N91) (HV & NV & NB & NE & NO & N93).
  pose proof (pieces_ok 61 v) as PV. pose proof (all_nonempty _ _ _ PV NV NB NE NO) as EF.
  destruct PV as (PN & PF & PE). destruct (pieces 61 v) as [|p ps] eqn:EP; [congruence|].
  assert (NE0 : k ++ [61] ++ v <> []) by (destruct k; discriminate).
  destruct (plain_hd k HK NK) as [HK1 _]. destruct (plain_hd v HV NV) as [_ HV1].
  apply (l_pair _ (k ++ [61] ++ v) (k :: p :: ps) k p ps k k v v v v).
  - apply stripped_self. intros _. split; [destruct k; [congruence|exact HK1]|]. rewrite app_assoc. now rewrite last_app_r.
  - exact NE0.
  - intros (r & E). apply N59. destruct k as [|c k]; [congruence|]. injection E as -> _. eexists; reflexivity.
  - intros (r & E). apply N91. destruct k as [|c k]; [congruence|]. injection E as -> _. eexists; reflexivity.
  - intros (r & E). apply N93. pose proof (f_equal (fun l => last l 0) E) as EL. cbv beta in EL. rewrite app_assoc, last_app_r, last_last in EL by assumption.
    exists (removelast v). rewrite (app_removelast_last 0 NV) at 1. now rewrite EL.
  - split; [discriminate|]. split; [constructor; assumption|]. change (join 61 (k :: p :: ps)) with (k ++ 61 :: join 61 (p :: ps)). now rewrite <- PE.
  - cbn [filter]. cbn [filter] in EF. rewrite EF. destruct k; [congruence|reflexivity].
  - now apply plain_stripped.
  - now apply plain_unquoted.
  - now apply plain_denotes.
  - rewrite <- PE. now apply plain_stripped.
  - apply plain_unquote; auto.
  - apply plain_unquote; auto.
  - now apply plain_denotes.
Qed.
Definition plain_pair (p : list Z * list Z) : Prop := plain_name (fst p) /\ plain_value (snd p).
Definition plain_block (b : block) : Prop := plain (fst b) /\ Forall plain_pair (snd b).
Definition block_lines (b : block) : list (list Z) := ([91] ++ fst b ++ [93]) :: map (fun p => fst p ++ [61] ++ snd p) (snd b).
Lemma join_lines ls : join 10 (ls ++ [[]]) = flat_map (fun l => l ++ [10]) ls.
Proof.
  induction ls as [|l ls IH]; [reflexivity|]. cbn [flat_map]. rewrite <- IH. change ((l :: ls) ++ [[]]) with ([l] ++ (ls ++ [[]])).
  rewrite join_app; [|discriminate|destruct ls; discriminate]. cbn [join]. now rewrite <- app_assoc.
Qed.
Lemma flat_map_flat_map {A B C} (f : B -> list C) (g : A -> list B) l : flat_map f (flat_map g l) = flat_map (fun x => flat_map f (g x)) l.
Proof. induction l as [|x l IH]; [reflexivity|]. cbn [flat_map]. now rewrite flat_map_app, IH. Qed.
Lemma render_lines bs : render bs = join 10 (flat_map block_lines bs ++ [[]]).
Proof.
  rewrite join_lines, flat_map_flat_map. unfold render. apply flat_map_ext. intros [s ps]. unfold render_block, block_lines. cbn [fst snd flat_map].
  rewrite <- !app_assoc. cbn [app]. do 2 f_equal. f_equal. f_equal. induction ps as [|p ps IH]; [reflexivity|]. cbn [flat_map map]. rewrite IH. unfold render_pair. now rewrite <- !app_assoc.
Qed.
Lemma lines_items bs : Forall plain_block bs -> Forall2 line (flat_map block_lines bs) (flat_map items_of bs).
Proof.
  induction 1 as [|[s ps] bs [HS HP] _ IH]; [constructor|]. cbn [flat_map]. apply Forall2_app; [|assumption]. cbn [fst snd] in *. constructor; [now apply section_line|].
  induction HP as [|[k v] ps [HK HV] _ IHp]; [constructor|]. cbn [map fst snd]. constructor; [now apply pair_line|assumption].
Qed.
Lemma lines_no10 bs : Forall plain_block bs -> Forall (fun p => ~ In 10 p) (flat_map block_lines bs).
Proof.
  induction 1 as [|[s ps] bs [HS HP] _ IH]; [constructor|]. cbn [flat_map]. apply Forall_app. split; [|assumption]. cbn [fst snd] in *. constructor.
  - cbn [app]. intros [H|H]; [discriminate|]. apply in_app_or in H. destruct H as [H|[H|[]]]; [now apply plain_no10 in H|discriminate].
  - induction HP as [|[k v] ps [HK HV] _ IHp]; [constructor|]. cbn [map fst snd]. constructor; [|assumption]. cbn [fst snd] in *. intros H. apply in_app_or in H.
    destruct H as [H|[H|H]]; [apply (plain_no10 k); [apply HK|assumption]|discriminate|apply (plain_no10 v); [apply HV|assumption]].
Qed.
Lemma byte_render bs : Forall plain_block bs -> Forall byte (render bs).
Proof.
  intros H. apply Forall_forall. intros c HI. unfold render in HI. apply in_flat_map in HI. destruct HI as ([s ps] & HB & HI). rewrite Forall_forall in H. destruct (H _ HB) as [HS HP].
  assert (PB : forall w, plain w -> In c w -> byte c) by (intros w (HU & _) Hw; pose proof (utf8_text_bytes _ HU) as F; rewrite Forall_forall in F; now apply F).
  unfold render_block in HI. cbn [fst snd] in *. cbn [app] in HI. destruct HI as [<-|HI]; [unfold byte; lia|]. apply in_app_or in HI. destruct HI as [HI|[<-|[<-|HI]]]; [eauto|unfold byte; lia|unfold byte; lia|].
  apply in_flat_map in HI. destruct HI as ([k v] & HI1 & HI). rewrite Forall_forall in HP. destruct (HP _ HI1) as [HK HV]. unfold render_pair in HI. cbn [fst snd] in *.
  cbn [app] in HI; apply in_app_or in HI. destruct HI as [HI|[<-|HI]]; [apply (PB k); [apply HK|assumption]|unfold byte; lia|]. apply in_app_or in HI. destruct HI as [HI|[<-|[]]]; [apply (PB v); [apply HV|assumption]|unfold byte; lia].
Qed.

(** Rendering sections and pairs and parsing the text yields those sections with those pairs (for a name
    given twice, the last value; for a section given twice, the last one). *)
Theorem render_parses_partial : forall sg bs, bs <> [] -> Forall plain_block bs ->
  exists es m, parse_ini sg (render bs) = Some (JObject m) /\ Forall2 entry_of bs es /\ map_of es m.
Proof.
  intros sg bs HN HB. exists (map ent bs), (insert_all (map ent bs) []). split; [|split; [now apply entries_unique|apply insert_all_map]].
  apply parse_ini_exact; [now apply byte_render|].
  exists (flat_map block_lines bs ++ [[]]), (flat_map items_of bs ++ [Skip]), bs, (map ent bs), (insert_all (map ent bs) []).
  split; [split; [destruct (flat_map block_lines bs); discriminate|split; [apply Forall_app; split; [now apply lines_no10|constructor; [intros []|constructor]]|apply render_lines]]|].
  split; [apply Forall2_app; [now apply lines_items|constructor; [|constructor]; apply l_blank; apply stripped_self; congruence]|].
  split; [|split; [assumption|split; [now apply entries_unique|split; [apply insert_all_map|reflexivity]]]].
  rewrite filter_app. cbn [filter skip negb]. rewrite app_nil_r. clear. induction bs as [|[s ps] bs IH]; [reflexivity|]. cbn [flat_map]. rewrite filter_app, IH. f_equal.
  unfold items_of. cbn [fst snd filter skip negb]. apply (f_equal (cons (Section_ s))). induction ps as [|p ps IHp]; [reflexivity|]. cbn [map filter skip negb]. now rewrite IHp.
Qed.
(** With distinct section names and, in every section, distinct names: parsing yields exactly the given
    sections, names and values. *)
Definition value_of (j : json) (s k v : list Z) : Prop := exists m o, j = JObject m /\ In (s, JObject o) m /\ In (k, JString v) o.
Definition has_section (j : json) (s : list Z) : Prop := exists m o, j = JObject m /\ In (s, o) m.
Lemma last_binding_nodup ms k v : NoDup (map fst ms) -> (last_binding ms k v <-> In (k, v) ms).
Proof.
  intros HN. split.
  - intros (a & b & -> & _). apply in_or_app. right. now left.
  - intros HI. apply in_split in HI. destruct HI as (a & b & ->). exists a, b. split; [reflexivity|]. rewrite map_app in HN. cbn [map fst] in HN.
    apply NoDup_remove_2 in HN. intros HI. apply HN. apply in_or_app. now right.
Qed.
Theorem render_parses_distinct_partial : forall sg bs, bs <> [] -> Forall plain_block bs ->
  NoDup (map fst bs) -> Forall (fun b => NoDup (map fst (snd b))) bs ->
  exists j, parse_ini sg (render bs) = Some j /\
    (forall s, has_section j s <-> In s (map fst bs)) /\
    (forall s k v, value_of j s k v <-> exists ps, In (s, ps) bs /\ In (k, v) ps).
Proof.
  intros sg bs HN HB HD HP. destruct (render_parses_partial sg bs HN HB) as (es & m & EP & HE & HM). exists (JObject m). split; [assumption|].
  apply entries_unique in HE. subst es. destruct HM as [_ HM].
  assert (HD' : NoDup (map fst (map ent bs))) by (rewrite map_map; exact HD).
  assert (HM' : forall s o, In (s, o) m <-> exists ps, In (s, ps) bs /\ o = JObject (insert_all (jpairs ps) [])).
  { intros s o. rewrite HM, last_binding_nodup by assumption. rewrite in_map_iff. unfold ent. split.
    - intros ([s' ps] & E & HI). cbn [fst snd] in E. injection E as <- <-. eauto.
    - intros (ps & HI & ->). exists (s, ps). auto. }
  split.
  - intros s. split.
    + intros (m' & o & E & HI). injection E as <-. apply HM' in HI. destruct HI as (ps & HI & _). change s with (fst (s, ps)). now apply in_map.
    + intros HI. apply in_map_iff in HI. destruct HI as ([s' ps] & <- & HI). exists m, (JObject (insert_all (jpairs ps) [])). split; [reflexivity|]. apply HM'. eauto.
  - intros s k v.
    assert (GI : forall ps, In (s, ps) bs -> (In (k, JString v) (insert_all (jpairs ps) []) <-> In (k, v) ps)).
    { intros ps HI. destruct (insert_all_map (jpairs ps)) as [_ HJ]. rewrite HJ. rewrite Forall_forall in HP. specialize (HP _ HI). cbn [snd] in HP.
      rewrite last_binding_nodup by (unfold jpairs; rewrite map_map; exact HP). unfold jpairs. rewrite in_map_iff. split.
      - intros ([k' v'] & E & HI'). cbn [fst snd] in E. injection E as <- <-. assumption.
      - intros HI'. exists (k, v). auto. }
    split.
    + intros (m' & o & E & H1 & H2). injection E as <-. apply HM' in H1. destruct H1 as (ps & H1 & E). injection E as ->. exists ps. split; [assumption|]. now apply GI.
    + intros (ps & H1 & H2). exists m, (insert_all (jpairs ps) []). split; [reflexivity|]. split; [apply HM'; eauto|]. now apply GI.
Qed.

(** * The text after the first '=' is not always the value *)
Definition doc (l : list Z) : list Z := [91; 115; 93; 10] ++ l.
Definition only (k v : list Z) : json := JObject [([115], JObject [(k, JString v)])].
(** "k=a==b" is read as a=b; "k=ab==" as ab; "k==a" as a; "=k=a" as k=a. *)
Theorem text_after_equals_is_value_refuted :
  ~ (forall sg k v, plain_name k -> plain v -> v <> [] -> parse_ini sg (doc (k ++ [61] ++ v)) = Some (only k v)).
Proof.
  intros H. assert (P : forall s, Forall (fun c => 0x20 <= c <= 126 /\ c <> 34 /\ c <> 92 /\ c <> 39) s -> (s <> [] -> hd 0 s <> 32 /\ last s 0 <> 32) -> plain s).
  { intros s HF HE. split; [apply printable_utf8; eapply Forall_impl; [|exact HF]; cbv beta; unfold Unicode_Spec.printable; lia|]. split; [|exact HE].
    eapply Forall_impl; [|exact HF]; cbv beta; lia. }
  specialize (H true [107] [97; 61; 61; 98]).
  assert (N : plain_name [107]).
  { split; [apply P; [repeat (constructor; [lia|]); constructor|cbn; lia]|]. split; [discriminate|]. split; [intros [E|[]]; discriminate|]. split; intros (r & E); discriminate. }
  specialize (H N). specialize (H ltac:(apply P; [repeat (constructor; [lia|]); constructor|cbn; lia]) ltac:(discriminate)). vm_compute in H. discriminate.
Qed.
Example equals_run_merged : parse_ini true (doc [107; 61; 97; 61; 61; 98]) = Some (only [107] [97; 61; 98]). Proof. reflexivity. Qed.
Example equals_end_dropped : parse_ini true (doc [107; 61; 97; 98; 61; 61]) = Some (only [107] [97; 98]). Proof. reflexivity. Qed.
Example equals_start_dropped : parse_ini true (doc [61; 107; 61; 97]) = Some (only [107] [97]). Proof. reflexivity. Qed.
(** A value that ends with ']' makes the whole file unreadable: k=[1] *)
Theorem bracket_value_rejected : forall sg, parse_ini sg (doc [107; 61; 91; 49; 93]) = None.
Proof. intros []; reflexivity. Qed.
(** A pair with an empty value makes the whole file unreadable: k= *)
Theorem empty_value_rejected : forall sg, parse_ini sg (doc [107; 61]) = None.
Proof. intros []; reflexivity. Qed.
(** A value that is one quotation mark is read as empty; escapes are interpreted. *)
Example lone_quote : parse_ini true (doc [107; 61; 39]) = Some (only [107] []). Proof. reflexivity. Qed.
Example escape_interpreted : parse_ini true (doc [107; 61; 97; 92; 110]) = Some (only [107] [97; 10]). Proof. reflexivity. Qed.
(** A section that occurs again replaces the earlier one: "[s]\nk=a\n[s]\nj=b" *)
Example section_reset : parse_ini true (doc ([107; 61; 97; 10] ++ doc [106; 61; 98])) = Some (only [106] [98]). Proof. reflexivity. Qed.

(** The hypotheses of the round trip are met: two sections, one with two pairs, one value with '='. *)
Definition sample : list block := [([115; 32; 49], [([107; 49], [97; 61; 98]); ([107; 50], [120; 32; 121])]); ([116], [([107; 49], [49])])].
Example sample_plain : Forall plain_block sample /\ NoDup (map fst sample) /\ Forall (fun b => NoDup (map fst (snd b))) sample.
Proof.
  assert (P : forall s, Forall (fun c => 0x20 <= c <= 126 /\ c <> 34 /\ c <> 92 /\ c <> 39) s -> (s <> [] -> hd 0 s <> 32 /\ last s 0 <> 32) -> plain s).
  { intros s HF HE. split; [apply printable_utf8; eapply Forall_impl; [|exact HF]; cbv beta; unfold Unicode_Spec.printable; lia|]. split; [|exact HE].
    eapply Forall_impl; [|exact HF]; cbv beta; lia. }
  Ltac pl P := apply P; [repeat (constructor; [lia|]); constructor|cbn; lia].
  Ltac pn P := split; [pl P|]; split; [discriminate|]; split; [cbn; intuition discriminate|]; split; intros (? & E); discriminate.
  Ltac noends := let r := fresh in let E := fresh in intros (r & E); destruct r as [|? [|? [|? [|? ?]]]]; cbn in E; try discriminate; injection E; intros; congruence.
  Ltac noocc := let a := fresh in let b := fresh in let E := fresh in intros (a & b & E); destruct a as [|? [|? [|? [|? ?]]]]; cbn in E; try discriminate; injection E; intros; congruence.
  Ltac pv P := split; [pl P|]; split; [discriminate|]; split; [intros (? & E); discriminate|]; split; [noends|]; split; [noocc|noends].
  split.
  - constructor; [|constructor; [|constructor]]; (split; [pl P|]); cbn [snd].
    + constructor; [|constructor; [|constructor]]; (split; [pn P|pv P]).
    + constructor; [|constructor]. split; [pn P|pv P].
  - split; [|constructor; [|constructor; [|constructor]]]; cbn; repeat (constructor; [cbn; intuition discriminate|]); constructor.
Qed.
Example sample_parsed : parse_ini true (render sample) =
  Some (JObject [([115; 32; 49], JObject [([107; 49], JString [97; 61; 98]); ([107; 50], JString [120; 32; 121])]); ([116], JObject [([107; 49], JString [49])])]).
Proof. reflexivity. Qed.
