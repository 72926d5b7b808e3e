(** Lemmas for C46-C48. *)
From Verif Require Import Common Bits BitStream_Proofs Huffman_Codes_Proofs Huffman_Proofs Format_Model Format_Spec Format_Proofs Huffman_Model Huffman_Spec Huffman_Props Logger_Model Logger_Spec.
Open Scope nat_scope.

(** * Records *)
Lemma decimal_text v : (0 <= v < 2 ^ 64)%Z -> number_text v (decimal v).
Proof. intros H. unfold decimal, number_text. destruct (to_chars_64 10 v ltac:(lia) H) as (s & -> & P & _). exact P. Qed.
Lemma decimal_bytes v : (0 <= v < 2 ^ 64)%Z -> Forall byte (decimal v) /\ plain_text (decimal v).
Proof.
  intros H. destruct (decimal_text v H) as (F & _). split.
  - eapply Forall_impl; [|exact F]. unfold digit_of, byte. intros; lia.
  - split; intros K; rewrite Forall_forall in F; specialize (F _ K); unfold digit_of in F; lia.
Qed.
Lemma shown t : (0 <= t_line t < 2 ^ 32)%Z -> trace_shown t (trace_text t).
Proof.
  intros H. assert (H64 : (0 <= t_line t < 2 ^ 64)%Z) by (split; [lia|]; apply Z.lt_trans with (2 ^ 32)%Z; [lia|]; apply Z.pow_lt_mono_r; lia).
  unfold trace_shown, trace_text. destruct (t_file t); [left; auto|]. destruct (t_function t); [left; auto|]. right.
  repeat split; try discriminate. exists (decimal (t_line t)). split; [now apply decimal_text|reflexivity].
Qed.
Lemma wrap64 i : (0 <= u64 (Z.of_nat i) < 2 ^ 64)%Z.
Proof. unfold u64, wrap. apply Z.mod_pos_bound. apply Z.pow_pos_nonneg; lia. Qed.
Definition text (x : nat * nat * call) : list Z := let '(i, m, c) := x in render i m c.
Lemma level_byte c : bytes_call c -> u8 (c_level c) = c_level c.
Proof. intros (H & _). unfold u8, wrap. change (2 ^ 8)%Z with 256%Z. apply Z.mod_small. exact H. Qed.
Lemma render_record x : bytes_call (snd x) -> record_of x (text x).
Proof.
  destruct x as [[i m] c]. cbn [snd]. intros H. exists (decimal (u64 (Z.of_nat i))), (trace_text (c_trace c)).
  split; [apply decimal_text, wrap64|]. split; [apply shown, H|]. unfold text, render. now rewrite level_byte.
Qed.
Lemma byte_sep z : (z = 58 \/ z = 30 \/ z = 31)%Z -> byte z.
Proof. unfold byte. lia. Qed.
Lemma trace_bytes t : (0 <= t_line t < 2 ^ 32)%Z -> Forall byte (t_file t) -> Forall byte (t_function t) -> Forall byte (trace_text t).
Proof.
  intros HL H1 H2. unfold trace_text. destruct (t_file t) eqn:E1; [constructor|]. destruct (t_function t) eqn:E2; [constructor|].
  rewrite !Forall_app. repeat split; auto; try (constructor; [apply byte_sep; auto|constructor]).
  apply decimal_bytes. split; [lia|]; apply Z.lt_trans with (2 ^ 32)%Z; [lia|]; apply Z.pow_lt_mono_r; lia.
Qed.
Lemma render_bytes i m c : bytes_call c -> Forall byte (render i m c).
Proof.
  intros H. pose proof (level_byte c H) as HB. destruct H as (HL & HT & H1 & H2 & H3 & H4).
  unfold render. rewrite HB. rewrite !Forall_app.
  assert (forall z, byte z -> Forall byte [z]) by (intros; constructor; [assumption|constructor]).
  repeat split; auto; try (apply H; apply byte_sep; unfold unit_separator, record_separator; auto).
  - apply decimal_bytes, wrap64.
  - now apply trace_bytes.
  - now apply Forall_firstn.
Qed.
Lemma render_length i m c : 0 < length (render i m c).
Proof. unfold render. rewrite !app_length. cbn [length]. lia. Qed.

(** * Histories *)
Lemma taken_app a b : taken (a ++ b) = taken a ++ taken b. Proof. apply flat_map_app. Qed.
Lemma logged_app a b : logged (a ++ b) = logged a ++ logged b. Proof. apply flat_map_app. Qed.
Lemma faults_app a b : faults (a ++ b) = faults a ++ faults b. Proof. apply flat_map_app. Qed.
Lemma taken_in c l : In c (taken l) -> In (ECall c true) l.
Proof.
  unfold taken. rewrite in_flat_map. intros (e & He & Hc). destruct e as [c' []| | |]; try contradiction.
  destruct Hc as [->|[]]. exact He.
Qed.

(** * The invariant *)
Definition covers (exact : Prop) (g : list (list Z)) (content : list Z) : Prop :=
  exists missing, content ++ missing = concat g /\ length missing <= length (last g []) /\ (exact -> missing = []).
Definition kept (s : state) (exact : Prop) (n : nat) (g : list (list Z)) : Prop :=
  exists content, holds s n content /\ covers exact g content.
Definition unpacks (file content : list Z) : Prop := forall hb, decode_string hb file = Ok (Some content).
Definition current (s : state) (cur : list (list Z)) : Prop :=
  let nf := faults (hist s) = [] in
  match pc s with
  | Idle => (failed s = true /\ ~ nf /\ cur = []) \/ (exists content, plain s (number s) = Some content /\ covers (good s = true) cur content)
  | Writing rest => failed s = false /\ good s = true /\
      exists content r before, plain s (number s) = Some content /\ cur = before ++ [r] /\ content ++ rest = concat cur /\ length rest <= length r
  | Sizing => failed s = false /\ exists content, plain s (number s) = Some content /\ covers (good s = true) cur content
  | Compressing => failed s = false /\ exists content, plain s (number s) = Some content /\ covers nf cur content
  | Encoding rest => failed s = false /\
      exists content out, plain s (number s) = Some content /\ covers nf cur content /\ packed s (number s) = Some out /\ unpacks (out ++ rest) content
  | Removing => failed s = false /\
      exists content out, plain s (number s) = Some content /\ covers nf cur content /\ packed s (number s) = Some out /\ unpacks out content
  | Opening => failed s = false /\ kept s nf (number s) cur
  | Undefined => False
  end.
Record inv (s : state) (olds : list (list (list Z))) (cur : list (list Z)) : Prop := Inv {
  i_records : concat olds ++ cur = map text (logged (hist s));
  i_number : number s = S (length olds);
  i_olds : forall i g, nth_error olds i = Some g -> kept s (faults (hist s) = []) (S i) g;
  i_current : current s cur;
  i_flags : faults (hist s) = [] -> good s = true /\ failed s = false;
  i_config : In (EConfig (cfg s)) (hist s);
  i_queue : faults (hist s) = [] -> map snd (logged (hist s)) ++ queue s = taken (hist s);
  i_from : forall c, In c (map snd (logged (hist s)) ++ queue s) -> In c (taken (hist s));
  i_index : faults (hist s) = [] -> index s = length (logged (hist s));
  i_indices : faults (hist s) = [] -> map (fun x => fst (fst x)) (logged (hist s)) = seq 0 (length (logged (hist s))) }.

Lemma covers_weaken (P Q : Prop) g c : (Q -> P) -> covers P g c -> covers Q g c.
Proof. intros H (m & H1 & H2 & H3). exists m. auto. Qed.
Lemma covers_full P g : covers P g (concat g).
Proof. exists []. rewrite app_nil_r. cbn. split; [reflexivity|]. split; [lia|auto]. Qed.
Lemma covers_in P g c : covers P g c -> forall x, In x c -> In x (concat g).
Proof. intros (m & <- & _) x Hx. apply in_or_app. now left. Qed.
Lemma holds_put_other s s' n content : (forall m, m <> number s -> plain s' m = plain s m) -> (forall m, m <> number s -> packed s' m = packed s m) ->
  n <> number s -> holds s n content -> holds s' n content.
Proof. intros H1 H2 Hn H. unfold holds in *. rewrite H1, H2 by assumption. exact H. Qed.
Lemma kept_other s s' (P Q : Prop) n g : (forall m, m <> number s -> plain s' m = plain s m) -> (forall m, m <> number s -> packed s' m = packed s m) ->
  (Q -> P) -> n <> number s -> kept s P n g -> kept s' Q n g.
Proof. intros H1 H2 HPQ Hn (c & H & HC). exists c. split; [eapply holds_put_other; eassumption|eapply covers_weaken; eassumption]. Qed.
Lemma put_same f n x : put f n x n = x.
Proof. unfold put. now rewrite Nat.eqb_refl. Qed.
Lemma put_other f n x m : m <> n -> put f n x m = f m.
Proof. intros H. unfold put. destruct (Nat.eqb_spec m n); [contradiction|reflexivity]. Qed.
Lemma old_other s olds cur i g : inv s olds cur -> nth_error olds i = Some g -> S i <> number s.
Proof. intros H E. rewrite (i_number _ _ _ H). assert (i < length olds) by (apply nth_error_Some; congruence). lia. Qed.
Lemma olds_keep s s' (Q : Prop) olds cur : inv s olds cur -> (forall m, m <> number s -> plain s' m = plain s m) -> (forall m, m <> number s -> packed s' m = packed s m) ->
  (Q -> faults (hist s) = []) -> forall i g, nth_error olds i = Some g -> kept s' Q (S i) g.
Proof.
  intros H H1 H2 HQ i g E. eapply kept_other; [exact H1|exact H2|exact HQ|eapply old_other; eassumption|eapply i_olds; eassumption].
Qed.
Lemma nofault_app l e : faults (l ++ [e]) = [] -> faults l = [].
Proof. rewrite faults_app. intros H. now apply app_eq_nil in H. Qed.
Lemma isfault l f : faults (l ++ [EFault f]) <> [].
Proof. rewrite faults_app. cbn. now destruct (faults l). Qed.
Lemma decode_empty hb : decode_string hb [] = Ok None.
Proof. destruct hb; vm_compute; reflexivity. Qed.

Lemma current_ext s s' cur : pc s' = pc s -> failed s' = failed s -> good s' = good s -> number s' = number s -> plain s' = plain s -> packed s' = packed s ->
  (faults (hist s') = [] <-> faults (hist s) = []) -> current s cur -> current s' cur.
Proof.
  intros E1 E2 E3 E4 E5 E6 E7. unfold current, kept, holds. rewrite E1, E2, E3, E4, E5, E6.
  destruct (pc s) eqn:EP; try tauto.
  - intros (H & c & H1 & H2); split; [assumption|]; exists c; split; [assumption|]; eapply covers_weaken; [|exact H2]; tauto.
  - intros (H & c & o & H1 & H2 & H3). split; [assumption|]. exists c, o. split; [assumption|]. split; [|assumption]. eapply covers_weaken; [|exact H2]. tauto.
  - intros (H & c & o & H1 & H2 & H3). split; [assumption|]. exists c, o. split; [assumption|]. split; [|assumption]. eapply covers_weaken; [|exact H2]. tauto.
  - intros (H & c & H1 & H2); split; [assumption|]; exists c; split; [assumption|]; eapply covers_weaken; [|exact H2]; tauto.
Qed.

Definition ok_history (l : list event) : Prop := Forall tolerable (faults l) /\ good_calls l /\ good_configs l.
Lemma ok_app l e : ok_history (l ++ [e]) -> ok_history l.
Proof.
  intros (H1 & H2 & H3). split; [|split].
  - rewrite faults_app in H1. apply Forall_app in H1. tauto.
  - intros c b H. apply (H2 c b). apply in_or_app. now left.
  - intros k H. apply (H3 k). apply in_or_app. now left.
Qed.

Lemma records_bytes s olds cur : inv s olds cur -> ok_history (hist s) -> Forall (Forall byte) cur.
Proof.
  intros HI (_ & HC & _). assert (F : Forall (Forall byte) (concat olds ++ cur)).
  { rewrite (i_records _ _ _ HI). apply Forall_forall. intros r Hr. apply in_map_iff in Hr. destruct Hr as ([[i m] c] & <- & Hin).
    apply render_bytes. apply (HC c true), taken_in, (i_from _ _ _ HI), in_or_app. left. apply in_map_iff. now exists (i, m, c). }
  apply Forall_app in F. tauto.
Qed.
Lemma content_bytes s olds cur P content : inv s olds cur -> ok_history (hist s) -> covers P cur content -> Forall byte content.
Proof.
  intros HI HO HC. pose proof (records_bytes _ _ _ HI HO) as F. apply Forall_forall. intros x Hx.
  apply (covers_in _ _ _ HC) in Hx. apply in_concat in Hx. destruct Hx as (r & Hr & Hx). rewrite Forall_forall in F. specialize (F r Hr).
  rewrite Forall_forall in F. auto.
Qed.

(** Encoding under a valid configuration. *)
Lemma encode_outcome s hb content result : ok_history (hist s) -> In (EConfig (cfg s)) (hist s) -> Forall byte content ->
  encode_string hb (chunk_kb (cfg s)) (code_length (cfg s)) content result ->
  result = Ok None \/ exists file, result = Ok (Some file) /\ unpacks file content.
Proof.
  intros (_ & _ & HK) Hin HB HE. destruct (HK _ Hin) as (H1 & H2).
  destruct (Z_lt_ge_dec (code_length (cfg s)) 16) as [Hl|Hl].
  - right. destruct (huffman_roundtrip hb true (chunk_kb (cfg s)) (code_length (cfg s)) content result) as (file & -> & D); auto; [lia|].
    exists file. split; [reflexivity|]. intros hb'.
    destruct (huffman_roundtrip hb hb' (chunk_kb (cfg s)) (code_length (cfg s)) content (Ok (Some file))) as (file' & E & D'); auto; [lia|].
    injection E as <-. exact D'.
  - left. unfold encode_string in HE. destruct (Z.geb_spec (code_length (cfg s)) 16) as [|K]; [exact HE|lia].
Qed.

Lemma inv_internal s s' olds cur : inv s olds cur -> hist s' = hist s -> queue s' = queue s -> index s' = index s -> number s' = number s -> cfg s' = cfg s ->
  (forall m, m <> number s -> plain s' m = plain s m) -> (forall m, m <> number s -> packed s' m = packed s m) ->
  (faults (hist s) = [] -> good s' = true /\ failed s' = false) -> current s' cur -> inv s' olds cur.
Proof.
  intros HI E1 E2 E3 E4 E5 H1 H2 H3 HC. destruct HI as [R N O C F K Q W X Y] eqn:EI. clear EI.
  split; rewrite ?E1, ?E2, ?E3, ?E4, ?E5; try assumption.
  eapply (olds_keep s s' _ olds cur HI); [exact H1|exact H2|tauto].
Qed.
Lemma inv_fault s s' f olds cur : inv s olds cur -> hist s' = hist s ++ [EFault f] -> queue s' = queue s -> number s' = number s -> cfg s' = cfg s ->
  (forall m, m <> number s -> plain s' m = plain s m) -> (forall m, m <> number s -> packed s' m = packed s m) ->
  current s' cur -> inv s' olds cur.
Proof.
  intros HI E1 E2 E4 E5 H1 H2 HC. pose proof HI as HI'. destruct HI' as [R N O C F K Q W X Y].
  assert (EL : logged (hist s') = logged (hist s)) by (rewrite E1, logged_app; cbn; now rewrite app_nil_r).
  assert (ET : taken (hist s') = taken (hist s)) by (rewrite E1, taken_app; cbn; now rewrite app_nil_r).
  assert (NF : faults (hist s') <> []) by (rewrite E1; apply isfault).
  split; rewrite ?EL, ?ET, ?E2, ?E4, ?E5; try assumption; try (intros; contradiction).
  - eapply (olds_keep s s' _ olds cur HI); [exact H1|exact H2|intros; contradiction].
  - rewrite E1. apply in_or_app. now left.
Qed.

Lemma tolerable_fault l f : ok_history (l ++ [EFault f]) -> tolerable f.
Proof. intros (H & _). rewrite faults_app in H. apply Forall_app in H. destruct H as (_ & H). cbn in H. now inversion H. Qed.

Lemma last_snoc {A} (l : list A) x d : last (l ++ [x]) d = x.
Proof. apply last_last. Qed.

(** How the records are distributed over files after a step. *)
Definition evolves (s s' : state) (olds : list (list (list Z))) (cur : list (list Z)) (olds' : list (list (list Z))) (cur' : list (list Z)) : Prop :=
  (number s' = number s /\ olds' = olds) \/ (number s' = S (number s) /\ olds' = olds ++ [cur] /\ cur' = []).
Lemma inv_step hb s s' olds cur : inv s olds cur -> step hb s s' -> ok_history (hist s') -> exists olds' cur', inv s' olds' cur' /\ evolves s s' olds cur olds' cur'.
Proof.
  intros HI HS HO. pose proof HI as HI'. destruct HI' as [R N O C F K Q W X Y]. destruct HS.
  - (* s_call *)
    exists olds, cur; split; [|left; split; [now destruct (rejects s c)|reflexivity]]. destruct (rejects s c) eqn:ER.
    + assert (EL : logged (hist s ++ [ECall c false]) = logged (hist s)) by (rewrite logged_app; cbn; now rewrite app_nil_r).
      assert (ET : taken (hist s ++ [ECall c false]) = taken (hist s)) by (rewrite taken_app; cbn; now rewrite app_nil_r).
      assert (EF : faults (hist s ++ [ECall c false]) = faults (hist s)) by (rewrite faults_app; cbn; now rewrite app_nil_r).
      split; cbn [say hist queue index number cfg good failed]; rewrite ?EL, ?ET, ?EF; try assumption.
      * eapply current_ext with (s := s); try reflexivity; [|exact C]. cbn [say hist]. now rewrite EF.
      * apply in_or_app. now left.
    + assert (EL : logged (hist s ++ [ECall c true]) = logged (hist s)) by (rewrite logged_app; cbn; now rewrite app_nil_r).
      assert (ET : taken (hist s ++ [ECall c true]) = taken (hist s) ++ [c]) by (rewrite taken_app; reflexivity).
      assert (EF : faults (hist s ++ [ECall c true]) = faults (hist s)) by (rewrite faults_app; cbn; now rewrite app_nil_r).
      split; cbn [say with_queue hist queue index number cfg good failed]; rewrite ?EL, ?ET, ?EF; try assumption.
      * eapply current_ext with (s := s); try reflexivity; [|exact C]. cbn [say with_queue hist]. now rewrite EF.
      * apply in_or_app. now left.
      * intros HF. now rewrite app_assoc, (Q HF).
      * intros c'. rewrite app_assoc, !in_app_iff. intros [HH|HH]; [left; apply W; now apply in_or_app|now right].
  - (* s_config *)
    exists olds, cur; split; [|left; split; reflexivity].
    assert (EL : logged (hist s ++ [EConfig k]) = logged (hist s)) by (rewrite logged_app; cbn; now rewrite app_nil_r).
    assert (ET : taken (hist s ++ [EConfig k]) = taken (hist s)) by (rewrite taken_app; cbn; now rewrite app_nil_r).
    assert (EF : faults (hist s ++ [EConfig k]) = faults (hist s)) by (rewrite faults_app; cbn; now rewrite app_nil_r).
    split; cbn [say with_cfg hist queue index number cfg good failed]; rewrite ?EL, ?ET, ?EF; try assumption.
    + eapply current_ext with (s := s); try reflexivity; [|exact C]. cbn [say with_cfg hist]. now rewrite EF.
    + apply in_or_app. right. now left.
  - (* s_skip *)
    exists olds, cur; split; [|left; split; reflexivity].
    assert (NF : faults (hist s) <> []) by (intros HF; destruct (F HF); congruence).
    split; cbn [with_queue hist queue index number cfg good failed]; try assumption; try (intros; contradiction).
    intros c'. rewrite in_app_iff. intros HH. apply W. rewrite in_app_iff. rewrite H0. cbn. tauto.
  - (* s_take *)
    set (r := render (index s) (max_message (cfg s)) c). set (e := ELogged (index s) (max_message (cfg s)) c).
    assert (EL : logged (hist s ++ [e]) = logged (hist s) ++ [(index s, max_message (cfg s), c)]) by (rewrite logged_app; reflexivity).
    assert (ET : taken (hist s ++ [e]) = taken (hist s)) by (rewrite taken_app; cbn; now rewrite app_nil_r).
    assert (EF : faults (hist s ++ [e]) = faults (hist s)) by (rewrite faults_app; cbn; now rewrite app_nil_r).
    exists olds, (cur ++ [r]); split; [|left; split; reflexivity].
    split; cbn [say with_queue with_index at_ hist queue index number cfg good failed pc]; rewrite ?EL, ?ET, ?EF; try assumption.
    + rewrite app_assoc, R, map_app. reflexivity.
    + unfold current in C |- *. rewrite H in C. cbn [say with_queue with_index at_ pc failed good plain number hist]. split; [assumption|]. split; [assumption|].
      destruct C as [(C1 & _)|(content & C1 & (m & C2 & _ & C3))]; [congruence|].
      rewrite (C3 H2), app_nil_r in C2. exists content, r, cur. split; [assumption|]. split; [reflexivity|]. split; [|lia].
      rewrite concat_app, C2. cbn. now rewrite app_nil_r.
    + apply in_or_app. now left.
    + intros HF. rewrite map_app, <- app_assoc. cbn. rewrite <- (Q HF), H0. reflexivity.
    + intros c'. rewrite map_app, <- app_assoc. cbn. intros HH. apply W. rewrite H0. exact HH.
    + intros HF. rewrite app_length. cbn. rewrite (X HF). lia.
    + intros HF. rewrite map_app, app_length, (Y HF), (X HF). cbn. now rewrite Nat.add_1_r, seq_S.
  - (* s_refuse *)
    assert (NF : faults (hist s) <> []) by (intros HF; destruct (F HF); congruence).
    exists olds, cur; split; [|left; split; reflexivity]. split; cbn [with_queue with_index with_flags hist queue index number cfg good failed pc]; try assumption; try (intros; contradiction).
    + unfold current in C |- *. rewrite H in C. cbn [with_queue with_index with_flags pc failed good plain number hist]. rewrite H.
      destruct C as [(C1 & _)|(content & C1 & C2)]; [congruence|]. right. exists content. split; [assumption|]. now rewrite H2 in C2.
    + intros c'. rewrite in_app_iff. intros HH. apply W. rewrite in_app_iff. rewrite H0. cbn. tauto.
  - (* s_write *)
    exists olds, cur; split; [|left; split; reflexivity]. unfold current in C. rewrite H in C. destruct C as (C0 & C1 & content & r & before & C2 & C3 & C4 & C5).
    eapply inv_internal; try exact HI; try reflexivity.
    + intros m Hm. cbn. now apply put_other.
    + cbn. intros _. now split.
    + unfold current. cbn [pc at_ with_plain failed good plain number hist]. rewrite put_same, C2. cbn [option_map]. split; [assumption|]. split; [assumption|].
      exists (content ++ firstn n rest), r, before. split; [reflexivity|]. split; [assumption|]. rewrite <- app_assoc, firstn_skipn. split; [assumption|].
      rewrite skipn_length. lia.
  - (* s_write_fails *)
    exists olds, cur; split; [|left; split; reflexivity]. unfold current in C. rewrite H in C. destruct C as (C0 & C1 & content & r & before & C2 & C3 & C4 & C5).
    eapply inv_fault; try exact HI; try reflexivity.
    unfold current. cbn [pc at_ say with_flags failed good plain number hist]. split; [assumption|]. exists content. split; [assumption|].
    exists rest. split; [assumption|]. split; [|discriminate]. rewrite C3, last_snoc. assumption.
  - (* s_written *)
    exists olds, cur; split; [|left; split; reflexivity]. unfold current in C. rewrite H in C. destruct C as (C0 & C1 & content & r & before & C2 & C3 & C4 & C5).
    eapply inv_internal; try exact HI; try reflexivity.
    + intros _. now split.
    + unfold current. cbn [pc at_ say with_flags failed good plain number hist]. split; [assumption|]. exists content. split; [assumption|].
      rewrite app_nil_r in C4. rewrite C4. apply covers_full.
  - (* s_fits *)
    exists olds, cur; split; [|left; split; reflexivity]. unfold current in C. rewrite H in C. destruct C as (C0 & content' & C2 & C3).
    eapply inv_internal; try exact HI; try reflexivity.
    + cbn. intros HF. split; [|reflexivity]. now apply F.
    + unfold current. cbn [pc at_ say with_flags failed good plain number hist]. right. exists content'. now split.
  - (* s_full *)
    exists olds, cur; split; [|left; split; reflexivity]. unfold current in C. rewrite H in C. destruct C as (C0 & content' & C2 & C3).
    assert (CW : covers (faults (hist s) = []) cur content') by (eapply covers_weaken; [|exact C3]; intros HF; now apply F).
    eapply inv_internal; try exact HI; try reflexivity.
    + cbn. exact F.
    + unfold current. cbn [pc at_ failed good plain packed number hist]. destruct (compress (cfg s)).
      * split; [assumption|]. exists content'. now split.
      * split; [assumption|]. exists content'. split; [left; exact C2|assumption].
  - (* s_size_fails *)
    exists olds, cur; split; [|left; split; reflexivity]. unfold current in C. rewrite H in C. destruct C as (C0 & content' & C2 & C3).
    assert (CW : covers (faults (hist s ++ [EFault SizeFault]) = []) cur content').
    { eapply covers_weaken; [|exact C3]. intros HF. now apply isfault in HF. }
    eapply inv_fault; try exact HI; try reflexivity.
    unfold current. cbn [pc at_ say failed good plain packed number hist]. destruct (compress (cfg s)).
    + split; [assumption|]. exists content'. now split.
    + split; [assumption|]. exists content'. split; [left; exact C2|assumption].
  - (* s_encode *)
    exists olds, cur; split; [|left; split; [now destruct result as [[]|]|reflexivity]]. unfold current in C. rewrite H in C. destruct C as (C0 & content' & C2 & C3).
    rewrite H0 in C2. injection C2 as <-.
    assert (HO' : ok_history (hist s)) by (destruct result as [[]|]; exact HO).
    pose proof (content_bytes _ _ _ _ _ HI HO' C3) as HB.
    destruct (encode_outcome s hb content result HO' K HB H1) as [->|(file & -> & HU)].
    + eapply inv_internal; try exact HI; try reflexivity.
      * intros m Hm. cbn. now apply put_other.
      * exact F.
      * unfold current. cbn [pc at_ with_packed failed good plain packed number hist]. split; [assumption|]. exists content. split; [left; exact H0|assumption].
    + eapply inv_internal; try exact HI; try reflexivity.
      * intros m Hm. cbn. now apply put_other.
      * exact F.
      * unfold current. cbn [pc at_ with_packed failed good plain packed number hist]. split; [assumption|]. exists content, []. rewrite put_same.
        repeat split; try assumption.
  - (* s_encode_fails *)
    exists olds, cur; split; [|left; split; reflexivity]. unfold current in C. rewrite H in C. destruct C as (C0 & content' & C2 & C3).
    eapply inv_fault; try exact HI; try reflexivity.
    unfold current. cbn [pc at_ say failed good plain packed number hist]. split; [assumption|]. exists content'. split; [left; exact C2|].
    eapply covers_weaken; [|exact C3]. intros HF. now apply isfault in HF.
  - (* s_pack *)
    exists olds, cur; split; [|left; split; reflexivity]. unfold current in C. rewrite H in C. destruct C as (C0 & content' & out' & C2 & C3 & C4 & C5). rewrite H1 in C4. injection C4 as <-.
    eapply inv_internal; try exact HI; try reflexivity.
    + intros m Hm. cbn. now apply put_other.
    + exact F.
    + unfold current. cbn [pc at_ with_packed failed good plain packed number hist]. split; [assumption|]. exists content', (out ++ firstn n rest). rewrite put_same.
      split; [assumption|]. split; [assumption|]. split; [reflexivity|]. rewrite <- app_assoc, firstn_skipn. exact C5.
  - (* s_pack_fails *)
    exists olds, cur; split; [|left; split; reflexivity]. unfold current in C. rewrite H in C. destruct C as (C0 & content' & out' & C2 & C3 & C4 & C5).
    eapply inv_fault; try exact HI; try reflexivity.
    unfold current. cbn [pc at_ say failed good plain packed number hist]. split; [assumption|]. exists content'. split; [left; exact C2|].
    eapply covers_weaken; [|exact C3]. intros HF. now apply isfault in HF.
  - (* s_pack_lost *)
    destruct (tolerable_fault _ _ HO) as [HT _]. congruence.
  - (* s_packed *)
    exists olds, cur; split; [|left; split; reflexivity]. unfold current in C. rewrite H in C. destruct C as (C0 & content' & out' & C2 & C3 & C4 & C5). rewrite app_nil_r in C5.
    eapply inv_internal; try exact HI; try reflexivity.
    + exact F.
    + unfold current. cbn [pc at_ failed good plain packed number hist]. split; [assumption|]. exists content', out'. now repeat split.
  - (* s_remove *)
    exists olds, cur; split; [|left; split; reflexivity]. unfold current in C. rewrite H in C. destruct C as (C0 & content' & out' & C2 & C3 & C4 & C5).
    eapply inv_internal; try exact HI; try reflexivity.
    + intros m Hm. cbn. now apply put_other.
    + exact F.
    + unfold current. cbn [pc at_ with_plain failed good plain packed number hist]. split; [assumption|]. exists content'. split; [|assumption].
      right. cbn [at_ with_plain plain packed]. rewrite put_same. split; [reflexivity|]. exists out'. now split.
  - (* s_open *)
    unfold current in C. rewrite H in C. destruct C as (C0 & C1).
    exists (olds ++ [cur]), []; split; [|right; repeat split; reflexivity]. split; cbn [at_ with_flags with_plain with_number hist queue index number cfg good failed pc]; try assumption.
    + rewrite concat_app. cbn. now rewrite !app_nil_r.
    + rewrite app_length. cbn. lia.
    + intros i g E. assert (HG : S i <= number s /\ kept s (faults (hist s) = []) (S i) g).
      { destruct (Nat.lt_ge_cases i (length olds)) as [Hi|Hi].
        - rewrite nth_error_app1 in E by assumption. split; [lia|]. now apply O.
        - rewrite nth_error_app2 in E by assumption. destruct (i - length olds) as [|j] eqn:Ej; [|now destruct j]. injection E as <-.
          assert (S i = number s) by lia. split; [lia|]. now rewrite H0. }
      destruct HG as (Hle & content & HH & HC). exists content. split; [|assumption].
      unfold holds in *. cbn [at_ with_flags with_plain with_number plain packed number]. rewrite put_other by lia. exact HH.
    + unfold current. cbn [at_ with_flags with_plain with_number pc plain number good failed hist]. right. exists []. rewrite put_same. split; [reflexivity|].
      apply (covers_full _ []).
    + intros _. now split.
  - (* s_open_fails *)
    unfold current in C. rewrite H in C. destruct C as (C0 & C1).
    assert (NF : faults (hist s ++ [EFault OpenFault]) <> []) by apply isfault.
    assert (EL : logged (hist s ++ [EFault OpenFault]) = logged (hist s)) by (rewrite logged_app; cbn; now rewrite app_nil_r).
    assert (ET : taken (hist s ++ [EFault OpenFault]) = taken (hist s)) by (rewrite taken_app; cbn; now rewrite app_nil_r).
    exists (olds ++ [cur]), []; split; [|right; repeat split; reflexivity]. split; cbn [at_ say with_flags with_plain with_number hist queue index number cfg good failed pc]; rewrite ?EL, ?ET; try assumption; try (intros; contradiction).
    + rewrite concat_app. cbn. now rewrite !app_nil_r.
    + rewrite app_length. cbn. lia.
    + intros i g E. assert (HG : kept s (faults (hist s) = []) (S i) g).
      { destruct (Nat.lt_ge_cases i (length olds)) as [Hi|Hi].
        - rewrite nth_error_app1 in E by assumption. now apply O.
        - rewrite nth_error_app2 in E by assumption. destruct (i - length olds) as [|j] eqn:Ej; [|now destruct j]. injection E as <-.
          assert (S i = number s) by lia. now rewrite H0. }
      destruct HG as (content & HH & HC). exists content. split; [exact HH|]. eapply covers_weaken; [|exact HC]. intros; contradiction.
    + unfold current. cbn [at_ say with_flags with_plain with_number pc plain number good failed hist]. left. repeat split; assumption.
    + apply in_or_app. now left.
  - (* s_removed *)
    destruct (tolerable_fault _ _ HO) as [_ HT]. congruence.
Qed.

Lemma hist_step hb s s' : step hb s s' -> exists l, hist s' = hist s ++ l.
Proof.
  intros H. destruct H; try (exists []; rewrite app_nil_r; reflexivity); try (eexists; reflexivity).
  - destruct (rejects s c); eexists; reflexivity.
  - exists []. rewrite app_nil_r. now destruct result as [[]|].
Qed.
Lemma ok_before l e : ok_history (l ++ e) -> ok_history l.
Proof.
  intros (H1 & H2 & H3). split; [|split].
  - rewrite faults_app in H1. apply Forall_app in H1. tauto.
  - intros c b H. apply (H2 c b). apply in_or_app. now left.
  - intros k H. apply (H3 k). apply in_or_app. now left.
Qed.
Lemma inv_initial k : inv (initial k) [] [].
Proof.
  split; cbn; auto; try discriminate.
  - intros [|i] g; discriminate.
  - right. exists []. split; [reflexivity|]. apply (covers_full _ []).
Qed.
Lemma inv_reaches hb s : reaches hb s -> ok_history (hist s) -> exists olds cur, inv s olds cur.
Proof.
  induction 1 as [k|s s' HR IH HS]; intros HO.
  - exists [], []. apply inv_initial.
  - destruct (hist_step hb s s' HS) as (l & E). destruct IH as (olds & cur & HI); [rewrite E in HO; now apply ok_before in HO|].
    destruct (inv_step hb s s' olds cur HI HS HO) as (o & c & H & _). now exists o, c.
Qed.

(** * Sizes of the files, with a constant limit and no faults *)
Definition closed (m : nat) (g : list (list Z)) : Prop := m < length (concat g) /\ length (concat (removelast g)) <= m.
Definition sizes (m : nat) (s : state) (olds : list (list (list Z))) (cur : list (list Z)) : Prop :=
  Forall (closed m) olds /\
  match pc s with
  | Idle => length (concat cur) <= m
  | Writing _ | Sizing => length (concat (removelast cur)) <= m
  | _ => closed m cur
  end.
Lemma exact_current s cur content : faults (hist s) = [] -> pc s = Sizing -> good s = true -> current s cur -> plain s (number s) = Some content -> content = concat cur.
Proof.
  unfold current. intros HF -> HG (_ & c & H1 & (m & H2 & _ & H3)) E. rewrite E in H1. injection H1 as <-. rewrite (H3 HG), app_nil_r in H2. exact H2.
Qed.
Lemma same_records s s' olds cur cur' : inv s olds cur -> inv s' olds cur' -> logged (hist s') = logged (hist s) -> cur' = cur.
Proof.
  intros H H' E. pose proof (i_records _ _ _ H) as R. pose proof (i_records _ _ _ H') as R'. rewrite E, <- R in R'. now apply app_inv_head in R'.
Qed.
Lemma sizes_step m hb s s' olds cur olds' cur' : inv s olds cur -> sizes m s olds cur -> step hb s s' -> inv s' olds' cur' -> evolves s s' olds cur olds' cur' ->
  faults (hist s') = [] -> max_size (cfg s) = m -> sizes m s' olds' cur'.
Proof.
  intros HI (HS1 & HS2) HS HI' HE HF HM.
  destruct (hist_step hb s s' HS) as (l & EH).
  assert (HF0 : faults (hist s) = []) by (rewrite EH, faults_app in HF; now apply app_eq_nil in HF).
  destruct (i_flags _ _ _ HI HF0) as (HG & HL).
  assert (SAME : number s' = number s -> logged (hist s') = logged (hist s) -> olds' = olds /\ cur' = cur).
  { intros H1 H2. destruct HE as [(_ & ->)|(E & _)]; [|lia]. split; [reflexivity|]. eapply same_records; eassumption. }
  destruct HS; unfold sizes in *.
  - destruct SAME as (-> & ->); [now destruct (rejects s c)|destruct (rejects s c); cbn; rewrite logged_app; cbn; now rewrite app_nil_r|].
    split; [assumption|]. replace (pc (if rejects s c then say s (ECall c false) else say (with_queue s (queue s ++ [c])) (ECall c true))) with (pc s) by (now destruct (rejects s c)). assumption.
  - destruct SAME as (-> & ->); [reflexivity|cbn; rewrite logged_app; cbn; now rewrite app_nil_r|]. split; assumption.
  - destruct SAME as (-> & ->); try reflexivity. split; assumption.
  - rewrite H in HS2. destruct HE as [(_ & ->)|(E & _)]; [|cbn in E; lia]. split; [assumption|].
    pose proof (i_records _ _ _ HI') as R'. cbn [say with_queue with_index at_ hist pc] in *. rewrite logged_app in R'. cbn in R'.
    rewrite map_app, <- (i_records _ _ _ HI), <- app_assoc in R'. apply app_inv_head in R'. rewrite R'. cbn. now rewrite removelast_last.
  - congruence.
  - destruct SAME as (-> & ->); try reflexivity. rewrite H in HS2. cbn [pc at_]. split; assumption.
  - cbn in HF. now apply isfault in HF.
  - destruct SAME as (-> & ->); try reflexivity. rewrite H in HS2. cbn [pc at_]. split; assumption.
  - destruct SAME as (-> & ->); try reflexivity. cbn [pc at_]. split; [assumption|].
    rewrite <- (exact_current s cur content HF0 H HG (i_current _ _ _ HI) H0). lia.
  - destruct SAME as (-> & ->); try reflexivity. cbn [pc at_]. rewrite H in HS2. split; [assumption|].
    assert (closed m cur). { split; [|assumption]. rewrite <- (exact_current s cur content HF0 H HG (i_current _ _ _ HI) H0). lia. }
    now destruct (compress (cfg s)).
  - cbn in HF. now apply isfault in HF.
  - destruct SAME as (-> & ->); try (now destruct result as [[]|]). split; [assumption|]. rewrite H in HS2. destruct result as [[]|]; exact HS2.
  - cbn in HF. now apply isfault in HF.
  - destruct SAME as (-> & ->); try reflexivity. rewrite H in HS2. cbn [pc at_]. split; assumption.
  - cbn in HF. now apply isfault in HF.
  - cbn in HF. now apply isfault in HF.
  - destruct SAME as (-> & ->); try reflexivity. rewrite H in HS2. cbn [pc at_]. split; assumption.
  - destruct SAME as (-> & ->); try reflexivity. rewrite H in HS2. cbn [pc at_]. split; assumption.
  - destruct HE as [(E & _)|(_ & -> & ->)]; [cbn in E; lia|]. rewrite H in HS2. cbn [pc at_]. split; [|cbn; lia].
    apply Forall_app. split; [assumption|]. constructor; [assumption|constructor].
  - cbn in HF. now apply isfault in HF.
  - cbn in HF. now apply isfault in HF.
Qed.
Lemma sizes_reaches m hb s : reaches hb s -> ok_history (hist s) -> faults (hist s) = [] -> constant_limit m (hist s) ->
  exists olds cur, inv s olds cur /\ sizes m s olds cur.
Proof.
  induction 1 as [k|s s' HR IH HS]; intros HO HF HM.
  - exists [], []. split; [apply inv_initial|]. split; [constructor|]. cbn. lia.
  - destruct (hist_step hb s s' HS) as (l & E).
    destruct IH as (olds & cur & HI & HZ).
    { rewrite E in HO. now apply ok_before in HO. }
    { rewrite E, faults_app in HF. now apply app_eq_nil in HF. }
    { intros k Hk. apply HM. rewrite E. apply in_or_app. now left. }
    destruct (inv_step hb s s' olds cur HI HS HO) as (o & c & H1 & H2). exists o, c. split; [assumption|].
    refine (sizes_step m hb s s' olds cur o c HI HZ HS H1 H2 HF _). apply HM. rewrite E. apply in_or_app. left. apply (i_config _ _ _ HI).
Qed.

(** * After a failure *)
Lemma failed_idle hb s : reaches hb s -> failed s = true -> pc s = Idle.
Proof.
  induction 1 as [k|s s' HR IH HS]; [discriminate|]. destruct HS; cbn; intros HF; try discriminate; try reflexivity; try (rewrite (IH HF) in H; discriminate H); auto.
  - assert (E : pc (if rejects s c then say s (ECall c false) else say (with_queue s (queue s ++ [c])) (ECall c true)) = pc s) by now destruct (rejects s c).
    rewrite E. apply IH. now destruct (rejects s c).
  - congruence.
  - assert (failed s = true) by (destruct result as [[]|]; exact HF). rewrite (IH H2) in H. discriminate H.
Qed.
Lemma steps_reaches hb s s' : reaches hb s -> steps hb s s' -> reaches hb s'.
Proof. induction 2; [assumption|]. eapply reaches_step; eassumption. Qed.
Lemma failed_step hb s s' : reaches hb s -> failed s = true -> step hb s s' ->
  failed s' = true /\ logged (hist s') = logged (hist s) /\ taken (hist s') = taken (hist s) /\ packed s' = packed s /\ number s' = number s /\
  (forall n, plain s' n = plain s n \/ (plain s' n = None /\ In RemovedFault (faults (hist s')))).
Proof.
  intros HR HF HS. pose proof (failed_idle hb s HR HF) as HP.
  assert (EA : forall e, logged [e] = [] -> logged (hist s ++ [e]) = logged (hist s)) by (intros e He; rewrite logged_app, He; apply app_nil_r).
  assert (EB : forall e, taken [e] = [] -> taken (hist s ++ [e]) = taken (hist s)) by (intros e He; rewrite taken_app, He; apply app_nil_r).
  destruct HS; try congruence.
  - unfold rejects. rewrite HF. cbn. repeat split; auto.
  - cbn. repeat split; auto.
  - cbn. repeat split; auto.
  - cbn. repeat split; auto. intros n. unfold put. destruct (n =? number s); [right|now left]. split; [reflexivity|].
    rewrite faults_app. apply in_or_app. right. now left.
Qed.

(** * Reading records back *)
Lemma split_app sep a b : ~ In sep a -> split sep (a ++ [sep] ++ b) = a :: split sep b.
Proof.
  induction a as [|x a IH]; intros H; cbn.
  - now rewrite Z.eqb_refl.
  - destruct (Z.eqb_spec x sep) as [->|Hx]; [exfalso; apply H; now left|]. cbn in IH. rewrite IH; [reflexivity|]. intros K. apply H. now right.
Qed.
Lemma split_none sep a : ~ In sep a -> split sep a = [a].
Proof.
  induction a as [|x a IH]; intros H; [reflexivity|]. cbn. destruct (Z.eqb_spec x sep) as [->|Hx]; [exfalso; apply H; now left|].
  rewrite IH; [reflexivity|]. intros K. apply H. now right.
Qed.
Lemma split_nonempty sep a : split sep a <> [].
Proof. destruct a as [|x a]; cbn; [discriminate|]. destruct (x =? sep)%Z; [discriminate|]. now destruct (split sep a). Qed.
Lemma split_concat sep rs : Forall (fun r => ~ In sep r) rs -> split sep (concat (map (fun r => r ++ [sep]) rs)) = rs ++ [[]].
Proof.
  induction rs as [|r rs IH]; intros H; [reflexivity|]. inversion_clear H. cbn. rewrite <- app_assoc, split_app by assumption. now rewrite IH.
Qed.
Lemma number_plain v s : number_text v s -> plain_text s.
Proof. intros (F & _). split; intros K; rewrite Forall_forall in F; specialize (F _ K); unfold digit_of in F; lia. Qed.
Lemma plain_app a b : plain_text (a ++ b) <-> plain_text a /\ plain_text b.
Proof. unfold plain_text. rewrite !in_app_iff. tauto. Qed.
Lemma shown_plain t s : trace_shown t s -> plain_text (t_file t) -> plain_text (t_function t) -> plain_text s.
Proof.
  intros [(_ & ->)|(_ & _ & line & HL & ->)] H1 H2; [split; intros []|]. rewrite !plain_app. repeat split; try apply H1; try apply H2; try apply (number_plain _ _ HL).
  all: cbn; lia.
Qed.
Lemma firstn_plain m t : plain_text t -> plain_text (firstn m t).
Proof. intros (H1 & H2). split; intros K; [apply H1|apply H2]; rewrite <- (firstn_skipn m t); apply in_or_app; now left. Qed.
Lemma readable xs rs : Forall2 record_of xs rs -> Forall (fun x => plain_call (snd x) /\ valid_level (snd x)) xs -> Forall2 fields_of xs (read_log (concat rs)).
Proof.
  intros HR HP.
  assert (HX : exists bs, rs = map (fun b => b ++ [30%Z]) bs /\ Forall (fun b => ~ In 30%Z b) bs /\ Forall2 (fun x b => fields_of x (split 31 b)) xs bs).
  { induction HR as [|x r xs rs Hr HR IH]; [exists []; repeat split; constructor|]. inversion_clear HP. destruct H as (H & HV). destruct (IH H0) as (bs & -> & B1 & B2). clear IH.
    destruct x as [[i m] c]. cbn [snd] in *. destruct Hr as (number & shown & N & S & ->). destruct H as (P1 & P2 & P3 & P4).
    pose proof (number_plain _ _ N) as (N1 & N2). pose proof (shown_plain _ _ S P1 P2) as (S1 & S2). pose proof (firstn_plain m _ P3) as (M1 & M2).
    destruct P4 as (T1 & T2). unfold valid_level in HV.
    exists ((number ++ [31%Z] ++ [c_level c] ++ [31%Z] ++ c_time c ++ [31%Z] ++ shown ++ [31%Z] ++ firstn m (c_message c)) :: bs).
    split; [|split].
    - cbn [map]. f_equal. rewrite <- ?app_assoc. reflexivity.
    - constructor; [|assumption]. rewrite !in_app_iff. cbn. intuition lia.
    - constructor; [|assumption]. exists number, shown. split; [assumption|]. split; [assumption|].
      rewrite split_app by assumption. rewrite split_app by (cbn; lia). rewrite split_app by assumption. rewrite split_app by assumption. now rewrite split_none. }
  destruct HX as (bs & -> & HB & HF). unfold read_log. rewrite split_concat by assumption. rewrite removelast_last.
  clear - HF. induction HF; constructor; assumption.
Qed.

(** * Draining *)
Definition rank (p : phase) : nat :=
  match p with Idle | Undefined => 0 | Opening => 1 | Removing => 2 | Encoding _ => 3 | Compressing => 4 | Sizing => 5 | Writing _ => 6 end.
Definition left_over (p : phase) : nat := match p with Writing r | Encoding r => length r | _ => 0 end.
Definition below (x y : nat * nat * nat) : Prop :=
  let '(a, b, c) := x in let '(a', b', c') := y in a < a' \/ (a = a' /\ (b < b' \/ (b = b' /\ c < c'))).
Lemma below_wf : well_founded below.
Proof.
  assert (H : forall a b c, Acc below (a, b, c)).
  { intros a. induction a as [a IHa] using lt_wf_ind. intros b. induction b as [b IHb] using lt_wf_ind. intros c. induction c as [c IHc] using lt_wf_ind.
    constructor. intros [[a' b'] c'] [H|(-> & [H|(-> & H)])]; auto. }
  intros [[a b] c]. apply H.
Qed.
Definition measure (s : state) : nat * nat * nat := (length (queue s), rank (pc s), left_over (pc s)).
Lemma own_decreases hb s s' : own hb s s' -> below (measure s') (measure s).
Proof.
  intros (HS & l & EH & HL).
  assert (NO : forall e, hist s' = hist s ++ [e] -> exists i m c, e = ELogged i m c).
  { intros e E. rewrite E in EH. apply app_inv_head in EH. subst l. apply HL. now left. }
  destruct HS; unfold measure, below; cbn [pc queue rank left_over at_ say with_queue with_index with_flags with_plain with_packed with_number] in *;
    try (destruct (NO _ eq_refl) as (? & ? & ? & ?); discriminate);
    rewrite ?H, ?H0; cbn [length rank left_over]; try (left; lia); try (right; split; [reflexivity|left; lia]).
  - destruct (rejects s c); destruct (NO _ eq_refl) as (? & ? & ? & ?); discriminate.
  - right. split; [reflexivity|]. right. split; [reflexivity|]. rewrite skipn_length. lia.
  - right. split; [reflexivity|]. left. destruct (compress (cfg s)); cbn; lia.
  - destruct result as [[file|]|]; cbn; lia.
  - right. split; [reflexivity|]. right. split; [reflexivity|]. rewrite skipn_length. lia.
Qed.
Lemma own_wf hb : well_founded (fun s' s => own hb s s').
Proof.
  intros s. remember (measure s) as k eqn:E. revert s E. induction k as [k IH] using (well_founded_induction below_wf). intros s ->.
  constructor. intros s' H. eapply IH; [|reflexivity]. now apply own_decreases in H.
Qed.
Lemma own_progress hb s : reaches hb s -> ok_history (hist s) -> faults (hist s) = [] -> (pc s = Idle /\ queue s = []) \/ exists s', own hb s s'.
Proof.
  intros HR HO HF. destruct (inv_reaches hb s HR HO) as (olds & cur & HI). destruct (i_flags _ _ _ HI HF) as (HG & HL). pose proof (i_current _ _ _ HI) as C.
  assert (SILENT : forall s', step hb s s' -> hist s' = hist s -> exists s', own hb s s').
  { intros s' H E. exists s'. split; [assumption|]. exists []. rewrite app_nil_r. split; [assumption|]. intros e []. }
  unfold current in C. destruct (pc s) eqn:EP.
  - destruct (queue s) as [|c q] eqn:EQ; [left; now split|]. right. eexists. split; [eapply s_take; eassumption|].
    eexists. split; [reflexivity|]. intros e [<-|[]]. eauto.
  - destruct C as (_ & _ & content & r & before & C2 & _). right. destruct rest as [|b rest].
    + eapply SILENT; [apply s_written; assumption|reflexivity].
    + eapply SILENT; [eapply (s_write _ _ 1); [eassumption|cbn; lia]|reflexivity].
  - destruct C as (_ & content & C2 & _). right. destruct (Nat.le_gt_cases (length content) (max_size (cfg s))).
    + eapply SILENT; [eapply s_fits; eassumption|reflexivity].
    + eapply SILENT; [eapply s_full; eassumption|reflexivity].
  - destruct C as (_ & content & C2 & C3). right. pose proof (content_bytes _ _ _ _ _ HI HO C3) as HB.
    destruct HO as (_ & _ & HK). destruct (HK _ (i_config _ _ _ HI)) as (HK1 & _).
    destruct (huffman_encode_total hb (chunk_kb (cfg s)) (code_length (cfg s)) content HK1 HB) as (result & HE).
    eapply SILENT; [eapply s_encode; eassumption|now destruct result as [[]|]].
  - destruct C as (_ & content & out & _ & _ & C4 & _). right. destruct rest as [|b rest].
    + eapply SILENT; [apply s_packed; assumption|reflexivity].
    + eapply SILENT; [eapply (s_pack _ _ 1); [eassumption|cbn; lia|eassumption]|reflexivity].
  - right. eapply SILENT; [apply s_remove; assumption|reflexivity].
  - right. eapply SILENT; [apply s_open; assumption|reflexivity].
  - contradiction.
Qed.
