(** Properties C46-C48: the file logger. *)
From Verif Require Import Common Bits Format_Model Format_Spec Huffman_Model Huffman_Spec Huffman_Props Logger_Model Logger_Spec Logger_Proofs.
Open Scope nat_scope.

(** * C46: what the log files hold *)

(** At every point at which the process may be killed, if no file operation has failed: the records of the calls logged so far
    are distributed over the files 1, 2, ..., in order and each wholly in one file; every file, whether still a log file or
    already replaced by its compressed form, holds exactly its records, but for those bytes of the last record of the last file
    which are still to be written. *)
Theorem log_files_complete : forall hb s,
  reaches hb s -> good_calls (hist s) -> good_configs (hist s) -> faults (hist s) = [] ->
  exists olds cur content,
    Forall2 record_of (logged (hist s)) (concat olds ++ cur) /\
    number s = S (length olds) /\
    (forall i g, nth_error olds i = Some g -> holds s (S i) (concat g)) /\
    holds s (number s) content /\ content ++ unwritten s = concat cur /\ length (unwritten s) <= length (last cur []).
Proof.
  intros hb s HR HC HK HF. assert (HO : ok_history (hist s)) by (split; [rewrite HF; constructor|now split]).
  destruct (inv_reaches hb s HR HO) as (olds & cur & HI). pose proof (i_current _ _ _ HI) as C. destruct (i_flags _ _ _ HI HF) as (HG & HL).
  assert (E : forall g c, covers (faults (hist s) = []) g c -> c = concat g).
  { intros g c (m & H1 & _ & H2). rewrite (H2 HF), app_nil_r in H1. exact H1. }
  assert (HX : exists content, holds s (number s) content /\ content ++ unwritten s = concat cur /\ length (unwritten s) <= length (last cur [])).
  { unfold current in C. unfold unwritten. destruct (pc s) eqn:EP.
    - destruct C as [(C & _)|(content & C1 & (m & C2 & _ & C3))]; [congruence|]. rewrite (C3 HG), app_nil_r in C2. exists content. rewrite app_nil_r. cbn. split; [now left|]. split; [assumption|lia].
    - destruct C as (_ & _ & content & r & before & C1 & C2 & C3 & C4). exists content. split; [now left|]. split; [assumption|]. rewrite C2, last_last. assumption.
    - destruct C as (_ & content & C1 & (m & C2 & _ & C3)). rewrite (C3 HG), app_nil_r in C2. exists content. rewrite app_nil_r. cbn. split; [now left|]. split; [assumption|lia].
    - destruct C as (_ & content & C1 & C2). exists content. rewrite app_nil_r. cbn. split; [now left|]. split; [now apply E|lia].
    - destruct C as (_ & content & out & C1 & C2 & _). exists content. rewrite app_nil_r. cbn. split; [now left|]. split; [now apply E|lia].
    - destruct C as (_ & content & out & C1 & C2 & _). exists content. rewrite app_nil_r. cbn. split; [now left|]. split; [now apply E|lia].
    - destruct C as (_ & content & C1 & C2). exists content. rewrite app_nil_r. cbn. split; [assumption|]. split; [now apply E|lia].
    - contradiction. }
  destruct HX as (content & H1 & H2 & H3). exists olds, cur, content. repeat split; auto.
  - rewrite (i_records _ _ _ HI).
    assert (HB : Forall (fun x => bytes_call (snd x)) (logged (hist s))).
    { apply Forall_forall. intros x Hx. apply (HC (snd x) true), taken_in, (i_from _ _ _ HI), in_or_app. left. now apply in_map. }
    clear - HB. induction HB; cbn; constructor; [now apply render_record|assumption].
  - apply (i_number _ _ _ HI).
  - intros i g Hg. destruct (i_olds _ _ _ HI i g Hg) as (c & Hh & Hc). now rewrite <- (E _ _ Hc).
Qed.

(** Without faults, the calls are logged in the order in which they were made and numbered 0, 1, 2, ...; those not yet logged are waiting. *)
Theorem log_calls_in_order : forall hb s,
  reaches hb s -> good_calls (hist s) -> good_configs (hist s) -> faults (hist s) = [] ->
  map snd (logged (hist s)) ++ queue s = taken (hist s) /\
  map (fun x => fst (fst x)) (logged (hist s)) = seq 0 (length (logged (hist s))).
Proof.
  intros hb s HR HC HK HF. assert (HO : ok_history (hist s)) by (split; [rewrite HF; constructor|now split]).
  destruct (inv_reaches hb s HR HO) as (olds & cur & HI). split; [now apply (i_queue _ _ _ HI)|now apply (i_indices _ _ _ HI)].
Qed.

(** Without faults, a call is discarded only for an invalid level. *)
Theorem log_calls_taken : forall hb s c,
  reaches hb s -> good_calls (hist s) -> good_configs (hist s) -> faults (hist s) = [] ->
  (0 <= c_level c < 256)%Z -> In (ECall c false) (hist s) -> ~ valid_level c.
Proof.
  intros hb s c HR. induction HR as [k|s s' HR IH HS]; intros HC HK HF HL Hin.
  - destruct Hin as [H|[]]. discriminate.
  - destruct (hist_step hb s s' HS) as (l & E).
    assert (HC' : good_calls (hist s)) by (intros x b H; apply (HC x b); rewrite E; apply in_or_app; now left).
    assert (HK' : good_configs (hist s)) by (intros x H; apply (HK x); rewrite E; apply in_or_app; now left).
    assert (HF' : faults (hist s) = []) by (rewrite E, faults_app in HF; now apply app_eq_nil in HF).
    assert (HO : ok_history (hist s)) by (split; [rewrite HF'; constructor|now split]).
    destruct (inv_reaches hb s HR HO) as (olds & cur & HI). destruct (i_flags _ _ _ HI HF') as (_ & HFL).
    assert (NEW : In (ECall c false) (hist s) -> ~ valid_level c) by (intros; now apply IH).
    destruct HS; try (apply NEW; exact Hin); cbn [hist say at_ with_cfg with_flags with_index with_queue with_number with_plain] in Hin;
      try (apply in_app_or in Hin; destruct Hin as [Hin|[Hin|[]]]; [now apply NEW|discriminate Hin]).
    + destruct (rejects s c0) eqn:ER; cbn in Hin; apply in_app_or in Hin; destruct Hin as [Hin|[Hin|[]]]; try (now apply NEW); try discriminate Hin.
      injection Hin as ->. unfold rejects in ER. rewrite HFL in ER. cbn [orb] in ER.
      assert (E8 : u8 (c_level c) = c_level c) by (unfold u8, wrap; change (2 ^ 8)%Z with 256%Z; now apply Z.mod_small).
      rewrite E8 in ER. unfold valid_level. intros (V1 & V2). apply orb_true_iff in ER. rewrite Z.ltb_lt, Z.leb_le in ER. lia.
    + apply NEW. now destruct result as [[]|].
Qed.

(** With a limit that does not change, every file but the last exceeds it and did not before its last record; the last does not
    exceed it unless it is being closed. *)
Theorem log_file_sizes : forall hb s limit,
  reaches hb s -> good_calls (hist s) -> good_configs (hist s) -> faults (hist s) = [] -> constant_limit limit (hist s) ->
  exists olds cur,
    Forall2 record_of (logged (hist s)) (concat olds ++ cur) /\ number s = S (length olds) /\
    (forall i g, nth_error olds i = Some g -> holds s (S i) (concat g) /\ limit < length (concat g) /\ length (concat (removelast g)) <= limit) /\
    length (concat (removelast cur)) <= limit /\ (pc s = Idle -> holds s (number s) (concat cur) /\ length (concat cur) <= limit).
Proof.
  intros hb s limit HR HC HK HF HM. assert (HO : ok_history (hist s)) by (split; [rewrite HF; constructor|now split]).
  destruct (sizes_reaches limit hb s HR HO HF HM) as (olds & cur & HI & HZ1 & HZ2). exists olds, cur.
  pose proof (i_current _ _ _ HI) as C. destruct (i_flags _ _ _ HI HF) as (HG & HL).
  assert (HRL : length (concat (removelast cur)) <= length (concat cur)).
  { destruct cur as [|c cur] using rev_ind; [cbn; lia|]. rewrite removelast_last, concat_app, app_length. lia. }
  split; [|split; [|split; [|split]]].
  - rewrite (i_records _ _ _ HI).
    assert (HB : Forall (fun x => bytes_call (snd x)) (logged (hist s))).
    { apply Forall_forall. intros x Hx. apply (HC (snd x) true), taken_in, (i_from _ _ _ HI), in_or_app. left. now apply in_map. }
    clear - HB. induction HB; cbn; constructor; [now apply render_record|assumption].
  - apply (i_number _ _ _ HI).
  - intros i g Hg. destruct (i_olds _ _ _ HI i g Hg) as (c & Hh & (m & H1 & _ & H2)). rewrite (H2 HF), app_nil_r in H1. subst c. split; [assumption|].
    rewrite Forall_forall in HZ1. apply HZ1. eapply nth_error_In; eassumption.
  - unfold current in C. destruct (pc s); try lia; try apply HZ2; contradiction.
  - intros HP. rewrite HP in HZ2. split; [|assumption]. unfold current in C. rewrite HP in C.
    destruct C as [(C & _)|(content & C1 & (m & C2 & _ & C3))]; [congruence|]. rewrite (C3 HG), app_nil_r in C2. subst content. now left.
Qed.

(** The logger always has a next step until everything is logged, and cannot take infinitely many of them: without new calls it
    comes to rest with all calls logged and all records in files. *)
Theorem logger_drains : forall hb,
  well_founded (fun s' s => own hb s s') /\
  forall s, reaches hb s -> good_calls (hist s) -> good_configs (hist s) -> faults (hist s) = [] ->
    (exists s', own hb s s') \/
    (map snd (logged (hist s)) = taken (hist s) /\
     exists groups, Forall2 record_of (logged (hist s)) (concat groups) /\ length groups = number s /\
       forall i g, nth_error groups i = Some g -> holds s (S i) (concat g)).
Proof.
  intros hb. split; [apply own_wf|]. intros s HR HC HK HF. assert (HO : ok_history (hist s)) by (split; [rewrite HF; constructor|now split]).
  destruct (own_progress hb s HR HO HF) as [(HP & HQ)|HX]; [right|now left].
  destruct (log_calls_in_order hb s HR HC HK HF) as (H1 & _). rewrite HQ, app_nil_r in H1. split; [assumption|].
  destruct (log_files_complete hb s HR HC HK HF) as (olds & cur & content & R & N & O & C1 & C2 & _).
  unfold unwritten in C2. rewrite HP, app_nil_r in C2. subst content.
  exists (olds ++ [cur]). rewrite concat_app. cbn. rewrite app_nil_r. split; [assumption|]. rewrite app_length. cbn. split; [lia|].
  intros i g E. destruct (Nat.lt_ge_cases i (length olds)) as [Hi|Hi].
  - rewrite nth_error_app1 in E by assumption. now apply O.
  - rewrite nth_error_app2 in E by assumption. destruct (i - length olds) as [|j] eqn:Ej; [|now destruct j]. injection E as <-.
    replace (S i) with (number s) by lia. assumption.
Qed.

(** A log whose texts contain no separators can be read back: its records and their fields are those of the calls. *)
Theorem log_records_readable : forall xs rs,
  Forall2 record_of xs rs -> Forall (fun x => plain_call (snd x) /\ valid_level (snd x)) xs -> Forall2 fields_of xs (read_log (concat rs)).
Proof. exact readable. Qed.

(** * C47: failures *)

(** If file operations fail, but the encoder notices when its output is incomplete and nobody else removes files: every file
    still holds all its records but for the end of its last one.  (The last file may not exist, if it could not be created.) *)
Theorem log_files_survive : forall hb s,
  reaches hb s -> good_calls (hist s) -> good_configs (hist s) -> Forall tolerable (faults (hist s)) ->
  exists olds cur,
    Forall2 record_of (logged (hist s)) (concat olds ++ cur) /\
    number s = S (length olds) /\
    (forall i g, nth_error olds i = Some g -> exists content, holds s (S i) content /\ all_but_end g content) /\
    (cur = [] \/ exists content, holds s (number s) content /\ all_but_end cur content).
Proof.
  intros hb s HR HC HK HT. assert (HO : ok_history (hist s)) by (split; [assumption|now split]).
  destruct (inv_reaches hb s HR HO) as (olds & cur & HI). pose proof (i_current _ _ _ HI) as C.
  assert (E : forall P g c, covers P g c -> all_but_end g c).
  { intros P g c (m & H1 & H2 & _). now exists m. }
  exists olds, cur. split; [|split; [|split]].
  - rewrite (i_records _ _ _ HI).
    assert (HB : Forall (fun x => bytes_call (snd x)) (logged (hist s))).
    { apply Forall_forall. intros x Hx. apply (HC (snd x) true), taken_in, (i_from _ _ _ HI), in_or_app. left. now apply in_map. }
    clear - HB. induction HB; cbn; constructor; [now apply render_record|assumption].
  - apply (i_number _ _ _ HI).
  - intros i g Hg. destruct (i_olds _ _ _ HI i g Hg) as (c & Hh & Hc). exists c. split; [assumption|eauto].
  - unfold current in C. destruct (pc s) eqn:EP.
    + destruct C as [(_ & _ & ->)|(content & C1 & C2)]; [now left|]. right. exists content. split; [now left|eauto].
    + destruct C as (_ & _ & content & r & before & C1 & C2 & C3 & C4). right. exists content. split; [now left|]. exists rest. rewrite C2 at 2. rewrite last_last. now split.
    + destruct C as (_ & content & C1 & C2). right. exists content. split; [now left|eauto].
    + destruct C as (_ & content & C1 & C2). right. exists content. split; [now left|eauto].
    + destruct C as (_ & content & out & C1 & C2 & _). right. exists content. split; [now left|eauto].
    + destruct C as (_ & content & out & C1 & C2 & _). right. exists content. split; [now left|eauto].
    + destruct C as (_ & content & C1 & C2). right. exists content. split; [assumption|eauto].
    + contradiction.
Qed.

(** A logger that has failed (its stream was not good, or a new file could not be created) stays so: it takes and logs no call
    any more and touches no file. *)
Theorem failed_logger_stays_failed : forall hb s s',
  reaches hb s -> failed s = true -> steps hb s s' ->
  failed s' = true /\ logged (hist s') = logged (hist s) /\ taken (hist s') = taken (hist s) /\ packed s' = packed s /\
  (forall n, plain s' n = plain s n \/ (plain s' n = None /\ In RemovedFault (faults (hist s')))).
Proof.
  intros hb s s' HR HF HS. induction HS as [|x y HS IH HT].
  - repeat split; auto.
  - destruct IH as (I1 & I2 & I3 & I4 & I5).
    destruct (failed_step hb x y (steps_reaches hb s x HR HS) I1 HT) as (J1 & J2 & J3 & J4 & _ & J5).
    destruct (hist_step hb x y HT) as (l & E).
    repeat split; try congruence. intros n. destruct (J5 n) as [J|J]; [|now right]. rewrite J. destruct (I5 n) as [I|(I & K)]; [now left|right].
    split; [assumption|]. rewrite E, faults_app. apply in_or_app. now left.
Qed.

(** Whatever fails: as long as the logger has not failed, every call taken has been logged or is waiting, in order; and a call
    is discarded only for an invalid level or because the logger had failed. *)
Theorem no_call_lost_silently : forall hb s,
  reaches hb s ->
  (failed s = false -> map snd (logged (hist s)) ++ queue s = taken (hist s)) /\
  (forall c, In (ECall c false) (hist s) -> (0 <= c_level c < 256)%Z -> valid_level c -> failed s = true).
Proof.
  intros hb s HR. induction HR as [k|s s' HR (IH1 & IH2) HS].
  { split; [reflexivity|]. intros c [E|[]]. discriminate. }
  assert (EA : forall e, logged [e] = [] -> logged (hist s ++ [e]) = logged (hist s)) by (intros e He; rewrite logged_app, He; apply app_nil_r).
  assert (EB : forall e, taken [e] = [] -> taken (hist s ++ [e]) = taken (hist s)) by (intros e He; rewrite taken_app, He; apply app_nil_r).
  assert (HP : pc s <> Idle -> failed s = false) by (intros HN; destruct (failed s) eqn:E; [|reflexivity]; destruct HN; now apply (failed_idle hb)).
  assert (EC : forall e c, In (ECall c false) (hist s ++ [e]) -> (forall b, e <> ECall c b) -> In (ECall c false) (hist s)).
  { intros e c Hin He. apply in_app_or in Hin. destruct Hin as [Hin|[Hin|[]]]; [assumption|]. now destruct (He false). }
  destruct HS; cbn [say with_cfg with_plain with_packed with_number with_flags with_index with_queue at_ hist queue failed];
    try (split; [intros HF; rewrite ?EA, ?EB by reflexivity; auto; fail | intros c0 Hin; try (apply EC in Hin; [|intros b; discriminate]); eauto; fail]).
  - destruct (rejects s c) eqn:ER; cbn [say with_queue hist queue failed].
    + split; [intros HF; rewrite EA, EB by reflexivity; auto|]. intros c0 Hin HB HV. apply in_app_or in Hin. destruct Hin as [Hin|[Hin|[]]]; [eauto|].
      injection Hin as ->. unfold rejects in ER. assert (E8 : u8 (c_level c0) = c_level c0) by (unfold u8, wrap; change (2 ^ 8)%Z with 256%Z; now apply Z.mod_small).
      rewrite E8 in ER. destruct HV as (V1 & V2). apply orb_true_iff in ER. destruct ER as [ER|ER]; [|apply Z.leb_le in ER; lia].
      apply orb_true_iff in ER. destruct ER as [ER|ER]; [assumption|apply Z.ltb_lt in ER; lia].
    + split; [|intros c0 Hin; apply in_app_or in Hin; destruct Hin as [Hin|[Hin|[]]]; [eauto|discriminate]].
      intros HF. rewrite EA, taken_app by reflexivity. rewrite <- (IH1 HF), app_assoc. reflexivity.
  - split; [intros HF; congruence|exact IH2].
  - split; [|intros c0 Hin; apply EC in Hin; [|intros b; discriminate]; intros HB HV; eauto].
    intros HF. rewrite EB, logged_app, map_app by reflexivity. rewrite <- (IH1 H1), H0. cbn. now rewrite <- app_assoc.
  - split; [discriminate|]. reflexivity.
  - assert (HN : failed s = false) by (apply HP; congruence). split; [intros _; now apply IH1|intros c0 H1x H2x H3x; rewrite (IH2 c0 H1x H2x H3x) in HN; discriminate].
  - destruct result as [[file|]|]; cbn; split; solve [auto|exact IH2].
  - assert (HN : failed s = false) by (apply HP; congruence). split; [intros _; now apply IH1|intros c0 H1x H2x H3x; rewrite (IH2 c0 H1x H2x H3x) in HN; discriminate].
  - split; [discriminate|reflexivity].
Qed.

(** * Examples and refutations *)
Tactic Notation "next" ident(R) uconstr(c) ident(R') :=
  assert (R' : reaches true _) by (refine (reaches_step _ _ _ R _); eapply c; first [reflexivity|eassumption|cbn; lia]); clear R.
Definition hi : call := Call 1 (Trace [] [] 0) [104; 105]%Z [49%Z].
Definition hi_text : list Z := [48; 31; 1; 31; 49; 31; 31; 104; 105; 30]%Z. (* 0 1f 01 1f 1 1f 1f h i 1e *)
Definition hi_text1 : list Z := [49; 31; 1; 31; 49; 31; 31; 104; 105; 30]%Z.
Lemma hi_render m : 2 <= m -> render 0 m hi = hi_text.
Proof. intros H. unfold render, hi. cbn [c_message]. rewrite firstn_all2 by exact H. reflexivity. Qed.
Lemma hi_bytes : bytes_call hi.
Proof. unfold bytes_call, hi, byte. cbn. repeat split; try lia; repeat constructor; lia. Qed.

(** One call, to the point where its record is in the file. *)
Lemma wrote k : reaches true (State k (put (put (fun _ => None) 1 (Some [])) 1 (Some (render 0 (max_message k) hi))) (fun _ => None) 1 true false 1 [] Sizing
    [EConfig k; ECall hi true; ELogged 0 (max_message k) hi]).
Proof.
  pose proof (reaches_initial true k) as R. unfold initial in R.
  next R (s_call _ _ hi) R1. cbn in R1.
  next R1 s_take R2.
  cbn [say with_index with_queue at_ cfg plain packed number good failed index queue hist app] in R2.
  pose proof (render_length 0 (max_message k) hi) as HL.
  next R2 (s_write _ _ (length (render 0 (max_message k) hi))) R3.
  rewrite firstn_all, skipn_all in R3. cbn [with_plain at_ cfg plain packed number good failed index queue hist option_map app] in R3.
  next R3 s_written R4. exact R4.
Qed.
(** ... and with a limit of 0 and compression, to the point where it is being compressed. *)
Definition tight (kb : Z) : config := Config 100 0 true kb 11.
Definition tight_hist (kb : Z) : list event := [EConfig (tight kb); ECall hi true; ELogged 0 100 hi].
Definition hi_file : nat -> option (list Z) := put (put (fun _ => None) 1 (Some [])) 1 (Some hi_text).
Lemma compressing kb : reaches true (State (tight kb) hi_file (fun _ => None) 1 true false 1 [] Compressing (tight_hist kb)).
Proof.
  pose proof (wrote (tight kb)) as R. rewrite hi_render in R by (cbn; lia).
  next R s_full R1. exact R1.
Qed.
Lemma compressed kb file : encode_string true kb 11 hi_text (Ok (Some file)) -> file <> [] ->
  reaches true (State (tight kb) (put hi_file 1 None) (put (put (fun _ => None) 1 (Some [])) 1 (Some file)) 1 true false 1 [] Opening (tight_hist kb)).
Proof.
  intros HE HN. pose proof (compressing kb) as R.
  next R (s_encode _ _ _ (Ok (Some file))) R1. cbn [with_packed at_ cfg plain packed number good failed index queue hist] in R1.
  assert (HL : 0 < length file <= length file) by (destruct file; [congruence|cbn; lia]).
  next R1 (s_pack _ _ (length file)) R2.
  rewrite firstn_all, skipn_all in R2. cbn [with_packed at_ cfg plain packed number good failed index queue hist app] in R2.
  next R2 s_packed R3. next R3 s_remove R4. exact R4.
Qed.
Lemma hi_configs kb : (1 <= kb < 65536)%Z -> good_configs (tight_hist kb).
Proof. intros H k [E|[E|[E|[]]]]; try discriminate. injection E as <-. cbn. lia. Qed.
Lemma hi_calls kb : good_calls (tight_hist kb).
Proof. intros c b [E|[E|[E|[]]]]; try discriminate. injection E as <- <-. apply hi_bytes. Qed.

(** The hypotheses of the theorems are met by a run in which the only file has been replaced by its compressed form. *)
Example logger_run : exists s, reaches true s /\ good_calls (hist s) /\ good_configs (hist s) /\ faults (hist s) = [] /\ constant_limit 0 (hist s) /\
  plain s 1 = None /\ holds s 1 hi_text /\ map snd (logged (hist s)) = [hi].
Proof.
  destruct (huffman_encode_total true 256 11 hi_text ltac:(lia) ltac:(repeat constructor; lia)) as (result & HE).
  destruct (huffman_roundtrip true true 256 11 hi_text result ltac:(lia) ltac:(lia) ltac:(repeat constructor; lia) HE) as (file & -> & HD).
  assert (HN : file <> []) by (intros ->; rewrite decode_empty in HD; discriminate).
  eexists. split; [exact (compressed 256 file HE HN)|]. cbn [hist plain]. split; [apply hi_calls|]. split; [apply hi_configs; lia|]. split; [reflexivity|].
  split; [intros k [E|[E|[E|[]]]]; try discriminate; injection E as <-; reflexivity|]. split; [reflexivity|]. split; [|reflexivity].
  right. split; [reflexivity|]. exists file. split; [reflexivity|]. intros hb.
  destruct (huffman_roundtrip true hb 256 11 hi_text (Ok (Some file)) ltac:(lia) ltac:(lia) ltac:(repeat constructor; lia) HE) as (file' & E & HD'). now injection E as <-.
Qed.

(** "No configuration makes the logger lose a log": false for a chunk size of 0, with which the encoder reports success. *)
Theorem zero_chunk_logs_refuted : exists s, reaches true s /\ good_calls (hist s) /\ faults (hist s) = [] /\ map snd (logged (hist s)) = [hi] /\ pc s = Idle /\ failed s = false /\
  plain s 1 = None /\ exists file, packed s 1 = Some file /\ forall hb, decode_string hb file = Ok None.
Proof.
  destruct (huffman_zero_chunk_refuted true true 11 ltac:(lia)) as (file & HE & HU & HD).
  destruct (huffman_zero_chunk_refuted true false 11 ltac:(lia)) as (file' & HE' & _ & HD').
  pose proof (HU [] _ (HE' [])) as E. injection E as ->.
  assert (HN : file = [] \/ file <> []) by (destruct file; [now left|right; discriminate]). destruct HN as [->|HN].
  - (* not the case, but the statement would hold all the same *)
    pose proof (HE hi_text) as HEh. pose proof (compressing 0) as R. next R (s_encode _ _ _ (Ok (Some []))) R1.
    next R1 s_packed R2. next R2 s_remove R3.
    next R3 s_open R4. eexists. split; [exact R4|]. cbn [hist plain]. split; [apply hi_calls|]. repeat split.
    exists []. split; [reflexivity|]. intros []; assumption.
  - pose proof (compressed 0 file (HE _) HN) as R. next R s_open R4. eexists. split; [exact R4|]. cbn [hist plain]. split; [apply hi_calls|]. repeat split.
    exists file. split; [reflexivity|]. intros []; assumption.
Qed.

(** "A log file is removed only when its compressed form is complete": false when the last bytes of the compressed form, written
    when the encoder's stream is destroyed, do not reach the device. *)
Theorem lost_compression_refuted : exists s, reaches true s /\ good_calls (hist s) /\ good_configs (hist s) /\ faults (hist s) = [LostFault] /\ map snd (logged (hist s)) = [hi] /\
  failed s = false /\ plain s 1 = None /\ packed s 1 = Some [] /\ forall content, ~ holds s 1 content.
Proof.
  destruct (huffman_encode_total true 256 11 hi_text ltac:(lia) ltac:(repeat constructor; lia)) as (result & HE).
  destruct (huffman_roundtrip true true 256 11 hi_text result ltac:(lia) ltac:(lia) ltac:(repeat constructor; lia) HE) as (file & -> & HD).
  pose proof (compressing 256) as R. next R (s_encode _ _ _ (Ok (Some file))) R1.
  next R1 s_pack_lost R2. next R2 s_remove R3.
  eexists. split; [exact R3|]. cbn [hist plain packed at_ say with_plain with_packed failed]. split; [|split; [|split; [reflexivity|split; [reflexivity|split; [reflexivity|split; [reflexivity|split; [reflexivity|]]]]]]].
  - intros c b Hin. apply in_app_or in Hin. destruct Hin as [Hin|[E|[]]]; [|discriminate]. now apply (hi_calls 256 c b).
  - intros k Hin. apply in_app_or in Hin. destruct Hin as [Hin|[E|[]]]; [|discriminate]. apply (hi_configs 256); [lia|assumption].
  - intros content [H|(_ & f & H & HH)]; [discriminate|]. cbn in H. injection H as <-. specialize (HH true). rewrite decode_empty in HH. discriminate.
Qed.

(** "A logger that goes on logging has written every record": false when a write fails and the file is over the limit all the same:
    the sink reports success and goes on in a new file. *)
Theorem write_failure_refuted : exists s, reaches true s /\ good_calls (hist s) /\ good_configs (hist s) /\ faults (hist s) = [WriteFault] /\
  map snd (logged (hist s)) = [hi; hi] /\ failed s = false /\ plain s 1 = Some [48%Z] /\ plain s 2 = Some hi_text1.
Proof.
  set (k := Config 100 0 false 256 11).
  pose proof (reaches_initial true k) as R. unfold initial in R.
  next R (s_call _ _ hi) R1.
  next R1 s_take R2.
  next R2 (s_write _ _ 1) R3.
  next R3 s_write_fails R4.
  next R4 s_full R5.
  next R5 s_open R6.
  next R6 (s_call _ _ hi) R7.
  next R7 s_take R8.
  next R8 (s_write _ _ 10) R9.
  eexists. split; [exact R9|]. clear R9. split; [|split; [|repeat split]].
  - intros c b Hin. cbn in Hin. repeat (destruct Hin as [E|Hin]; [try discriminate; injection E as <- <-; apply hi_bytes|]). contradiction.
  - intros c Hin. cbn in Hin. repeat (destruct Hin as [E|Hin]; [try discriminate; injection E as <-; cbn; lia|]). contradiction.
Qed.

(** "The records of a log are those of the calls": false when a message contains the separators; one call reads as two. *)
Definition forger : call := Call 1 (Trace [] [] 0) [97; 30; 49; 31; 3; 31; 49; 31; 31; 98]%Z [49%Z].
Theorem forged_record_refuted : exists r1 r2 r3,
  record_of (0, 100, forger) r1 /\
  record_of (0, 100, Call 1 (Trace [] [] 0) [97%Z] [49%Z]) r2 /\ record_of (1, 100, Call 3 (Trace [] [] 0) [98%Z] [49%Z]) r3 /\
  concat [r1] = concat [r2; r3].
Proof.
  assert (HB : forall l m t, (0 <= l < 256)%Z -> Forall byte m -> Forall byte t -> bytes_call (Call l (Trace [] [] 0) m t)).
  { intros l m t H1 H2 H3. repeat split; try assumption; cbn; try lia; constructor. }
  assert (B1 : bytes_call forger) by (apply HB; [lia| |]; repeat constructor; lia).
  assert (B2 : bytes_call (Call 1 (Trace [] [] 0) [97%Z] [49%Z])) by (apply HB; [lia| |]; repeat constructor; lia).
  assert (B3 : bytes_call (Call 3 (Trace [] [] 0) [98%Z] [49%Z])) by (apply HB; [lia| |]; repeat constructor; lia).
  eexists; eexists; eexists. split; [apply (render_record (0, 100, forger)), B1|]. split; [apply (render_record (0, 100, _)), B2|].
  split; [apply (render_record (1, 100, _)), B3|]. vm_compute. reflexivity.
Qed.
Example readable_case : exists xs rs, Forall2 record_of xs rs /\ Forall (fun x => plain_call (snd x) /\ valid_level (snd x)) xs /\ length xs = 2.
Proof.
  exists [(0, 100, hi); (1, 100, hi)], [text (0, 100, hi); text (1, 100, hi)].
  split; [repeat constructor; apply (render_record (_, 100, hi)), hi_bytes|]. split; [|reflexivity].
  assert (H : plain_call hi /\ valid_level hi) by (unfold plain_call, plain_text, valid_level, hi; cbn; intuition lia). repeat constructor; cbn [snd]; apply H.
Qed.

(** * C48: the default logger *)

(** A synchronous file logger between calls: not failed, its stream good and open on the current file. *)
Definition healthy (s : sync) (content : list Z) : Prop :=
  y_failed s = false /\ y_good s = true /\ y_open s = Some (y_file s) /\ y_plain s (y_file s) = Some content.
Lemma level_ok x : valid_level x -> (4 <=? u8 (c_level x))%Z = false.
Proof. intros (H1 & H2). unfold u8, wrap. change (2 ^ 8)%Z with 256%Z. rewrite Z.mod_small by lia. apply Z.leb_gt. lia. Qed.

(** "A synchronous file logger goes on logging when its file is full": false when it is the default logger and compresses its files.
    The first call that fills the file is its last: the report of the compression re-enters the sink, is lost, and opens the next
    file; the sink then removes that file instead of the full one and fails to open another. *)
Theorem default_logger_refuted : forall pack logd s c content,
  healthy s content -> compress (y_cfg s) = true -> valid_level c -> valid_level logd ->
  let text := content ++ render (y_index s) (max_message (y_cfg s)) c in
  max_size (y_cfg s) < length text ->
  exists s', y_log pack logd true 2 s c = Some s' /\
    y_failed s' = true /\ (* the logger is dead: *)
    (forall fuel c', y_log pack logd true (S fuel) s' c' = Some s') /\
    y_plain s' (y_file s) = Some text /\ y_packed s' (y_file s) = Some (pack text) /\ (* kept twice *)
    y_plain s' (S (y_file s)) = None /\ y_packed s' (S (y_file s)) = y_packed s (S (y_file s)) /\ (* the report is nowhere *)
    y_plain s' (S (S (y_file s))) = y_plain s (S (S (y_file s))).
Proof.
  intros pack logd s c content (H1 & H2 & H3 & H4) HC HV HL text HM.
  destruct s as [k pl pk f op g fl ix]. cbn [y_cfg y_plain y_packed y_file y_open y_good y_failed y_index] in *. subst fl g op text.
  apply Nat.ltb_lt in HM. pose proof (level_ok c HV) as L1. pose proof (level_ok logd HL) as L2. remember (render ix (max_message k) c) as t eqn:ET.
  cbn -[Nat.ltb render u8 Z.leb put]. rewrite L1, <- ET. cbn -[Nat.ltb render u8 Z.leb put].
  rewrite put_same, H4. cbn -[Nat.ltb render u8 Z.leb put]. rewrite ?HM. cbn -[Nat.ltb render u8 Z.leb put]. rewrite HC. rewrite ?put_same. cbn -[Nat.ltb render u8 Z.leb put]. rewrite L2.
  cbn -[Nat.ltb render u8 Z.leb put]. rewrite ?put_same. cbn -[Nat.ltb render u8 Z.leb put]. rewrite ?HM. cbn -[Nat.ltb render u8 Z.leb put].
  eexists. split; [reflexivity|]. cbn [y_failed y_plain y_packed]. split; [reflexivity|]. split; [reflexivity|].
  split; [now rewrite !put_other, put_same by lia|]. split; [now rewrite put_same|]. split; [now rewrite put_same|].
  split; [now rewrite put_other by lia|]. now rewrite !put_other by lia.
Qed.

(** A synchronous file logger which is not the default logger, or does not compress, stays healthy; so does any of them while the file
    is not full.  The old file is kept, as it is or compressed. *)
Theorem sync_logger_goes_on : forall pack logd is_default s c content,
  healthy s content -> valid_level c ->
  let text := content ++ render (y_index s) (max_message (y_cfg s)) c in
  (is_default = false \/ compress (y_cfg s) = false \/ length text <= max_size (y_cfg s)) ->
  exists s', y_log pack logd is_default 1 s c = Some s' /\ y_index s' = S (y_index s) /\
    if length text <=? max_size (y_cfg s) then healthy s' text /\ y_file s' = y_file s
    else healthy s' [] /\ y_file s' = S (y_file s) /\
      if compress (y_cfg s) then y_plain s' (y_file s) = None /\ y_packed s' (y_file s) = Some (pack text)
      else y_plain s' (y_file s) = Some text.
Proof.
  intros pack logd d s c content (H1 & H2 & H3 & H4) HV text HD.
  destruct s as [k pl pk f op g fl ix]. cbn [y_cfg y_plain y_packed y_file y_open y_good y_failed y_index] in *. subst fl g op text.
  pose proof (level_ok c HV) as L1. remember (render ix (max_message k) c) as t eqn:ET.
  cbn -[Nat.ltb Nat.leb render u8 Z.leb put]. rewrite L1, <- ET. cbn -[Nat.ltb Nat.leb render u8 Z.leb put].
  rewrite put_same, H4. cbn -[Nat.ltb Nat.leb render u8 Z.leb put]. rewrite Nat.ltb_antisym. destruct (Nat.leb_spec (length (content ++ t)) (max_size k)) as [HL|HL]; cbn -[Nat.ltb Nat.leb render u8 Z.leb put].
  - eexists. split; [reflexivity|]. split; [reflexivity|]. split; [|reflexivity]. unfold healthy. cbn. now rewrite put_same.
  - destruct (compress k) eqn:EC.
    + destruct HD as [->|[HD|HD]]; [|discriminate|lia]. rewrite ?put_same. cbn -[Nat.ltb Nat.leb render u8 Z.leb put]. eexists. split; [reflexivity|]. split; [reflexivity|].
      split; [unfold healthy; cbn [y_failed y_good y_open y_file y_plain]; now rewrite put_same|]. split; [reflexivity|]. cbn [y_plain y_packed]. rewrite put_other, !put_same by lia. auto.
    + cbn -[Nat.ltb Nat.leb render u8 Z.leb put]. eexists. split; [reflexivity|]. split; [reflexivity|].
      split; [unfold healthy; cbn [y_failed y_good y_open y_file y_plain]; now rewrite put_same|]. split; [reflexivity|]. cbn [y_plain y_packed]. rewrite put_other, !put_same by lia. auto.
Qed.
Example default_logger_case : let s := y_initial (Config 100 5 true 256 11) in
  healthy s [] /\ compress (y_cfg s) = true /\ valid_level hi /\ max_size (y_cfg s) < length (render (y_index s) (max_message (y_cfg s)) hi).
Proof. cbv zeta. split; [repeat split|]. split; [reflexivity|]. split; [unfold valid_level; cbn; lia|]. vm_compute. lia. Qed.
