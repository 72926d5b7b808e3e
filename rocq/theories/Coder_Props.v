(** Property C62: coding strings and files. *)
From Verif Require Import Common Coder_Model Coder_Spec.
From Verif Require Base64_Model Base64_Spec Base64_Props Huffman_Model Huffman_Spec Huffman_Props.

(** ** Strings *)
(** Success: the result string is what the coder writes; failure: it keeps its value. *)
Theorem string_success : forall c input result out, string_call c input result (Ok (true, out)) -> core c input (Ok (Some out)).
Proof. intros c input result out ([[w|]|] & H & E); cbn in E; congruence. Qed.
Theorem string_failure : forall c input result out, string_call c input result (Ok (false, out)) -> core c input (Ok None) /\ out = result.
Proof. intros c input result out ([[w|]|] & H & E); cbn in E; [congruence| |congruence]. injection E as <-. auto. Qed.

Lemma update_same fs f c : update fs f c f = c.
Proof. unfold update. now rewrite Z.eqb_refl. Qed.
Lemma update_other fs f c g : g <> f -> update fs f c g = fs g.
Proof. intros H. unfold update. destruct (Z.eqb_spec g f); congruence. Qed.

(** ** Files *)
(** No other file is touched, whatever happens. *)
Theorem other_files_untouched : forall c env fs input output fs' b, file_call c env fs input output fs' (Ok b) -> only output fs fs'.
Proof. intros c env fs input output fs' b H f HN. inversion H; subst; try (now rewrite update_other). destruct (m_can_write env); [now rewrite update_other|reflexivity]. Qed.
(** With a working operating system the call does with the files what the same call on strings does with strings, and
    reports it. *)
Theorem file_coded : forall c env fs input output fs' outcome data, file_call c env fs input output fs' outcome -> input <> output -> fs input = Some data ->
  (forall w, core c data (Ok (Some w)) -> no_trouble env (length w)) -> no_trouble env 0 ->
  exists r, core c data r /\ match r with
    | Ok (Some w) => outcome = Ok true /\ fs' output = Some w
    | Ok None => outcome = Ok false
    | UB => outcome = UB
    end.
Proof.
  intros c env fs input output fs' outcome data H HN HD HT (R & W & RF & _). assert (EI : update fs output (Some []) input = Some data) by (now rewrite update_other).
  assert (ED : forall d, delivered env d = d) by (intros d; unfold delivered; now rewrite RF).
  assert (EM : forall d, fault_met env d = false) by (intros d; unfold fault_met; now rewrite RF).
  inversion H as [G|d H1 H2 H3 H4 H5|d rest H1 H2 H3 H4 H5|d w content b H1 H2 H3 H4 H5 H6 H7]; subst.
  - rewrite R, W, HD in G. discriminate G.
  - rewrite EI in H4. injection H4 as <-. rewrite ED in H5. eexists. split; [exact H5|reflexivity].
  - rewrite EI in H4. injection H4 as <-. rewrite ED, EM, andb_false_r in H5. destruct H5 as [H5|H5]; [|discriminate]. eexists. split; [exact H5|reflexivity].
  - rewrite EI in H4. injection H4 as <-. rewrite ED in H5. exists (Ok (Some w)). split; [exact H5|]. destruct (HT w H5) as (_ & _ & _ & HR). inversion H7; subst; try lia. rewrite update_same. auto.
Qed.
(** A call that reports success found its input and wrote something that coder writes, from all of the input if the coder
    checks for read faults. *)
Theorem file_success : forall c env fs input output fs', file_call c env fs input output fs' (Ok true) -> input <> output -> checks_read c = true ->
  exists data w, fs input = Some data /\ fs' input = Some data /\ core c data (Ok (Some w)) /\ (length w <= m_room env + m_buffer env)%nat /\ ((length w <= m_room env)%nat -> fs' output = Some w).
Proof.
  intros c env fs input output fs' H HN HC. inversion H as [|d H1 H2 H3 H4 H5|d rest H1 H2 H3 H4 H5|d w content b H1 H2 H3 H4 H5 H6 H7]; subst.
  rewrite update_other in H4 by assumption. exists d, w. split; [assumption|]. split; [now rewrite update_other|]. rewrite HC in H6. cbn [andb] in H6.
  assert (ED : delivered env d = d). { unfold delivered, fault_met in *. destruct (m_read_fault env) as [k|]; [|reflexivity]. apply Nat.leb_gt in H6. apply firstn_all2. lia. }
  rewrite ED in H5. split; [assumption|]. split; [inversion H7; subst; lia|]. intros HR. rewrite update_same. inversion H7; subst; [reflexivity|lia].
Qed.
(** The Base64 coders notice a read fault: such a call never reports success. *)
Theorem base64_notices_read_faults : forall stale c env fs input output fs' b data k, c = base64_encoder stale \/ c = base64_decoder ->
  file_call c env fs input output fs' (Ok b) -> input <> output -> fs input = Some data -> m_read_fault env = Some k -> (k <= length data)%nat -> b = false.
Proof.
  intros stale c env fs input output fs' b data k HC H HN HD RF HK. assert (EC : checks_read c = true) by (destruct HC as [-> | ->]; reflexivity).
  inversion H as [|d H1 H2 H3 H4 H5|d rest H1 H2 H3 H4 H5|d w content b' H1 H2 H3 H4 H5 H6 H7]; subst; try reflexivity.
  rewrite update_other in H4 by assumption. assert (d = data) by congruence. subst d. rewrite EC in H6. unfold fault_met in H6. rewrite RF in H6. cbn [andb] in H6. apply Nat.leb_gt in H6. lia.
Qed.
(** A write fault that shows before the output stream is destroyed is reported. *)
Theorem write_faults_reported : forall c env fs input output fs' b, file_call c env fs input output fs' (Ok b) -> input <> output ->
  (forall data w, fs input = Some data -> core c (delivered env data) (Ok (Some w)) -> (m_room env + m_buffer env < length w)%nat) -> b = false.
Proof.
  intros c env fs input output fs' b H HN HW. inversion H as [|d H1 H2 H3 H4 H5|d rest H1 H2 H3 H4 H5|d w content b' H1 H2 H3 H4 H5 H6 H7]; subst; try reflexivity.
  rewrite update_other in H4 by assumption. specialize (HW d w H4 H5). inversion H7; subst; [lia|reflexivity|lia].
Qed.
(** A file that cannot be read or found is no success, nor is one that cannot be written. *)
Theorem file_failure : forall c env fs input output fs' b, file_call c env fs input output fs' (Ok b) -> fs input = None \/ m_can_read env = false \/ m_can_write env = false -> b = false.
Proof.
  intros c env fs input output fs' b H HF. inversion H as [|d H1 H2 H3 H4 H5|d rest H1 H2 H3 H4 H5|d w content b' H1 H2 H3 H4 H5 H6 H7]; subst; try reflexivity.
  destruct HF as [HF|[HF|HF]]; congruence.
Qed.
(** Some call is always possible (the relation has a behaviour for every state). *)
Theorem file_call_total : forall c env fs input output, (forall data, exists r, core c data r) -> exists fs' outcome, file_call c env fs input output fs' outcome.
Proof.
  intros c env fs input output HC. destruct (m_can_read env && match fs input with Some _ => true | None => false end && m_can_write env) eqn:E.
  - apply andb_prop in E. destruct E as (E & W). apply andb_prop in E. destruct E as (R & E). destruct (fs input) as [d|] eqn:ED; [|discriminate].
    assert (HX : exists data, update fs output (Some []) input = Some data) by (unfold update; destruct (input =? output); eauto). destruct HX as (data & HX).
    destruct (HC (delivered env data)) as ([[w|]|] & HR).
    + destruct (checks_read c && fault_met env data) eqn:EF.
      * eexists. eexists. eapply f_failed with (rest := []); eauto. congruence.
      * destruct (le_lt_dec (length w) (m_room env)); eexists; eexists; (eapply f_coded; eauto; [congruence|]); [now apply w_all|]. apply w_noticed with (c := []). assumption.
    + eexists. eexists. eapply f_failed with (rest := []); eauto. congruence.
    + eexists. eexists. eapply f_undefined; eauto. congruence.
  - eexists. eexists. now apply f_not_open.
Qed.

(** ** There and back *)
(** Whatever [forth] wrote, [back] turns it into the original, through files. *)
Theorem files_roundtrip : forall forth back env env' fs a b c fs1 fs2 outcome data, file_call forth env fs a b fs1 (Ok true) -> file_call back env' fs1 b c fs2 outcome ->
  fs a = Some data -> a <> b -> b <> c -> no_trouble env 0 -> no_trouble env' (length data) -> inverts forth back data ->
  (forall w, core forth data (Ok (Some w)) -> (length w <= m_room env)%nat) ->
  outcome = Ok true /\ fs2 c = Some data.
Proof.
  intros forth back env env' fs a b c fs1 fs2 outcome data H1 H2 HA N1 N2 HT HT' HI HR. destruct HT as (T1 & T2 & T3 & T4). destruct HT' as (U1 & U2 & U3 & U4).
  destruct (file_coded forth env fs a b fs1 (Ok true) data H1 N1 HA) as (r & HC & HM).
  { intros w HW. repeat split; auto. } { repeat split; auto. }
  destruct r as [[w|]|]; [|discriminate HM..]. destruct HM as (_ & HB).
  assert (HP : forall r, core back w r -> r = Ok (Some data)) by (intros r; now apply HI).
  destruct (file_coded back env' fs1 b c fs2 outcome w H2 N2 HB) as (r & HC' & HM').
  { intros w' HW. apply HP in HW. injection HW as ->. repeat split; auto. } { repeat split; auto; lia. }
  apply HP in HC'. subst r. exact HM'.
Qed.
Theorem base64_inverts : forall stale data, Base64_Spec.octet stale -> Forall Base64_Spec.octet data -> inverts (base64_encoder stale) base64_decoder data.
Proof.
  intros stale data HS HF w r HE HD. cbn [base64_encoder base64_decoder core] in HE, HD. subst r. destruct (Base64_Model.encode_string true Base64_Model.chunks stale data) as [e|] eqn:E; cbn [bind] in HE; [|discriminate HE]. assert (w = e) by congruence. subst e.
  now apply (Base64_Props.base64_roundtrip_partial stale).
Qed.
Theorem huffman_inverts : forall hb hb' kb max data, 1 <= kb < 65536 -> 8 <= max <= 15 -> Forall Huffman_Spec.byte data -> inverts (huffman_encoder hb kb max) (huffman_decoder hb') data.
Proof.
  intros hb hb' kb max data HK HM HF w r HE HD. cbn [huffman_encoder huffman_decoder core] in HE, HD. subst r. destruct (Huffman_Props.huffman_roundtrip hb hb' kb max data _ HK HM HF HE) as (file & E & D). congruence.
Qed.

(** ** What is false *)
(** A missing (or unreadable) input empties the output file. *)
Theorem failure_keeps_output_refuted : forall c env fs input output fs' outcome, file_call c env fs input output fs' outcome -> fs input = None -> m_can_write env = true -> input <> output ->
  outcome = Ok false /\ fs' output = Some [].
Proof.
  intros c env fs input output fs' outcome H HD HW HN. inversion H; subst; try congruence. rewrite HW, update_same. auto.
Qed.
(** Coding a file onto itself loses it, and reports success. *)
Theorem onto_itself_refuted : forall stale env fs file fs' outcome data, Base64_Spec.octet stale -> file_call (base64_encoder stale) env fs file file fs' outcome -> fs file = Some data -> no_trouble env 0 ->
  outcome = Ok true /\ fs' file = Some [].
Proof.
  intros stale env fs file fs' outcome data HS H HD (R & W & RF & _).
  assert (E0 : Base64_Model.encode_string true Base64_Model.chunks stale [] = Ok []).
  { rewrite Base64_Props.base64_encode_rfc4648_partial; [reflexivity|assumption|constructor|]. intros (G & _). now apply G. }
  assert (EC : forall r, core (base64_encoder stale) [] r -> r = Ok (Some [])). { intros r HR. cbn [base64_encoder core] in HR. rewrite E0 in HR. exact HR. }
  assert (ED : delivered env [] = []) by (unfold delivered; now rewrite RF). assert (EM : fault_met env [] = false) by (unfold fault_met; now rewrite RF).
  inversion H as [G|d H1 H2 H3 H4 H5|d rest H1 H2 H3 H4 H5|d w content b H1 H2 H3 H4 H5 H6 H7]; subst; try (rewrite update_same in H4; injection H4 as <-; rewrite ED in H5).
  - rewrite R, W, HD in G. discriminate G.
  - apply EC in H5. discriminate H5.
  - rewrite EM, andb_false_r in H5. destruct H5 as [H5|H5]; [apply EC in H5|]; discriminate H5.
  - apply EC in H5. injection H5 as ->. inversion H7; subst; try (cbn [length] in *; lia). rewrite update_same. auto.
Qed.
(** A read fault goes unnoticed by the Huffman encoder: it reports success for a part of the input. *)
Theorem read_fault_refuted : forall hb hb' kb max env fs input output fs' outcome data k, 1 <= kb < 65536 -> 8 <= max <= 15 -> Forall Huffman_Spec.byte data ->
  file_call (huffman_encoder hb kb max) env fs input output fs' outcome -> input <> output -> fs input = Some data -> m_can_read env = true -> m_can_write env = true -> m_read_fault env = Some k ->
  (forall w, core (huffman_encoder hb kb max) (firstn k data) (Ok (Some w)) -> (length w <= m_room env)%nat) ->
  outcome = Ok true /\ exists w, fs' output = Some w /\ core (huffman_decoder hb') w (Ok (Some (firstn k data))).
Proof.
  intros hb hb' kb max env fs input output fs' outcome data k HK HM HF H HN HD R W RF HR.
  assert (EI : update fs output (Some []) input = Some data) by (now rewrite update_other).
  assert (ED : delivered env data = firstn k data) by (unfold delivered; now rewrite RF).
  assert (HF' : Forall Huffman_Spec.byte (firstn k data)). { apply Forall_forall. intros x Hx. rewrite Forall_forall in HF. apply HF. rewrite <- (firstn_skipn k data). apply in_or_app. now left. }
  assert (EC : forall r, core (huffman_encoder hb kb max) (firstn k data) r -> exists w, r = Ok (Some w) /\ core (huffman_decoder hb') w (Ok (Some (firstn k data)))).
  { intros r HC. cbn [huffman_encoder core huffman_decoder] in *. destruct (Huffman_Props.huffman_roundtrip hb hb' kb max _ _ HK HM HF' HC) as (file & -> & D). eexists. split; [reflexivity|]. now rewrite D. }
  inversion H as [G|d H1 H2 H3 H4 H5|d rest H1 H2 H3 H4 H5|d w content b H1 H2 H3 H4 H5 H6 H7]; subst; try (rewrite EI in H4; injection H4 as <-; rewrite ED in H5).
  - rewrite R, W, HD in G. discriminate G.
  - apply EC in H5. destruct H5 as (w & E & _). discriminate E.
  - destruct H5 as [H5|H5]; [|discriminate H5]. apply EC in H5. destruct H5 as (w & E & _). discriminate E.
  - destruct (EC _ H5) as (w' & E & D). assert (w' = w) by congruence. subst w'. specialize (HR w H5). inversion H7; subst; try lia. rewrite update_same. split; [reflexivity|]. eexists. split; [reflexivity|exact D].
Qed.
(** Success can be reported although the last bytes were not written. *)
Theorem unwritten_refuted : forall c env fs input output data w lost, core c data (Ok (Some w)) -> input <> output -> fs input = Some data -> m_can_read env = true -> m_can_write env = true -> m_read_fault env = None ->
  (m_room env < length w <= m_room env + m_buffer env)%nat -> exists fs', file_call c env fs input output fs' (Ok true) /\ fs' output = Some lost.
Proof.
  intros c env fs input output data w lost HC HN HD R W RF HR. exists (update fs output (Some lost)). split; [|apply update_same].
  eapply f_coded with (data := data) (w := w); auto; [congruence|now rewrite update_other|unfold delivered; now rewrite RF|unfold fault_met; rewrite RF; apply andb_false_r|now apply w_unnoticed].
Qed.

(** ** Examples *)
(** "Man" in file 1, Base64 into file 2, and back into file 3 *)
Example coder_run : exists fs1 fs2, let env := Environment true true None 100 10 in let fs := update (fun _ => None) 1 (Some [77; 97; 110]) in
  file_call (base64_encoder 0) env fs 1 2 fs1 (Ok true) /\ fs1 2 = Some [84; 87; 70; 117] /\ file_call base64_decoder env fs1 2 3 fs2 (Ok true) /\ fs2 3 = Some [77; 97; 110].
Proof.
  assert (E1 : Base64_Model.encode_string true Base64_Model.chunks 0 [77; 97; 110] = Ok [84; 87; 70; 117]).
  { rewrite Base64_Props.base64_encode_rfc4648_partial; [reflexivity|unfold Base64_Spec.octet; lia|repeat (constructor; [unfold Base64_Spec.octet; lia|]); constructor|]. intros (G & _). now apply G. }
  assert (E2 : Base64_Model.decode_string Base64_Model.chunks [84; 87; 70; 117] = Ok (Some [77; 97; 110])).
  { apply (Base64_Props.base64_roundtrip_partial 0); [unfold Base64_Spec.octet; lia|repeat (constructor; [unfold Base64_Spec.octet; lia|]); constructor|assumption]. }
  eexists. eexists. cbv zeta. split; [|split; [apply update_same|split; [|apply update_same]]].
  - eapply f_coded with (data := [77; 97; 110]) (w := [84; 87; 70; 117]); [reflexivity|reflexivity|discriminate|reflexivity|cbn [delivered m_read_fault base64_encoder core]; now rewrite E1|reflexivity|apply w_all; cbn; lia].
  - eapply f_coded with (data := [84; 87; 70; 117]) (w := [77; 97; 110]); [reflexivity|reflexivity|discriminate|reflexivity|exact (eq_sym E2)|reflexivity|apply w_all; cbn; lia].
Qed.
