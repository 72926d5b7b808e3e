(** C66: where the parsers say an error is, and what they say. *)
From Verif Require Import Common Bits Strings_Spec Strings_Proofs Json_Model Json_Grammar_Proofs Ini_Model Ini_Spec Ini_Proofs.
From Verif Require Import Diag_Model Diag_Spec Diag_Proofs Diag_Ini_Proofs.

(** * JSON *)
Section summary.
  Variables (fp : fp_text) (sg : bool) (o : features) (input : list Z).
  Hypothesis HB : bytes input.
  Lemma summary : 
    fst (parse_with_log fp sg o input) = parse fp sg o input /\
    Forall (Truth input fp sg) (snd (parse_with_log fp sg o input)) /\
    match fst (parse_with_log fp sg o input) with
    | Some _ => Forall (is_start o) (snd (parse_with_log fp sg o input)) /\ parse_leftover fp sg o input = []
    | None => snd (parse_with_log fp sg o input) <> [] \/ parse_leftover fp sg o input = []
    end.
  Proof.
    unfold parse_with_log, parse_leftover, parse.
    assert (HF : parse_json (2 * length input + 2) fp sg o (s_rest (start_stream (M := message) input)) <> OutOfFuel).
    { cbn [start_stream s_rest]. exact (proj1 (proj1 (terminates fp sg o (2 * length input + 2)) input ltac:(lia))). }
    destruct (internal_at input fp sg o HB (2 * length input + 2) 0 (start_stream input) (at_start input) HF) as [H1 (n & new & _ & H3 & H4 & H5)].
    cbn [start_stream s_rest s_log] in H1, H3. fold (start_stream (M := message) input) in *. rewrite app_nil_r in H3.
    change (Stream input 1 0 []) with (start_stream (M := message) input) in *.
    destruct (j_parse_internal (2 * length input + 2) fp sg o (start_stream input)) as [r s]. cbn [fst snd] in *. rewrite H3. rewrite <- H1.
    split; [reflexivity|]. split; [now apply Forall_rev|].
    destruct r as [j|]; [split; [apply Forall_rev|]; tauto|].
    destruct H5 as [H5|H5]; [|auto]. left. intros E. apply H5. apply (f_equal (@rev _)) in E. now rewrite rev_involutive in E.
  Qed.
End summary.

(** Logging does not change what is returned: the value is the one of C31. *)
Theorem json_log_result : forall fp sg o input, bytes input -> fst (parse_with_log fp sg o input) = parse fp sg o input.
Proof. intros fp sg o input HB. apply (summary fp sg o input HB). Qed.

(** Every warning was logged after some number [n] of symbols was read, carries the counters of that point,
    and what it says is so there. *)
Theorem json_warnings_truthful : forall fp sg o input w, bytes input -> In w (snd (parse_with_log fp sg o input)) ->
  exists n, logged_at input n w /\ truthful fp sg input n (w_message w).
Proof.
  intros fp sg o input w HB HI. destruct (summary fp sg o input HB) as (_ & H & _). rewrite Forall_forall in H. exact (H w HI).
Qed.

(** A warning that names a symbol is at its line, and at its column if that is the first line; on every other
    line the column is one too high.  Missing: a newline is said to be on the next line, and the end of the
    text has no position. *)
Theorem json_warning_position_partial : forall fp sg o input w, bytes input -> In w (snd (parse_with_log fp sg o input)) ->
  (exists c, names (w_message w) c) ->
  exists k, names (w_message w) (symbol_at input k) /\
    ((k < length input)%nat -> symbol_at input k <> 10 ->
      w_line w = u32 (line_of input k) /\ w_column w = u32 (column_of input k + if line_of input k =? 1 then 0 else 1)).
Proof.
  intros fp sg o input w HB HI (c & HN). destruct (json_warnings_truthful _ _ _ _ _ HB HI) as (n & [HL HC] & HT).
  assert (HK : (0 < n)%nat /\ names (w_message w) (symbol_at input (n - 1))).
  { destruct (w_message w) as [p e| | | | | |sy| ]; cbn [names truthful] in *; try contradiction; split; try tauto; lia || intuition. }
  destruct HK as (Hn & HS). exists (n - 1)%nat. split; [assumption|]. unfold symbol_at. intros HLt N10.
  destruct (skipn (n - 1) input) as [|c0 r] eqn:ES; [apply skipn_nil_ge in ES; lia|].
  pose proof (firstn_snoc _ _ _ _ ES) as EF. replace (S (n - 1)) with n in EF by lia.
  assert (EC : nth (n - 1) input (-1) = c0).
  { rewrite <- (firstn_skipn (n - 1) input) at 1. rewrite app_nth2; rewrite firstn_length_le by lia; [|lia]. now rewrite Nat.sub_diag, ES. }
  rewrite EC in *. rewrite HL, HC. unfold counted_line, counted_column, line_of, column_of. rewrite EF, newlines_app, since_snoc.
  assert (EN : newlines [c0] = 0) by (apply newlines_none; intros [->|[]]; congruence). rewrite EN, Z.add_0_r.
  replace (c0 =? 10) with false by (symmetry; now apply Z.eqb_neq). split; [reflexivity|]. f_equal.
  replace (n - length input)%nat with O by lia.
  replace (1 + newlines (firstn (n - 1) input) =? 1) with (newlines (firstn (n - 1) input) =? 0); [lia|].
  destruct (Z.eqb_spec (newlines (firstn (n - 1) input)) 0), (Z.eqb_spec (1 + newlines (firstn (n - 1) input)) 1); try reflexivity; lia.
Qed.

(** Only a mis-started comment is logged for a text that is accepted, and only with AllowComments. *)
Theorem json_success_warnings : forall fp sg o input j w, bytes input -> fst (parse_with_log fp sg o input) = Some j ->
  In w (snd (parse_with_log fp sg o input)) -> allow_comments o = true /\ exists c, w_message w = MCommentStart c.
Proof.
  intros fp sg o input j w HB HJ HI. destruct (summary fp sg o input HB) as (_ & _ & H). rewrite HJ in H. destruct H as [H _].
  rewrite Forall_forall in H. exact (H w HI).
Qed.
Theorem json_strict_success_quiet : forall fp sg o input j, bytes input -> allow_comments o = false ->
  fst (parse_with_log fp sg o input) = Some j -> snd (parse_with_log fp sg o input) = [].
Proof.
  intros fp sg o input j HB HA HJ. destruct (snd (parse_with_log fp sg o input)) as [|w l] eqn:E; [reflexivity|].
  destruct (json_success_warnings fp sg o input j w HB HJ) as [H _]; [rewrite E; now left|]. congruence.
Qed.

(** An accepted text was read to its end; a refused one is reported unless it was read to its end. *)
Theorem json_accepts_all_read : forall fp sg o input j, bytes input -> fst (parse_with_log fp sg o input) = Some j ->
  parse_leftover fp sg o input = [].
Proof. intros fp sg o input j HB HJ. destruct (summary fp sg o input HB) as (_ & _ & H). rewrite HJ in H. tauto. Qed.
Theorem json_failure_reported_partial : forall fp sg o input, bytes input -> fst (parse_with_log fp sg o input) = None ->
  parse_leftover fp sg o input <> [] -> snd (parse_with_log fp sg o input) <> [].
Proof. intros fp sg o input HB HJ HN. destruct (summary fp sg o input HB) as (_ & _ & H). rewrite HJ in H. tauto. Qed.

Definition fp0 : fp_text := FpText (fun _ => None) (fun _ => []).
Definition comments : features := Features true false false.

(** "{" is refused without a warning. *)
Theorem json_failure_reported_refuted : exists input, bytes input /\ parse_with_log fp0 true strict input = (None, []).
Proof. exists [123]. split; [repeat constructor; lia|]. vm_compute. reflexivity. Qed.

(** "[1,\n\"a\" x]": the symbol x is at line 2, column 5; the warning says column 6. *)
Theorem json_warning_column_refuted : exists input w k, bytes input /\ snd (parse_with_log fp0 true strict input) = [w] /\
  w_message w = MUnexpected 120 44 /\ (forall i, symbol_at input i = 120 <-> i = k) /\ w_line w = line_of input k /\
  w_column w <> column_of input k.
Proof.
  exists [91; 34; 98; 34; 44; 10; 34; 97; 34; 32; 120; 93], (Warning 2 6 (MUnexpected 120 44)), 10%nat.
  split; [repeat constructor; lia|]. split; [vm_compute; reflexivity|]. split; [reflexivity|]. split.
  - intros i. do 13 (destruct i as [|i]; [vm_compute; split; congruence|]). split; [|congruence]. destruct i; cbn; discriminate.
  - split; vm_compute; congruence.
Qed.

(** A solidus where comments are not allowed is reported twice. *)
Theorem json_one_warning_refuted : exists input w, bytes input /\ parse_with_log fp0 true strict input = (None, [w; w]).
Proof. exists [47], (Warning 1 0 MComment). split; [repeat constructor; lia|]. vm_compute. reflexivity. Qed.

(** A text that is accepted although a warning was logged: ["a",/x"b"] is read as ["a","b"]. *)
Theorem json_success_quiet_refuted : exists input w, bytes input /\
  parse_with_log fp0 true comments input = (Some (JArray [JString [97]; JString [98]]), [w]) /\ w_message w = MCommentStart 120.
Proof.
  exists [91; 34; 97; 34; 44; 47; 120; 34; 98; 34; 93], (Warning 1 7 (MCommentStart 120)).
  split; [repeat constructor; lia|]. split; [vm_compute; reflexivity|reflexivity].
Qed.

(** A duplicated comma: reported where it is. *)
Example json_warning_example : parse_with_log fp0 true strict [91; 34; 97; 34; 44; 44; 93] =
  (None, [Warning 1 5 (MConvert [])]) /\ truthful fp0 true [91; 34; 97; 34; 44; 44; 93] 5 (MConvert []).
Proof. split; [vm_compute; reflexivity|]. cbn [truthful length]. split; [lia|]. split; reflexivity. Qed.

(** * INI *)
Lemma ini_summary sg input : bytes input ->
  fst (ini_with_log sg input) = parse_ini sg input /\
  ended 0 [] (pieces 10 input) [] (fst (ini_with_log sg input)) (rev (snd (ini_with_log sg input))).
Proof.
  intros HB. unfold ini_with_log, parse_ini.
  destruct (loop_at input sg HB (S (length input)) 0 (start_stream input) [] [] 0 [] (at_start input)) as [H1 H2];
    try reflexivity; try (cbn [start_stream s_rest]; lia).
  - intros a k v b E. destruct a; discriminate.
  - split; [congruence|]. intros (s & []).
  - destruct (i_loop (S (length input)) sg [] [] (start_stream input)) as [r s] eqn:E. cbn [fst snd start_stream s_rest] in *.
    rewrite ini_loop_run by lia. rewrite rev_involutive. auto.
Qed.

(** Logging does not change what is returned: the value is the one of C33. *)
Theorem ini_log_result : forall sg input, bytes input -> fst (ini_with_log sg input) = parse_ini sg input.
Proof. intros sg input HB. apply (ini_summary sg input HB). Qed.

(** A warning is logged iff some line is faulty; all are about the first faulty line, are said to be at the
    line that follows it (at the line itself if it is the last one), say what is so, and nothing is returned. *)
Theorem ini_warnings_exact : forall sg input ls, bytes input -> pieces_of 10 input ls ->
  (snd (ini_with_log sg input) = [] /\ exists items, Forall2 line ls items /\ sectioned items /\
     (fst (ini_with_log sg input) = None <-> Forall (eq Skip) items)) \/
  (fst (ini_with_log sg input) = None /\ snd (ini_with_log sg input) <> [] /\
   exists before l after items, ls = before ++ l :: after /\ Forall2 line before items /\ sectioned items /\ faulty items l /\
     forall w, In w (snd (ini_with_log sg input)) -> at_line (length before) after w /\ ini_truthful items l (w_message w)).
Proof.
  intros sg input ls HB HP. destruct (ini_summary sg input HB) as [_ H].
  assert (E : pieces 10 input = ls) by (apply (pieces_of_unique 10 input); [apply pieces_ok|assumption]). rewrite E in H.
  destruct H as [(HL & items & H1 & H2 & H3)|(HN & HL & before & l & after & items & H1 & H2 & H3 & H4 & H5)].
  - left. split; [apply (f_equal (@rev _)) in HL; now rewrite rev_involutive in HL|]. exists items. split; [assumption|]. split; [exact H2|].
    rewrite H3. tauto.
  - right. split; [assumption|]. split; [intros EL; apply HL; now rewrite EL|]. exists before, l, after, items.
    split; [assumption|]. split; [assumption|]. split; [exact H3|]. split; [exact H4|]. intros w HI. rewrite Forall_forall in H5.
    apply H5. now apply -> in_rev.
Qed.
Theorem ini_success_quiet : forall sg input j, bytes input -> fst (ini_with_log sg input) = Some j -> snd (ini_with_log sg input) = [].
Proof.
  intros sg input j HB HJ. destruct (ini_warnings_exact sg input _ HB (pieces_ok 10 input)) as [[H _]|[H _]]; [assumption|congruence].
Qed.

(** "[a]\nb\n": line 2 is not a pair; the warning says line 3. *)
Theorem ini_warning_line_refuted : exists input w, bytes input /\ ini_with_log true input = (None, [w]) /\
  line [91; 97; 93] (Section_ [97]) /\ input = [91; 97; 93; 10] ++ [98] ++ [10] /\ (forall i, ~ line [98] i) /\ w_line w = 3.
Proof.
  exists [91; 97; 93; 10; 98; 10], (Warning 3 1 INotPair).
  split; [repeat constructor; lia|]. split; [vm_compute; reflexivity|].
  split; [apply (line_item_iff true); [repeat constructor; lia|vm_compute; reflexivity]|]. split; [reflexivity|]. split; [|reflexivity].
  apply (line_no_item true); [repeat constructor; lia|vm_compute; reflexivity].
Qed.
(** The same fault on the last line is reported there. *)
Example ini_last_line : ini_with_log true [91; 97; 93; 10; 98] = (None, [Warning 2 2 INotPair]).
Proof. vm_compute. reflexivity. Qed.

Print Assumptions json_log_result.
Print Assumptions json_warnings_truthful.
Print Assumptions json_warning_position_partial.
Print Assumptions json_success_warnings.
Print Assumptions json_failure_reported_partial.
Print Assumptions ini_log_result.
Print Assumptions ini_warnings_exact.
