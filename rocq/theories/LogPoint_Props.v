(** C76: a log macro hands the default logger exactly one record: the formatted text, where it was logged, and how severe it is. *)
From Verif Require Import Common Bits Format_Model Format_Spec Format_Props FormatString_Model FormatString_Spec FormatString_Proofs FormatString_Loop FormatString_Props SysText_Model SysText_Spec SysText_Props Logger_Model LogPoint_Model LogPoint_Spec LogPoint_Proofs.
Open Scope Z_scope.

Lemma update_nth ls n (l' : logger) m : (n < length ls)%nat -> nth_error (update ls n l') m = if Nat.eqb m n then Some l' else nth_error ls m.
Proof.
  unfold update. revert n m. induction ls as [|x ls IH]; intros n m L; [cbn in L; lia|]. destruct n as [|n]; [destruct m; reflexivity|].
  cbn [firstn skipn app]. destruct m as [|m]; [reflexivity|]. cbn [nth_error Nat.eqb]. apply IH. cbn in L. lia.
Qed.
Lemma update_only w n l l' : nth_error (loggers w) n = Some l -> only_logger w (World (update (loggers w) n l') (default_logger w)) n l'.
Proof.
  intros H. assert (L : (n < length (loggers w))%nat) by (apply nth_error_Some; congruence). unfold only_logger. cbn [loggers default_logger].
  split; [reflexivity|]. split; [unfold update; rewrite app_length, firstn_length; cbn [length]; rewrite skipn_length; lia|].
  split; [rewrite update_nth, Nat.eqb_refl by assumption; reflexivity|].
  intros m NM. rewrite update_nth by assumption. now rewrite (proj2 (Nat.eqb_neq m n) NM).
Qed.
Lemma log_handed l level t text accepted : last_task_failed l = false -> 0 <= level <= 3 -> handed l (log l level t text accepted) level t text accepted.
Proof.
  intros HF HL. unfold log, debug_level, num_levels. rewrite HF. destruct (Z.ltb_spec level 0); [lia|]. destruct (Z.geb_spec level 4); [lia|]. cbn [orb].
  unfold log_to_sink, make_log, handed. cbn. unfold u64. split; [reflexivity|]. split; [reflexivity|]. split; [reflexivity|]. destruct accepted; cbn; split; congruence.
Qed.
Lemma log_muted l level t text accepted : last_task_failed l = true -> log l level t text accepted = l.
Proof. intros HF. unfold log. now rewrite HF. Qed.
Lemma update_same ls n (l : logger) : nth_error ls n = Some l -> update ls n l = ls.
Proof.
  unfold update. revert n. induction ls as [|x ls IH]; intros [|n] H; try discriminate; cbn in H |- *; [congruence|]. f_equal. apply IH, H.
Qed.

(** * The functions *)
(** debug, info, warn and error: the sink gets one record of that severity; without trace information, an empty one. *)
Theorem log_function : forall cm msg l m t fmt args ps ss accepted, last_task_failed l = false ->
  Z.of_nat (length fmt) < 2 ^ 62 -> Forall arg_ok args -> format_string (map type_of_arg args) fmt ps ss ->
  exists text l', call_method cm msg l m t fmt args accepted = Ok l' /\ renders (field_output cm args) ps ss text /\
    handed l l' (method_level m) (match t with Some t => t | None => Trace [] [] 0 end) text accepted.
Proof.
  intros cm msg l m t fmt args ps ss accepted HF HL HA HS. destruct (format_exact 8 cm msg fmt args ps ss ltac:(lia) HL HA HS) as (text & E & R).
  exists text, (log l (method_level m) (match t with Some t => t | None => Trace [] [] 0 end) text accepted). split; [|split; [exact R|]].
  - unfold call_method, log_formatted, formatted. rewrite E. cbn [bind]. destruct m; reflexivity.
  - apply log_handed; [assumption|destruct m; cbn; lia].
Qed.
(** A logger whose sink has refused a record ignores everything from then on. *)
Theorem log_function_failed : forall cm msg l m t fmt args ps ss accepted, last_task_failed l = true ->
  Z.of_nat (length fmt) < 2 ^ 62 -> Forall arg_ok args -> format_string (map type_of_arg args) fmt ps ss ->
  call_method cm msg l m t fmt args accepted = Ok l.
Proof.
  intros cm msg l m t fmt args ps ss accepted HF HL HA HS. destruct (format_exact 8 cm msg fmt args ps ss ltac:(lia) HL HA HS) as (text & E & R).
  unfold call_method, log_formatted, formatted. rewrite E. cbn [bind]. destruct m; rewrite log_muted by assumption; reflexivity.
Qed.

(** * The macros *)
Lemma run_default cm msg w k l here fmt args text system errno accepted : k <> LOGS -> nth_error (loggers w) (default_logger w) = Some l ->
  format_to 8 cm msg fmt args = Ok text ->
  run_macro cm msg w k here fmt args system errno accepted = Ok (World (update (loggers w) (default_logger w) (log l (macro_level k) here text accepted)) (default_logger w)).
Proof.
  intros NK HN E. destruct k; try congruence; unfold run_macro, with_default, call_method, log_formatted, formatted; rewrite HN, E; reflexivity.
Qed.
(** LOGD, LOGI, LOGW, LOGE: the default logger, and no other, is handed one record: the text of the format string with its
    arguments (cut to the configured size), the place of the macro, and the severity in the macro's name. *)
Theorem log_macro : forall cm msg w k l here fmt args ps ss system errno accepted, k <> LOGS -> default_is w l false ->
  Z.of_nat (length fmt) < 2 ^ 62 -> Forall arg_ok args -> format_string (map type_of_arg args) fmt ps ss ->
  exists text l' w', run_macro cm msg w k here fmt args system errno accepted = Ok w' /\ renders (field_output cm args) ps ss text /\
    only_logger w w' (default_logger w) l' /\ handed l l' (macro_level k) here text accepted.
Proof.
  intros cm msg w k l here fmt args ps ss system errno accepted NK (HN & HF) HL HA HS. destruct (format_exact 8 cm msg fmt args ps ss ltac:(lia) HL HA HS) as (text & E & R).
  exists text. do 2 eexists. split; [apply run_default; eassumption|]. split; [exact R|]. split; [eapply update_only, HN|]. apply log_handed; [assumption|destruct k; cbn; lia].
Qed.
(** A text that is no format string for the arguments is logged all the same, as a text that says so. *)
Theorem log_macro_ill_formed : forall cm msg w k l here fmt args system errno accepted, k <> LOGS -> default_is w l false ->
  Z.of_nat (length fmt) < 2 ^ 62 -> characters 8 fmt -> (~ exists ps ss, format_string (map type_of_arg args) fmt ps ss) ->
  exists l' w', run_macro cm msg w k here fmt args system errno accepted = Ok w' /\
    only_logger w w' (default_logger w) l' /\ handed l l' (macro_level k) here (ignored_text ++ msg) accepted.
Proof.
  intros cm msg w k l here fmt args system errno accepted NK (HN & HF) HL HC HS. pose proof (format_rejected 8 cm msg fmt args ltac:(lia) HL HC HS) as E.
  do 2 eexists. split; [apply run_default; eassumption|]. split; [eapply update_only, HN|]. apply log_handed; [assumption|destruct k; cbn; lia].
Qed.
Lemma system_default cm msg w l here fmt args e text system errno accepted : nth_error (loggers w) (default_logger w) = Some l ->
  get_error_string cm system errno = Ok e -> format_to 8 cm msg (fmt ++ s_system) (args ++ [AString e]) = Ok text ->
  run_macro cm msg w LOGS here fmt args system errno accepted = Ok (World (update (loggers w) (default_logger w) (log l 2 here text accepted)) (default_logger w)).
Proof.
  intros HN EE E. unfold run_macro, get_error_string_now. rewrite EE. cbn [bind]. unfold with_default, call_method, log_formatted, formatted. rewrite HN, E. reflexivity.
Qed.
Lemma decimal_length code number : - 2 ^ 31 <= code < 2 ^ 31 -> SysText_Spec.decimal code number -> (length number <= 11)%nat.
Proof.
  intros HC (digits & P & ->). change (2 ^ 31) with 2147483648 in HC. pose proof (positional_length _ digits 10 P ltac:(lia)) as L.
  change (10 ^ Z.of_nat 10) with 10000000000 in L. specialize (L ltac:(lia)). rewrite app_length. destruct (code <? 0); cbn [length]; lia.
Qed.
(** LOGS: the same at the warning level, followed by the number and the text of the last system error - provided the format
    string uses automatic positions, uses each argument exactly once, and has fewer than 64 fields. *)
Theorem log_macro_system : forall sg msg w l here fmt args ps ss system errno accepted, default_is w l false ->
  Z.of_nat (length fmt) < 2 ^ 61 -> Forall arg_ok args -> format_string (map type_of_arg args) fmt ps ss ->
  Forall (fun r => r = None) (all_refs ps) -> length (all_refs ps) = length args -> (length ss < 64)%nat ->
  - 2 ^ 31 <= errno < 2 ^ 31 -> Z.of_nat (length (system errno)) < 2 ^ 63 ->
  exists text number l' w', run_macro (char_kind sg) msg w LOGS here fmt args system errno accepted = Ok w' /\
    renders (field_output (char_kind sg) args) ps ss text /\ SysText_Spec.decimal errno number /\
    only_logger w w' (default_logger w) l' /\ handed l l' 2 here (text ++ [58; 32; 40] ++ number ++ [41; 32] ++ system errno) accepted.
Proof.
  intros sg msg w l here fmt args ps ss system errno accepted (HN & HF) HL HA HS HR HC H64 HE HM.
  destruct (format_exact 8 (char_kind sg) msg fmt args ps ss ltac:(lia) ltac:(assert (2 ^ 62 = 2 * 2 ^ 61) by reflexivity; lia) HA HS) as (text & E & R).
  destruct (error_string_text sg system errno HE ltac:(assert (2 ^ 64 = 2 * 2 ^ 63) by reflexivity; lia)) as (number & D & EE).
  pose proof (decimal_length errno number HE D) as DL. set (e := [40] ++ number ++ [41; 32] ++ system errno) in *.
  assert (LE : Z.of_nat (length e) < 2 ^ 64) by (unfold e; rewrite !app_length; cbn [length]; assert (2 ^ 64 = 2 * 2 ^ 63) by reflexivity; assert (100 < 2 ^ 63) by reflexivity; lia).
  pose proof (suffix_output 8 (char_kind sg) msg fmt args e ps ss text ltac:(lia) HL HA LE HS HR HC H64 R) as EF.
  exists text, number. do 2 eexists. split; [eapply system_default; eassumption|]. split; [exact R|]. split; [exact D|]. split; [eapply update_only, HN|].
  replace (text ++ [58; 32; 40] ++ number ++ [41; 32] ++ system errno) with (text ++ [58; 32] ++ e) by (unfold e; rewrite <- ?app_assoc; reflexivity).
  apply log_handed; [assumption|lia].
Qed.
(** When the default logger has failed, a log macro changes nothing. *)
Theorem log_macro_failed : forall sg msg w k l here fmt args system errno accepted, default_is w l true ->
  - 2 ^ 31 <= errno < 2 ^ 31 -> Z.of_nat (length (system errno)) < 2 ^ 63 -> Z.of_nat (length fmt) < 2 ^ 61 -> Forall arg_ok args -> characters 8 fmt ->
  run_macro (char_kind sg) msg w k here fmt args system errno accepted = Ok w.
Proof.
  intros sg msg w k l here fmt args system errno accepted (HN & HF) HE HM HL HA HC.
  assert (P62 : 2 ^ 62 = 2 * 2 ^ 61) by reflexivity. assert (P64 : 2 ^ 64 = 2 * 2 ^ 63) by reflexivity.
  assert (TOT : forall f a, Z.of_nat (length f) < 2 ^ 62 -> characters 8 f -> Forall arg_ok a -> exists text, format_to 8 (char_kind sg) msg f a = Ok text).
  { intros f a Lf Cf Aa. destruct (parse_sound 8 (map type_of_arg a) f ltac:(lia) Lf Cf) as (o & EO & HO). destruct o as [ss|].
    - destruct HO as (ps & HS). destruct (format_exact 8 (char_kind sg) msg f a ps ss ltac:(lia) Lf Aa HS) as (x & E & _). eauto.
    - unfold format_to. rewrite EO. cbn. eauto. }
  assert (SAME : forall level text, Ok (World (update (loggers w) (default_logger w) (log l level here text accepted)) (default_logger w)) = Ok w).
  { intros level text. rewrite log_muted by assumption. rewrite update_same by assumption. now destruct w. }
  destruct (TOT fmt args ltac:(lia) HC HA) as (text & E).
  destruct k; try (rewrite (run_default _ _ _ _ l _ _ _ text) by (assumption || discriminate); apply SAME).
  destruct (error_string_text sg system errno HE ltac:(lia)) as (number & D & EE).
  destruct (TOT (fmt ++ s_system) (args ++ [AString ([40] ++ number ++ [41; 32] ++ system errno)])) as (text' & E').
  - rewrite app_length. cbn [s_system length]. assert (4 < 2 ^ 61) by reflexivity. lia.
  - apply Forall_app. split; [exact HC|]. repeat constructor; lia.
  - apply Forall_app. split; [exact HA|]. repeat constructor.
  - rewrite (system_default _ _ _ l _ _ _ _ text' _ _ _ HN EE E'). apply SAME.
Qed.

(** * The default logger *)
(** A log macro uses the logger set last, whatever was set before; with none set, the initial one. *)
Theorem default_set : forall w o, default_logger (set_default_logger w o) = match o with Some n => n | None => 0%nat end /\
  loggers (set_default_logger w o) = loggers w.
Proof. intros w o. split; reflexivity. Qed.
Theorem default_replaced : forall cm msg w n n' l l' k here fmt args ps ss system errno accepted, k <> LOGS -> n <> n' ->
  nth_error (loggers w) n = Some l -> nth_error (loggers w) n' = Some l' ->
  last_task_failed l' = false -> Z.of_nat (length fmt) < 2 ^ 62 -> Forall arg_ok args -> format_string (map type_of_arg args) fmt ps ss ->
  exists w' text, run_macro cm msg (set_default_logger (set_default_logger w (Some n)) (Some n')) k here fmt args system errno accepted = Ok w' /\
    nth_error (loggers w') n = Some l /\ exists l2, nth_error (loggers w') n' = Some l2 /\ renders (field_output cm args) ps ss text /\ handed l' l2 (macro_level k) here text accepted.
Proof.
  intros cm msg w n n' l l' k here fmt args ps ss system errno accepted NK NN HN HN' HF HL HA HS.
  destruct (log_macro cm msg (set_default_logger (set_default_logger w (Some n)) (Some n')) k l' here fmt args ps ss system errno accepted NK) as (text & l2 & w' & E & R & (_ & _ & O1 & O2) & H); [split; assumption|assumption..|].
  exists w', text. split; [exact E|]. cbn [default_logger set_default_logger loggers] in O1, O2. split; [rewrite O2 by exact NN; exact HN|]. eauto.
Qed.

Ltac chars := unfold characters; repeat (constructor; [change (2 ^ (8 - 1)) with 128; change (2 ^ 8) with 256; lia|]); constructor.
(** * What LOGS cannot do *)
Definition here_ : trace := Trace [102] [103] 7.
Definition start_logger : logger := Logger false 5 100 [].
Definition one : world := World [start_logger] 0.
Definition no_access (n : Z) : list Z := [78; 111].
Definition is_message (r : res world) (text : list Z) : Prop :=
  match r with Ok w => match nth_error (loggers w) 0 with Some l => map m_message (sink l) = [text] | None => False end | UB => False end.
(** Explicit positions: LOGS("{0}", "x") is refused by the format checker, although LOGW("{0}", "x") is fine. *)
Theorem system_explicit_refuted : exists fmt args, (exists ps ss, format_string (map type_of_arg args) fmt ps ss) /\
  forall msg, Z.of_nat (length msg) < 50 -> is_message (run_macro 127 msg one LOGS here_ fmt args no_access 13 true) (ignored_text ++ msg).
Proof.
  exists [123; 48; 125], [AString [120]]. split.
  - assert (H : exists ss, parse_format 8 (map type_of_arg [AString [120]]) [123; 48; 125] = Ok (Some ss)) by (eexists; vm_compute; reflexivity).
    destruct H as (ss & H). apply parse_format_exact in H; [|lia|reflexivity|chars]. destruct H as (ps & H). eauto.
  - intros msg HM. unfold is_message. assert (E : run_macro 127 msg one LOGS here_ [123; 48; 125] [AString [120]] no_access 13 true =
      Ok (World [log start_logger 2 here_ (ignored_text ++ msg) true] 0)) by (vm_compute; reflexivity).
    rewrite E. cbn [nth_error loggers]. change (sink (log start_logger 2 here_ (ignored_text ++ msg) true)) with [Record 5 2 here_ (firstn 100 (ignored_text ++ msg))].
    cbn [map m_message]. rewrite firstn_all2; [reflexivity|]. rewrite app_length. unfold ignored_text. cbn [length]. lia.
Qed.
(** An argument that is not used: LOGS("x", "y") shows it in place of the error. *)
Theorem system_unused_refuted : exists fmt args, (exists ps ss, format_string (map type_of_arg args) fmt ps ss) /\
  forall msg, is_message (run_macro 127 msg one LOGS here_ fmt args no_access 13 true) [120; 58; 32; 121].
Proof.
  exists [120], [AString [121]]. split.
  - assert (H : exists ss, parse_format 8 (map type_of_arg [AString [121]]) [120] = Ok (Some ss)) by (eexists; vm_compute; reflexivity).
    destruct H as (ss & H). apply parse_format_exact in H; [|lia|reflexivity|chars]. destruct H as (ps & H). eauto.
  - intros msg. vm_compute. reflexivity.
Qed.
(** 64 fields, the most a format string may have: LOGS adds one and is refused. *)
Theorem system_fields_refuted : exists fmt args, (exists ps ss, format_string (map type_of_arg args) fmt ps ss /\
    Forall (fun r => r = None) (all_refs ps) /\ length (all_refs ps) = length args) /\
  forall msg, Z.of_nat (length msg) < 50 -> is_message (run_macro 127 msg one LOGS here_ fmt args no_access 13 true) (ignored_text ++ msg).
Proof.
  exists (concat (repeat [123; 125] 64)), (repeat (AString []) 64). split.
  - assert (AT : forall n, 0 <= n < 64 -> arg_type (map type_of_arg (repeat (AString []) 64)) n = Some PString).
    { intros n H. unfold arg_type. rewrite map_length, repeat_length. rewrite (proj2 (Z.ltb_lt _ _)) by lia.
      rewrite lookup_nth, nth_error_map. rewrite (List.nth_error_repeat (AString [])) by lia. reflexivity. }
    set (params := map type_of_arg (repeat (AString []) 64)) in *. clearbody params.
    assert (G : forall k start n, 0 <= n -> n + Z.of_nat k = 64 -> exists ss, pieces params start n (concat (repeat [123; 125] k)) (repeat (Replace (Field None None)) k) ss /\ length ss = k).
    { induction k as [|k IH]; intros start n HN E; cbn [repeat concat]; [exists []; split; [constructor|reflexivity]|].
      destruct (IH (start + Z.of_nat (length (field_text (Field None None)))) (n + count_auto (field_refs (Field None None))) ltac:(unfold count_auto; cbn; lia) ltac:(unfold count_auto; cbn [field_refs f_position f_options automatic filter length]; lia)) as (ss & P & L).
      eexists. split; [|shelve]. change [123; 125] with (field_text (Field None None)). apply (pieces_field _ _ _ _ PString); [split; exact I| |exact P].
      split; [|exact I]. cbn [f_position position_of]. apply AT. lia.
      Unshelve. cbn [length]. now rewrite L. }
    destruct (G 64%nat 0 0 ltac:(lia) eq_refl) as (ss & P & L). exists (repeat (Replace (Field None None)) 64), ss.
    assert (R : Forall (fun r => r = None) (all_refs (repeat (Replace (Field None None)) 64))) by (repeat constructor).
    split; [split; [exact P|split; [left; exact R|rewrite L; apply le_n]]|]. split; [exact R|reflexivity].
  - intros msg HM. unfold is_message.
    assert (E : run_macro 127 msg one LOGS here_ (concat (repeat [123; 125] 64)) (repeat (AString []) 64) no_access 13 true =
      Ok (World [log start_logger 2 here_ (ignored_text ++ msg) true] 0)) by (vm_compute; reflexivity).
    rewrite E. cbn [nth_error loggers]. change (sink (log start_logger 2 here_ (ignored_text ++ msg) true)) with [Record 5 2 here_ (firstn 100 (ignored_text ++ msg))].
    cbn [map m_message]. rewrite firstn_all2; [reflexivity|]. rewrite app_length. unfold ignored_text. cbn [length]. lia.
Qed.

(** * Examples *)
Example macro_text : is_message (run_macro 127 [] one LOGI here_ [97; 61; 123; 125] [AInteger 32 true (-5)] no_access 13 true) [97; 61; 45; 53].
Proof. vm_compute. reflexivity. Qed.
Example system_text : is_message (run_macro 127 [] one LOGS here_ [97; 61; 123; 125] [AInteger 32 true (-5)] no_access 13 true) [97; 61; 45; 53; 58; 32; 40; 49; 51; 41; 32; 78; 111].
Proof. vm_compute. reflexivity. Qed.
Example macro_hypotheses : default_is one start_logger false /\ exists ps ss, format_string (map type_of_arg [AInteger 32 true (-5)]) [97; 61; 123; 125] ps ss /\
  Forall (fun r => r = None) (all_refs ps) /\ length (all_refs ps) = 1%nat /\ (length ss < 64)%nat.
Proof.
  split; [split; reflexivity|]. exists [Literal 97; Literal 61; Replace (Field None None)]. eexists. split.
  - split; [|split; [left; repeat constructor|]].
    + constructor; [lia|lia|]. constructor; [lia|lia|]. change [123; 125] with (field_text (Field None None) ++ []). apply (pieces_field _ _ _ _ PIntegral); [split; exact I| |constructor].
      split; [reflexivity|exact I].
    + cbn. lia.
  - split; [repeat constructor|]. split; [reflexivity|cbn; lia].
Qed.
Example macro_failed : run_macro 127 [] (World [start_logger; Logger true 5 100 []] 1) LOGE here_ [97] [] no_access 13 true = Ok (World [start_logger; Logger true 5 100 []] 1).
Proof. vm_compute. reflexivity. Qed.

Print Assumptions log_macro_system.
