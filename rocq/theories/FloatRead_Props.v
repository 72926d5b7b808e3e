(** C70: converting text to floating-point numbers. *)
From Coq Require Import SpecFloat QArith Qabs Qpower Qfield Lqa.
From Verif Require Import Common Format_Spec Float_Spec Float_Proofs Json_Model JsonFloat_Model JsonFloat_Props FloatRead_Spec FloatRead_Model FloatRead_Proofs FloatRead_Text_Proofs.
Local Open Scope Z_scope.

(** The finite number nearest to a rational one below the limit exists, and (with its sign) is unique. *)
Theorem nearest_exists : forall ff q, format_ok ff -> (0 <= q)%Q -> (q < limit ff)%Q -> exists f, nearest ff q f /\ sign_of f = false /\ forall g, nearest ff q g -> sign_of g = false -> g = f.
Proof.
  intros ff [n d] HF H0 HL. assert (Hn : 0 <= n) by (unfold Qle in H0; cbn in H0; lia). destruct (round_correct ff n (Zpos d) HF Hn ltac:(lia)) as (R & _).
  change (ratio n (Zpos d)) with (n # d) in R. destruct (R HL) as (f & F1 & F2 & F3). exists f. split; [assumption|]. split; [destruct (round_magnitude ff n (Zpos d)); [contradiction|now subst..]|assumption].
Qed.

(** With std::from_chars: exactly the texts of [charconv_text], and what they stand for. *)
Theorem charconv_exact : forall ff tiny s f, format_ok ff -> underflow_policy ff tiny -> (convert_charconv ff tiny s = Some f <-> charconv_text ff tiny s f).
Proof.
  intros ff tiny s f HF HT. rewrite charconv_core. pose proof (core_spec ff tiny scan_decimal decimal_text HF HT decimal_scanner (fun q s H => or_introl H)) as C. unfold charconv_text.
  destruct (after 45 s) as [r|] eqn:E.
  - apply after_some in E. subst s. rewrite C. split.
    + intros (g & G1 & ->). right. exists r, g. auto.
    + intros [H|(r' & g & E & G1 & ->)]; [exfalso; apply stands_wider, stands_start in H; destruct H as (c & r' & E & HC); injection E as <- _; lia|]. injection E as <-. exists g. auto.
  - rewrite C. split.
    + intros (g & G1 & ->). now left.
    + intros [H|(r' & g & -> & _)]; [exists f; auto|]. discriminate E.
Qed.
(** With std::stof, std::stod and std::stold. *)
Theorem stod_exact : forall ff tiny s f, format_ok ff -> underflow_policy ff tiny -> (convert_stod ff tiny s = Some f <-> strtod_text ff tiny s f).
Proof.
  intros ff tiny s f HF HT. rewrite stod_core. pose proof (core_spec ff tiny _ any_text HF HT any_scanner (fun q s H => H)) as C.
  assert (SP : forall c, is_space c = true <-> space c) by (intros c; unfold is_space, space; rewrite orb_true_iff, andb_true_iff, Z.eqb_eq, !Z.leb_le; lia).
  split.
  - destruct (span is_space s) as [w r0] eqn:E0. destruct (span_sound _ _ _ _ E0) as (-> & FW & _). destruct (scan_sign r0) as [neg r] eqn:E1. destruct (sign_sound _ _ _ E1) as (sign & -> & HS).
    rewrite C. intros (g & G1 & ->). exists w, sign, r, g. split; [eapply Forall_impl; [|exact FW]; intros c; apply SP|]. split; [reflexivity|]. split; [assumption|]. destruct HS as [(-> & HS)|(-> & HS)]; auto.
  - intros (w & sign & r & g & FW & -> & G1 & HS). destruct (stands_start _ _ _ _ G1) as (c & r' & ER & HC).
    assert (FW' : Forall (fun c => is_space c = true) w) by (eapply Forall_impl; [|exact FW]; intros z; apply SP).
    assert (NS : forall z, 43 <= z -> is_space z = false) by (intros z Hz; destruct (is_space z) eqn:E; [apply SP in E; unfold space in E; lia|reflexivity]).
    rewrite span_complete; [|assumption|destruct HS as [([-> | ->] & _)|(-> & _)]; [rewrite ER|..]; cbn [app stops]; apply NS; lia].
    assert (ESG : scan_sign (sign ++ r) = (match sign with [45] => true | _ => false end, r)).
    { destruct HS as [([-> | ->] & _)|(-> & _)]; [|reflexivity|reflexivity]. cbn [app]. apply sign_none. rewrite ER. lia. }
    rewrite ESG, C. exists g. split; [assumption|]. destruct HS as [([-> | ->] & ->)|(-> & ->)]; reflexivity.
Qed.

(** What std::from_chars reads, std::stod reads too, and as the same number. *)
Theorem stod_reads_more : forall ff tiny s f, format_ok ff -> underflow_policy ff tiny -> convert_charconv ff tiny s = Some f -> convert_stod ff tiny s = Some f.
Proof.
  intros ff tiny s f HF HT H. apply charconv_exact in H; [|assumption..]. apply stod_exact; [assumption..|]. destruct H as [H|(r & g & -> & H & ->)].
  - exists [], [], s, f. apply stands_wider in H. split; [constructor|]. split; [reflexivity|]. split; [assumption|]. left. auto.
  - exists [], [45], r, g. apply stands_wider in H. split; [constructor|]. split; [reflexivity|]. split; [assumption|]. now right.
Qed.
(** " 1", "+1" and "0x1" are numbers in one build only. *)
Theorem conversion_builds_refuted : forall ff tiny s, format_ok ff -> underflow_policy ff tiny -> s = [32; 49] \/ s = [43; 49] \/ s = [48; 120; 49] ->
  convert_charconv ff tiny s = None /\ exists f, convert_stod ff tiny s = Some f /\ nearest ff 1 f.
Proof.
  intros ff tiny s HF HT HS. split; [destruct HS as [-> |[-> | ->]]; [reflexivity|reflexivity|]|].
  - rewrite charconv_core. unfold core. cbn -[read_value]. reflexivity.
  - assert (P1 : 1 < prec ff) by apply HF. assert (HL : (1 < limit ff)%Q /\ (smallest_normal ff <= 1)%Q).
    { unfold format_ok in HF. split.
      - unfold limit. change ((2 # 1) ^ (emax ff - prec ff))%Q with (p2 (emax ff - prec ff)). assert (Q1 : (p2 1 <= p2 (emax ff - prec ff))%Q) by (apply p2_le; lia). change (p2 1) with (2 # 1)%Q in Q1.
        assert (Q2 : (inject_Z 2 <= inject_Z (2 ^ prec ff))%Q) by (apply inj_le; change 2 with (2 ^ 1) at 1; apply Z.pow_le_mono_r; lia). change (inject_Z 2) with (2 # 1)%Q in Q2.
        assert (Q3 : ((2 # 1) <= inject_Z (2 ^ prec ff) - (1 # 2) + (1#2))%Q) by lra.
        assert (Q4 : ((3 # 2) * (2 # 1) <= (inject_Z (2 ^ prec ff) - (1 # 2)) * p2 (emax ff - prec ff))%Q).
        { apply Qle_trans with ((3 # 2) * p2 (emax ff - prec ff))%Q; [lra|]. apply Qmult_le_compat_r; [lra|]. pose proof (p2_pos (emax ff - prec ff)). lra. }
        lra.
      - unfold smallest_normal. change 1%Q with (p2 0). apply p2_le. unfold emin. lia. }
    destruct HL as (HL & HN). destruct (nearest_exists ff 1 HF ltac:(lra) HL) as (f & F1 & F2 & _). exists f. split; [|assumption].
    assert (T1 : tiny 1%Q = false) by (apply HT; assumption).
    assert (DT : decimal_text 1 [49]). { exists [49], [], 0, [49], []. split; [reflexivity|]. split; [|split; [now left|reflexivity]]. split; [constructor; [left; lia|constructor]|]. split; [constructor|]. split; [discriminate|now left]. }
    apply stod_exact; [assumption..|]. destruct HS as [-> |[-> | ->]].
    + exists [32], [], [49], f. split; [constructor; [now left|constructor]|]. split; [reflexivity|]. split; [|left; auto]. left. exists 1%Q. split; [now left|]. auto.
    + exists [], [43], [49], f. split; [constructor|]. split; [reflexivity|]. split; [|left; auto]. left. exists 1%Q. split; [now left|]. auto.
    + exists [], [], [48; 120; 49], f. split; [constructor|]. split; [reflexivity|]. split; [|left; auto]. left. exists 1%Q. split; [|auto]. right.
      exists [49], [], 0, [49], []. split; [now left|]. split; [|split; [now left|reflexivity]]. split; [constructor; [left; left; lia|constructor]|]. split; [constructor|]. split; [discriminate|now left].
Qed.

(** ** The hypotheses can be met *)
Example some_policy : underflow_policy binary64 (fun _ => false) /\ format_ok binary64 /\ format_ok binary32.
Proof. split; [split; [reflexivity|split; reflexivity]|]. split; split; reflexivity. Qed.
(** "-1.5e2", ".5", "1e400", "1.5x" and " 0x1.8P1" *)
Example texts_read : convert_charconv binary64 (fun _ => false) [45; 49; 46; 53; 101; 50] = Some (S754_finite true (Z.to_pos (150 * 2 ^ 45)) (-45))
  /\ convert_charconv binary64 (fun _ => false) [46; 53] = Some (S754_finite false (Z.to_pos (2 ^ 52)) (-53))
  /\ convert_charconv binary64 (fun _ => false) [49; 101; 52; 48; 48] = None
  /\ convert_charconv binary64 (fun _ => false) [49; 46; 53; 120] = None
  /\ convert_stod binary64 (fun _ => false) [32; 48; 120; 49; 46; 56; 80; 49] = Some (S754_finite false (Z.to_pos (3 * 2 ^ 51)) (-51)).
Proof. vm_compute. auto 10. Qed.
(** A tie: 2^53 + 1 lies between 2^53 and 2^53 + 2, and the mantissa of the first is even. *)
Example tie_to_even : convert_charconv binary64 (fun _ => false) [57; 48; 48; 55; 49; 57; 57; 50; 53; 52; 55; 52; 48; 57; 57; 51] = Some (S754_finite false (Z.to_pos (2 ^ 52)) 1).
Proof. vm_compute. reflexivity. Qed.
