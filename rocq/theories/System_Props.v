(** C59: the system monitor reports what the operating system says. *)
From Coq Require Import Reals Lra.
From Flocq Require Import Core.
From Flocq Require Import IEEE754.BinarySingleNaN.
From Verif Require Import Common System_Model System_Spec.

(** ** Doubles *)
Lemma int_format z : (Z.abs z <= 2 ^ 53)%Z -> generic_format radix2 (FLT_exp (3 - 1024 - 53) 53) (IZR z).
Proof.
  intros HZ. destruct (Z.eq_dec (Z.abs z) (2 ^ 53)) as [E|NE].
  - assert (HG : generic_format radix2 (FLT_exp (3 - 1024 - 53) 53) (bpow radix2 53)) by (apply generic_format_bpow; unfold FLT_exp; lia).
    change (bpow radix2 53) with (IZR (2 ^ 53)) in HG. destruct (Z.abs_or_opp_abs z) as [A|A]; rewrite A, E; [assumption|]. rewrite opp_IZR. now apply generic_format_opp.
  - apply generic_format_FLT. exists (Float radix2 z 0); unfold F2R; cbn [Fnum Fexp]; [cbn; ring| |lia]. change (radix2 ^ 53)%Z with (2 ^ 53)%Z. lia.
Qed.
Lemma nearest_int z : (Z.abs z <= 2 ^ 53)%Z -> nearest (IZR z) = IZR z.
Proof. intros H. apply round_generic; [apply valid_rnd_N|]. now apply int_format. Qed.
Lemma nearest_le x y : (x <= y)%R -> (nearest x <= nearest y)%R.
Proof. intros H. apply round_le; [apply FLT_exp_valid; reflexivity|apply valid_rnd_N|assumption]. Qed.
Lemma fits x : (0 <= x <= IZR (2 ^ 53))%R -> Rlt_bool (Rabs (nearest x)) (bpow radix2 1024) = true.
Proof.
  intros (H1 & H2). apply Rlt_bool_true. apply nearest_le in H1, H2. rewrite nearest_int in H1, H2 by (cbn; lia). rewrite Rabs_pos_eq by assumption.
  eapply Rle_lt_trans; [exact H2|]. change (IZR (2 ^ 53)) with (bpow radix2 53). apply bpow_lt. lia.
Qed.
Lemma to_double_int z : 0 <= z <= 2 ^ 53 -> is_number (to_double z) (IZR z).
Proof.
  intros HZ. pose proof (binary_normalize_correct 53 1024 prec_pos prec_emax mode_NE z 0 false) as H. cbv zeta in H.
  replace (F2R (Float radix2 z 0)) with (IZR z) in H by (unfold F2R; cbn; ring).
  change (round radix2 (SpecFloat.fexp 53 1024) (round_mode mode_NE) (IZR z)) with (nearest (IZR z)) in H.
  rewrite fits in H by (split; apply IZR_le; lia). destruct H as (H1 & H2 & _). split; [assumption|]. rewrite <- (nearest_int z) by lia. exact H1.
Qed.
Lemma mul_number x y a b : is_number x a -> is_number y b -> (0 <= a * b <= IZR (2 ^ 53))%R -> is_number (mul x y) (nearest (a * b)).
Proof.
  intros (F1 & E1) (F2 & E2) HB. pose proof (Bmult_correct 53 1024 prec_pos prec_emax mode_NE x y) as H. rewrite E1, E2 in H.
  change (round radix2 (SpecFloat.fexp 53 1024) (round_mode mode_NE) (a * b)) with (nearest (a * b)) in H. rewrite (fits _ HB) in H. destruct H as (H1 & H2 & _). split; [|exact H1]. unfold mul. rewrite H2, F1, F2. reflexivity.
Qed.
Lemma div_number x y a b : is_number x a -> is_number y b -> b <> 0%R -> (0 <= a / b <= IZR (2 ^ 53))%R -> is_number (div x y) (nearest (a / b)).
Proof.
  intros (F1 & E1) (F2 & E2) HN HB. pose proof (Bdiv_correct 53 1024 prec_pos prec_emax mode_NE x y) as H. rewrite E1, E2 in H. specialize (H HN).
  change (round radix2 (SpecFloat.fexp 53 1024) (round_mode mode_NE) (a / b)) with (nearest (a / b)) in H. rewrite (fits _ HB) in H. destruct H as (H1 & H2 & _). split; [|exact H1]. unfold div. now rewrite H2.
Qed.
Lemma quotient_bounds (a b c : R) : (0 <= a)%R -> (0 < b)%R -> (a <= c * b)%R -> (0 <= a / b <= c)%R.
Proof.
  intros HA HB HC. split; [unfold Rdiv; apply Rmult_le_pos; [assumption|left; now apply Rinv_0_lt_compat]|]. apply Rmult_le_reg_r with b; [assumption|]. unfold Rdiv. rewrite Rmult_assoc, Rinv_l, Rmult_1_r by lra. assumption.
Qed.
(** 100.0 * n / d *)
Lemma percentage n d c : 0 <= n -> 0 < d -> 100 * n <= 2 ^ 53 -> d <= 2 ^ 53 -> n <= c * d -> 0 <= 100 * c <= 2 ^ 53 ->
  is_number (div (mul (to_double 100) (to_double n)) (to_double d)) (nearest (100 * IZR n / IZR d)) /\ (0 <= nearest (100 * IZR n / IZR d) <= 100 * IZR c)%R.
Proof.
  intros H1 H2 H3 H4 H5 H6.
  assert (P1 := to_double_int 100 ltac:(lia)). assert (P2 := to_double_int n ltac:(lia)). assert (P3 := to_double_int d ltac:(lia)).
  assert (E : (100 * IZR n)%R = IZR (100 * n)) by now rewrite mult_IZR.
  assert (P4 : is_number (mul (to_double 100) (to_double n)) (100 * IZR n)).
  { rewrite E, <- (nearest_int (100 * n)), <- E by lia. apply mul_number; [assumption..|]. rewrite E. split; apply IZR_le; lia. }
  assert (HD : (0 < IZR d)%R) by (apply IZR_lt; assumption).
  assert (HB : (0 <= 100 * IZR n / IZR d <= IZR (100 * c))%R).
  { apply quotient_bounds; [rewrite E; apply IZR_le; lia|assumption|]. rewrite E, <- mult_IZR. apply IZR_le. lia. }
  split.
  - apply div_number; [assumption..|lra|]. destruct HB as (B1 & B2). split; [assumption|]. eapply Rle_trans; [exact B2|]. apply IZR_le. lia.
  - destruct HB as (B1 & B2). apply nearest_le in B1, B2. rewrite nearest_int in B1, B2 by lia. rewrite mult_IZR in B2. split; assumption.
Qed.

(** ** Text *)
Lemma lines_file : forall ls, Forall one_line ls -> lines_from [] (file_of ls) = ls.
Proof.
  assert (HL : forall l a r, one_line l -> lines_from a (l ++ 10 :: r) = (a ++ l) :: lines_from [] r).
  { induction l as [|c l IH]; intros a r HN; cbn; [now rewrite app_nil_r|]. destruct (Z.eqb_spec c 10) as [->|NE]; [elim HN; now left|]. rewrite IH by (intros HI; apply HN; now right). now rewrite <- app_assoc. }
  induction ls as [|l ls IH]; intros HF; [reflexivity|]. inversion HF; subst. unfold file_of in *. cbn [map concat]. rewrite <- app_assoc. cbn [app]. rewrite HL by assumption. now rewrite IH.
Qed.
Lemma lines_text ls content : text_of ls content -> Forall one_line ls -> lines_from [] content = ls.
Proof.
  intros [-> |(E & HL)] HF; [now apply lines_file|].
  assert (HN : forall l a, lines_from a (l ++ [10]) <> []).
  { induction l as [|c l IH]; intros a; cbn; [discriminate|]. destruct (c =? 10); [discriminate|apply IH]. }
  assert (HG : forall l a, last (lines_from a (l ++ [10])) [] <> [] -> lines_from a (l ++ [10]) = lines_from a l).
  { induction l as [|c l IH]; intros a HA; cbn in *; [destruct a; [now elim HA|reflexivity]|]. destruct (c =? 10); [|now apply IH].
    f_equal. apply IH. specialize (HN l []). destruct (lines_from [] (l ++ [10])) eqn:EL; [now elim HN|exact HA]. }
  rewrite <- HG; rewrite E, lines_file by assumption; [reflexivity|assumption].
Qed.
Lemma strip_app p r : strip p (p ++ r) = Some r.
Proof. induction p as [|c p IH]; [reflexivity|]. cbn. now rewrite Z.eqb_refl. Qed.
Lemma strip_none p : forall l, ~ starts_with p l -> strip p l = None.
Proof.
  induction p as [|c p IH]; intros l HN; [elim HN; now exists l|]. destruct l as [|x l]; [reflexivity|]. cbn. destruct (Z.eqb_spec c x) as [->|]; [|reflexivity]. apply IH. intros (r & ->). apply HN. now exists r.
Qed.
Definition value (d : list Z) (a : Z) : Z := fold_left (fun a c => a * 10 + (c - 48)) d a.
Lemma numeral_value z d : numeral z d -> d <> [] /\ Forall (fun c => is_digit c = true) d /\ value d 0 = z /\ 0 <= z.
Proof.
  assert (HD : forall x, 0 <= x <= 9 -> is_digit (48 + x) = true) by (intros x HX; unfold is_digit; rewrite andb_true_iff, !Z.leb_le; lia).
  induction 1 as [d HB|z l d HN (I1 & I2 & I3 & I4) HB].
  - split; [discriminate|]. split; [constructor; [now apply HD|constructor]|]. unfold value. cbn [fold_left]. lia.
  - split; [now destruct l|]. split; [apply Forall_app; split; [assumption|]; constructor; [now apply HD|constructor]|]. unfold value in *. rewrite fold_left_app, I3. cbn [fold_left]. lia.
Qed.
Lemma scan_digits_app d : Forall (fun c => is_digit c = true) d -> forall a r, no_digit_first r -> scan_digits a (d ++ r) = (value d a, r).
Proof.
  induction 1 as [|c d HC HF IH]; intros a r HR; cbn [app scan_digits].
  - destruct r as [|c r]; [reflexivity|]. cbn [scan_digits no_digit_first] in *. destruct (is_digit c) eqn:E; [|reflexivity]. unfold is_digit in E. rewrite andb_true_iff, !Z.leb_le in E. contradiction.
  - rewrite HC. now apply IH.
Qed.
Lemma skip_gap g r : Forall (fun c => c = 32 \/ c = 9) g -> skip_space (g ++ r) = skip_space r.
Proof. induction 1 as [|c g HC HF IH]; [reflexivity|]. cbn [app skip_space]. destruct HC as [-> | ->]; exact IH. Qed.
Lemma scan_number g d z r : Forall (fun c => c = 32 \/ c = 9) g -> numeral z d -> z < 2 ^ 64 -> no_digit_first r -> scan_u64 (g ++ d ++ r) = Ok (Some (z, r)).
Proof.
  intros HG HN HZ HR. destruct (numeral_value _ _ HN) as (H1 & H2 & H3 & H4). unfold scan_u64. rewrite skip_gap by assumption. destruct d as [|c d]; [now elim H1|].
  pose proof (Forall_inv H2) as HC. cbn beta in HC. pose proof HC as HD. unfold is_digit in HD. rewrite andb_true_iff, !Z.leb_le in HD.
  assert (ES : skip_space ((c :: d) ++ r) = (c :: d) ++ r).
  { cbn [app skip_space]. unfold is_space. destruct (Z.eqb_spec c 32); [lia|]. destruct (Z.leb_spec 9 c); [|lia]. destruct (Z.leb_spec c 13); [lia|]. reflexivity. }
  rewrite ES. set (l := (c :: d) ++ r). assert (EL : l = c :: d ++ r) by reflexivity.
  assert (E1 : match l with 43 :: x | 45 :: x => x | _ => l end = l).
  { rewrite EL. destruct c as [|p|p]; try lia. do 6 (destruct p as [p|p|]; try lia); reflexivity. }
  assert (E2 : match l with 45 :: _ => true | _ => false end = false).
  { rewrite EL. destruct c as [|p|p]; try lia. do 6 (destruct p as [p|p|]; try lia); reflexivity. }
  rewrite E1, E2. rewrite EL at 1. rewrite HC. unfold l. rewrite scan_digits_app by assumption. rewrite H3. destruct (Z.ltb_spec z (2 ^ 64)); [reflexivity|lia].
Qed.
Lemma scan_counters u n s i line : counters_line u n s i line -> u < 2 ^ 64 -> n < 2 ^ 64 -> s < 2 ^ 64 -> i < 2 ^ 64 ->
  exists r, strip s_cpu line = Some r /\ scan_all 4 r = Ok (Some [u; n; s; i]).
Proof.
  intros (g1 & d1 & g2 & d2 & g3 & d3 & g4 & d4 & rest & -> & (_ & G1) & (G2n & G2) & (G3n & G3) & (G4n & G4) & N1 & N2 & N3 & N4 & HR) B1 B2 B3 B4.
  eexists. split; [exact (strip_app s_cpu _)|]. assert (HG : forall g r, g <> [] -> Forall (fun c => c = 32 \/ c = 9) g -> no_digit_first (g ++ r)).
  { intros g r HN HF. destruct g as [|c g]; [now elim HN|]. cbn. apply Forall_inv in HF. lia. }
  cbn [scan_all]. rewrite (scan_number g1 d1 u) by auto. rewrite (scan_number g2 d2 n) by auto. rewrite (scan_number g3 d3 s) by auto. rewrite (scan_number g4 d4 i) by auto. reflexivity.
Qed.
Lemma stat_count u n s i cpus content : stat_file u n s i cpus content -> length (filter cpu_line (read_lines (Some content))) = cpus.
Proof.
  intros (line & each & others & HX & HF & (c & r & EL & EC) & _ & HL & HE & HO). unfold read_lines. rewrite (lines_text _ _ HX) by assumption. clear HX. subst line c. cbn [filter]. replace (cpu_line (cpu ++ 32 :: r)) with false by (unfold cpu_line; rewrite (strip_app s_cpu); reflexivity). cbn iota. rewrite filter_app, app_length. clear HF.
  assert (E1 : filter cpu_line each = each).
  { clear HL. induction HE as [|l each (d & q & -> & HD) HE IH]; [reflexivity|]. cbn [filter]. unfold cpu_line at 1. rewrite (strip_app s_cpu). destruct (Z.eqb_spec d 32); [lia|]. cbn [negb]. now rewrite IH. }
  assert (E2 : filter cpu_line others = []).
  { induction HO as [|l others HN HO IH]; [reflexivity|]. cbn [filter]. unfold cpu_line at 1. rewrite (strip_none s_cpu) by assumption. exact IH. }
  rewrite E1, E2. cbn. lia.
Qed.
Lemma stat_scan u n s i cpus content : stat_file u n s i cpus content -> u < 2 ^ 64 -> n < 2 ^ 64 -> s < 2 ^ 64 -> i < 2 ^ 64 -> scan_stat (Some content) = Ok (Some [u; n; s; i]).
Proof.
  intros (line & each & others & HX & HF & _ & HC & _) B1 B2 B3 B4. unfold scan_stat, read_lines. rewrite (lines_text _ _ HX) by assumption. destruct (scan_counters _ _ _ _ _ HC B1 B2 B3 B4) as (r & -> & E). exact E.
Qed.
Lemma status_scan kb content : status_file kb content -> kb < 2 ^ 64 -> scan_status (read_lines (Some content)) = Ok kb.
Proof.
  intros (before & g & d & rest & after & HX & HF & (_ & HG) & HN & HR & HB) B. unfold read_lines. rewrite (lines_text _ _ HX) by assumption. clear HX HF. induction HB as [|l before HL HB IH]; cbn [app scan_status].
  - rewrite (strip_app s_vmrss). rewrite (scan_number g d kb) by assumption. reflexivity.
  - rewrite (strip_none s_vmrss) by assumption. exact IH.
Qed.
Lemma unreadable_lines t : unreadable t -> read_lines t = [].
Proof. now intros [-> | ->]. Qed.

(** ** One poll *)
Definition counters (m : monitor) : list Z := [prev_user m; prev_nice m; prev_system m; prev_idle m].
Definition clocks (m : monitor) : Z * Z * Z := (prev_time m, prev_utime m, prev_stime m).
(** The CPU count. *)
Definition new_count (m : monitor) (x : sample) : Z := let c := u32 (Z.of_nat (length (filter cpu_line (read_lines (stat1 x))))) in if c =? 0 then cpu_count m else c.
Lemma poll_split m x m' : poll m x = Ok m' -> exists m1 m2, m1 = update_cpu_count m (stat1 x) /\ update_system_usage m1 (stat2 x) = Ok m2 /\
  update_process_memory (update_memory_usage (update_process_usage m2 (times x)) (sysinfo x)) (status x) = Ok m'.
Proof. unfold poll. intros H. destruct (update_system_usage _ _) as [m2|] eqn:E; [|discriminate H]. eauto. Qed.
Lemma count_view m t : let m1 := update_cpu_count m t in (system_usage m1, process_usage m1, total_memory m1, memory_usage m1, process_memory m1, counters m1, clocks m1) = (system_usage m, process_usage m, total_memory m, memory_usage m, process_memory m, counters m, clocks m).
Proof. unfold update_cpu_count. now destruct (_ =? 0). Qed.
Lemma system_view m t m1 : update_system_usage m t = Ok m1 -> (cpu_count m1, process_usage m1, total_memory m1, memory_usage m1, process_memory m1, clocks m1) = (cpu_count m, process_usage m, total_memory m, memory_usage m, process_memory m, clocks m).
Proof. unfold update_system_usage. destruct (scan_stat t) as [[[|u [|n [|s [|i [|]]]]]|]|]; cbn [bind]; try discriminate; injection 1 as <-; reflexivity. Qed.
Lemma process_view m t : let m1 := update_process_usage m t in (cpu_count m1, system_usage m1, total_memory m1, memory_usage m1, process_memory m1, counters m1) = (cpu_count m, system_usage m, total_memory m, memory_usage m, process_memory m, counters m).
Proof. unfold update_process_usage. now destruct t as [[[now u] s]|]. Qed.
Lemma memory_view m t : let m1 := update_memory_usage m t in (cpu_count m1, system_usage m1, process_usage m1, process_memory m1, counters m1, clocks m1) = (cpu_count m, system_usage m, process_usage m, process_memory m, counters m, clocks m).
Proof. unfold update_memory_usage. now destruct t as [[[now u] s]|]. Qed.
Lemma status_view m t m1 : update_process_memory m t = Ok m1 -> (cpu_count m1, system_usage m1, process_usage m1, total_memory m1, memory_usage m1, counters m1, clocks m1) = (cpu_count m, system_usage m, process_usage m, total_memory m, memory_usage m, counters m, clocks m).
Proof. unfold update_process_memory. destruct (scan_status _) as [z|]; cbn [bind]; [|discriminate]. destruct (z =? 0); now injection 1 as <-. Qed.

Lemma poll_count m x m' : poll m x = Ok m' -> cpu_count m' = new_count m x.
Proof.
  intros H. destruct (poll_split _ _ _ H) as (m1 & m2 & E1 & E2 & E3). apply status_view in E3. apply system_view in E2.
  pose proof (memory_view (update_process_usage m2 (times x)) (sysinfo x)) as V1. pose proof (process_view m2 (times x)) as V2. cbv zeta in V1, V2.
  transitivity (cpu_count m1); [congruence|]. subst m1. unfold update_cpu_count, new_count. now destruct (_ =? 0).
Qed.
Lemma poll_system m x m' : poll m x = Ok m' -> exists m1 m2, counters m1 = counters m /\ system_usage m1 = system_usage m /\ update_system_usage m1 (stat2 x) = Ok m2 /\ counters m' = counters m2 /\ system_usage m' = system_usage m2.
Proof.
  intros H. destruct (poll_split _ _ _ H) as (m1 & m2 & E1 & E2 & E3). apply status_view in E3. exists m1, m2.
  pose proof (memory_view (update_process_usage m2 (times x)) (sysinfo x)) as V1. pose proof (process_view m2 (times x)) as V2. pose proof (count_view m (stat1 x)) as V3. cbv zeta in V1, V2, V3. rewrite <- E1 in V3.
  split; [congruence|]. split; [congruence|]. split; [assumption|]. split; congruence.
Qed.
Lemma poll_process m x m' : poll m x = Ok m' -> exists m1, cpu_count m1 = cpu_count m' /\ clocks m1 = clocks m /\ process_usage m1 = process_usage m /\
  clocks m' = clocks (update_process_usage m1 (times x)) /\ process_usage m' = process_usage (update_process_usage m1 (times x)).
Proof.
  intros H. destruct (poll_split _ _ _ H) as (m1 & m2 & E1 & E2 & E3). apply status_view in E3. apply system_view in E2. exists m2.
  pose proof (memory_view (update_process_usage m2 (times x)) (sysinfo x)) as V1. pose proof (process_view m2 (times x)) as V2. pose proof (count_view m (stat1 x)) as V3. cbv zeta in V1, V2, V3. rewrite <- E1 in V3.
  repeat split; congruence.
Qed.
Lemma poll_memory m x m' : poll m x = Ok m' -> (total_memory m', memory_usage m') =
  match sysinfo x with Some (t, f, un) => (u64 (t * un), u64 (u64 (t * un) - u64 (f * un))) | None => (total_memory m, memory_usage m) end.
Proof.
  intros H. destruct (poll_split _ _ _ H) as (m1 & m2 & E1 & E2 & E3). apply status_view in E3. apply system_view in E2. pose proof (process_view m2 (times x)) as V2. pose proof (count_view m (stat1 x)) as V3. cbv zeta in V2, V3. rewrite <- E1 in V3.
  transitivity (total_memory (update_memory_usage (update_process_usage m2 (times x)) (sysinfo x)), memory_usage (update_memory_usage (update_process_usage m2 (times x)) (sysinfo x))); [congruence|].
  unfold update_memory_usage. destruct (sysinfo x) as [[[t f] un]|]; [reflexivity|]. congruence.
Qed.
Lemma poll_rss m x m' : poll m x = Ok m' -> exists z, scan_status (read_lines (status x)) = Ok z /\ process_memory m' = if z =? 0 then process_memory m else u64 (Z.shiftl z 10).
Proof.
  intros H. destruct (poll_split _ _ _ H) as (m1 & m2 & E1 & E2 & E3). apply system_view in E2.
  pose proof (memory_view (update_process_usage m2 (times x)) (sysinfo x)) as V1. pose proof (process_view m2 (times x)) as V2. pose proof (count_view m (stat1 x)) as V3. cbv zeta in V1, V2, V3. rewrite <- E1 in V3.
  unfold update_process_memory in E3. destruct (scan_status _) as [z|]; [|discriminate E3]. cbn [bind] in E3. exists z. split; [reflexivity|]. injection E3 as <-. destruct (z =? 0); [congruence|reflexivity].
Qed.

(** ** The life of a monitor *)
(** The monitor was created when /proc/stat had the content [stat0], and has since made the polls [xs] (its task runner
    always took the next poll); another poll is queued. *)
Definition monitored (stat0 : text) (xs : list sample) (m : monitor) : Prop :=
  exists m0, create stat0 true = Some m0 /\ life m0 true (map (fun x => (x, true)) xs) = Ok (m, true).
Fixpoint polls (m : monitor) (xs : list sample) : res monitor := match xs with [] => Ok m | x :: r => let! m := poll m x in polls m r end.
Lemma new_count_pos m x : 0 < cpu_count m -> 0 < new_count m x.
Proof. intros H. unfold new_count. destruct (Z.eqb_spec (u32 (Z.of_nat (length (filter cpu_line (read_lines (stat1 x)))))) 0) as [|N]; [assumption|]. unfold u32, wrap in *. assert (0 <= Z.of_nat (length (filter cpu_line (read_lines (stat1 x)))) mod 2 ^ 32) by (apply Z.mod_pos_bound; reflexivity). lia. Qed.
Lemma life_polls : forall xs m, 0 < cpu_count m -> life m true (map (fun x => (x, true)) xs) = let! m := polls m xs in Ok (m, true).
Proof.
  induction xs as [|x xs IH]; intros m HC; [reflexivity|]. cbn [map life polls]. destruct (poll m x) as [m1|] eqn:E; [|reflexivity]. cbn [bind]. apply poll_count in E.
  assert (H1 : 0 < cpu_count m1) by (rewrite E; now apply new_count_pos). unfold poll_later. destruct (Z.ltb_spec 0 (cpu_count m1)); [|lia]. cbn [andb]. now apply IH.
Qed.
Lemma create_pos t b m : create t b = Some m -> 0 < cpu_count m.
Proof. unfold create, poll_later. destruct (Z.ltb_spec 0 (cpu_count (update_cpu_count new_monitor t))) as [L|L]; [|discriminate]. cbn [andb]. destruct b; [|discriminate]. now injection 1 as <-. Qed.
Lemma monitored_polls t xs m : monitored t xs m -> exists m0, create t true = Some m0 /\ polls m0 xs = Ok m.
Proof.
  intros (m0 & HC & HL). exists m0. split; [assumption|]. rewrite life_polls in HL by (eapply create_pos; eassumption). destruct (polls m0 xs); [|discriminate HL]. cbn in HL. congruence.
Qed.
Lemma polls_app : forall a m b, polls m (a ++ b) = let! m := polls m a in polls m b.
Proof. induction a as [|x a IH]; intros m b; [reflexivity|]. cbn [app polls]. destruct (poll m x); [apply IH|reflexivity]. Qed.
Lemma polls_split m a x b m' : polls m (a ++ x :: b) = Ok m' -> exists m1 m2, polls m a = Ok m1 /\ poll m1 x = Ok m2 /\ polls m2 b = Ok m'.
Proof. rewrite polls_app. destruct (polls m a) as [m1|]; [|discriminate]. cbn [bind polls]. destruct (poll m1 x) as [m2|] eqn:E; [|discriminate]. cbn [bind]. eauto 6. Qed.
(** What a number of polls keep. *)
Lemma polls_keep {A} (get : monitor -> A) (P : sample -> Prop) : (forall m x m', poll m x = Ok m' -> P x -> get m' = get m) -> forall b m m', polls m b = Ok m' -> Forall P b -> get m' = get m.
Proof.
  intros HK. induction b as [|x b IH]; intros m m' E HF; [now injection E as <-|]. cbn [polls] in E. destruct (poll m x) as [m1|] eqn:E1; [|discriminate E]. cbn [bind] in E. inversion HF; subst. rewrite (IH _ _ E) by assumption. eauto.
Qed.

(** *** CPUs *)
(** create() fails (returns nullptr) exactly if /proc/stat lists no CPU or the task runner does not take the poll. *)
Theorem monitor_created u n s i cpus content accepted : stat_file u n s i cpus content -> Z.of_nat cpus < 2 ^ 32 ->
  (create (Some content) accepted <> None <-> (0 < cpus)%nat /\ accepted = true) /\ (forall m, create (Some content) accepted = Some m -> cpu_count m = Z.of_nat cpus).
Proof.
  intros HF HB. unfold create, update_cpu_count. rewrite (stat_count _ _ _ _ _ _ HF). unfold u32, wrap. rewrite Z.mod_small by lia. destruct (Z.eqb_spec (Z.of_nat cpus) 0) as [E|E].
  - split; [|discriminate]. split; [intros H; now elim H|]. lia.
  - unfold poll_later. cbn [cpu_count]. destruct (Z.ltb_spec 0 (Z.of_nat cpus)); [|lia]. cbn [andb]. destruct accepted; (split; [split; [intros H0|intros (_ & H0)]|]).
    + split; [lia|reflexivity].
    + discriminate.
    + now injection 1 as <-.
    + now elim H0.
    + discriminate H0.
    + discriminate.
Qed.
Theorem monitor_not_created t accepted : unreadable t -> create t accepted = None.
Proof. intros H. unfold create, update_cpu_count. now rewrite unreadable_lines. Qed.
(** The monitor never stops polling: whatever the polls find, the count stays positive and, if every poll was defined,
    the next poll is queued. *)
Theorem monitor_goes_on t m0 xs m armed : create t true = Some m0 -> life m0 true (map (fun x => (x, true)) xs) = Ok (m, armed) -> armed = true /\ 0 < cpu_count m.
Proof.
  intros HC HL. apply create_pos in HC. rewrite life_polls in HL by assumption. destruct (polls m0 xs) as [m1|] eqn:E; [|discriminate HL]. injection HL as <- <-. split; [reflexivity|].
  clear -HC E. revert m0 HC E. induction xs as [|x xs IH]; intros m0 HC E; [now injection E as <-|]. cbn [polls] in E. destruct (poll m0 x) as [m2|] eqn:E1; [|discriminate E]. cbn [bind] in E. apply (IH m2); [|assumption]. rewrite (poll_count _ _ _ E1). now apply new_count_pos.
Qed.
(** The polls are defined when the files are as proc(5) says, or cannot be read. *)
Definition good_stat (t : text) : Prop := unreadable t \/ exists u n s i cpus c, t = Some c /\ stat_file u n s i cpus c /\ u < 2 ^ 64 /\ n < 2 ^ 64 /\ s < 2 ^ 64 /\ i < 2 ^ 64.
Definition good_status (t : text) : Prop := unreadable t \/ exists kb c, t = Some c /\ status_file kb c /\ kb < 2 ^ 64.
Theorem monitor_defined t m0 xs : create t true = Some m0 -> Forall (fun x => good_stat (stat2 x) /\ good_status (status x)) xs -> exists m, monitored t xs m.
Proof.
  intros HC HF. assert (HP := create_pos _ _ _ HC). assert (HX : exists m, polls m0 xs = Ok m).
  { clear HC HP. revert m0. induction HF as [|x xs (H1 & H2) HF IH]; intros m0; [eexists; reflexivity|]. cbn [polls].
    assert (E1 : exists m1, poll m0 x = Ok m1); [|destruct E1 as (m1 & ->); apply IH].
    unfold poll. assert (E2 : exists m2, update_system_usage (update_cpu_count m0 (stat1 x)) (stat2 x) = Ok m2).
    { unfold update_system_usage. destruct H1 as [H1|(u & n & s & i & cpus & c & -> & H1 & B1 & B2 & B3 & B4)]; [unfold scan_stat; rewrite (unreadable_lines _ H1)|rewrite (stat_scan _ _ _ _ _ _ H1) by assumption]; eexists; reflexivity. }
    destruct E2 as (m2 & ->). cbn [bind]. unfold update_process_memory. destruct H2 as [H2|(kb & c & -> & H2 & B)]; [rewrite (unreadable_lines _ H2)|rewrite (status_scan _ _ H2 B)]; eexists; reflexivity. }
  destruct HX as (m & HX). exists m, m0. split; [assumption|]. rewrite life_polls by assumption. now rewrite HX.
Qed.
(** get_system_cpu_count: the number of CPUs that the last readable /proc/stat listed. *)
Theorem cpu_count_reported t a x b m u n s i cpus c : monitored t (a ++ x :: b) m -> stat1 x = Some c -> stat_file u n s i cpus c -> (0 < cpus)%nat -> Z.of_nat cpus < 2 ^ 32 ->
  Forall (fun y => unreadable (stat1 y)) b -> cpu_count m = Z.of_nat cpus.
Proof.
  intros HM E HF HP HB HU. apply monitored_polls in HM as (m0 & _ & HM). apply polls_split in HM as (m1 & m2 & _ & H2 & H3).
  rewrite (polls_keep cpu_count (fun y => unreadable (stat1 y)) (fun z y z' Hz Hy => eq_trans (poll_count z y z' Hz) ltac:(unfold new_count; rewrite (unreadable_lines _ Hy); reflexivity)) b m2 m H3 HU).
  rewrite (poll_count _ _ _ H2). unfold new_count. rewrite E, (stat_count _ _ _ _ _ _ HF). unfold u32, wrap. rewrite Z.mod_small by lia. destruct (Z.eqb_spec (Z.of_nat cpus) 0); [lia|reflexivity].
Qed.

(** *** CPU usage of the system *)
Lemma poll_unreadable m x m' : poll m x = Ok m' -> unreadable (stat2 x) -> (counters m', system_usage m') = (counters m, system_usage m).
Proof.
  intros H HU. destruct (poll_system _ _ _ H) as (m1 & m2 & V1 & V2 & E & V3 & V4). unfold update_system_usage, scan_stat in E. rewrite (unreadable_lines _ HU) in E. injection E as <-. congruence.
Qed.
Lemma poll_counters m x m' u n s i cpus c : poll m x = Ok m' -> stat2 x = Some c -> stat_file u n s i cpus c -> u < 2 ^ 64 -> n < 2 ^ 64 -> s < 2 ^ 64 -> i < 2 ^ 64 ->
  counters m' = [u; n; s; i] /\ (forall pu pn ps pi, counters m = [pu; pn; ps; pi] ->
    system_usage m' = if (pu <=? u) && (pn <=? n) && (ps <=? s) && (pi <=? i) then
      let active := u64 (u64 (u64 (u - pu) + u64 (n - pn)) + u64 (s - ps)) in div (mul (to_double 100) (to_double active)) (to_double (u64 (active + u64 (i - pi)))) else system_usage m).
Proof.
  intros H EX HF B1 B2 B3 B4. destruct (poll_system _ _ _ H) as (m1 & m2 & V1 & V2 & E & V3 & V4). rewrite EX in E. unfold update_system_usage in E. rewrite (stat_scan _ _ _ _ _ _ HF) in E by assumption. cbn [bind] in E. injection E as <-. cbn [counters prev_user prev_nice prev_system prev_idle system_usage] in V3, V4.
  split; [exact V3|]. intros pu pn ps pi EC. rewrite <- V1 in EC. unfold counters in EC. injection EC as <- <- <- <-. rewrite V4, V2. reflexivity.
Qed.
Lemma small z : 0 <= z < 2 ^ 64 -> u64 z = z.
Proof. intros H. unfold u64, wrap. now apply Z.mod_small. Qed.
(** get_system_cpu_usage: between the last two readable polls, the share of the time in which the CPUs were not idle, in
    percent, rounded once; it is between 0 and 100. *)
Theorem system_usage_reported t a x b y d m u n s i cx u' n' s' i' cy stx sty :
  monitored t (a ++ x :: b ++ y :: d) m -> stat2 x = Some stx -> stat_file u n s i cx stx -> stat2 y = Some sty -> stat_file u' n' s' i' cy sty ->
  Forall (fun z => unreadable (stat2 z)) b -> Forall (fun z => unreadable (stat2 z)) d ->
  0 <= u <= u' -> 0 <= n <= n' -> 0 <= s <= s' -> 0 <= i <= i' -> u' < 2 ^ 64 -> n' < 2 ^ 64 -> s' < 2 ^ 64 -> i' < 2 ^ 64 ->
  let active := (u' - u) + (n' - n) + (s' - s) in let total := active + (i' - i) in
  0 < total -> 100 * total <= 2 ^ 53 ->
  is_number (system_usage m) (nearest (100 * IZR active / IZR total)) /\ (0 <= B2R (system_usage m) <= 100)%R.
Proof.
  intros HM EX HX EY HY HB HD O1 O2 O3 O4 L1 L2 L3 L4 active total HT HS. apply monitored_polls in HM as (m0 & _ & HM). apply polls_split in HM as (m1 & m2 & _ & H2 & HM). apply polls_split in HM as (m3 & m4 & H3 & H4 & H5).
  destruct (poll_counters _ _ _ _ _ _ _ _ _ H2 EX HX) as (C2 & _); try lia. destruct (poll_counters _ _ _ _ _ _ _ _ _ H4 EY HY) as (_ & C4); try assumption.
  pose proof (polls_keep (fun m => (counters m, system_usage m)) (fun z => unreadable (stat2 z)) poll_unreadable b m2 m3 H3 HB) as K1.
  pose proof (polls_keep (fun m => (counters m, system_usage m)) (fun z => unreadable (stat2 z)) poll_unreadable d m4 m H5 HD) as K2. cbn beta in K1, K2.
  assert (C3 : counters m3 = [u; n; s; i]) by congruence. specialize (C4 _ _ _ _ C3). assert (EU : system_usage m = system_usage m4) by congruence. rewrite EU, C4.
  destruct (Z.leb_spec u u'), (Z.leb_spec n n'), (Z.leb_spec s s'), (Z.leb_spec i i'); try lia. cbn [andb]. cbv zeta.
  assert (E1 : u64 (u64 (u64 (u' - u) + u64 (n' - n)) + u64 (s' - s)) = active). { rewrite (small (u' - u)), (small (n' - n)), (small (s' - s)) by lia. rewrite (small (u' - u + (n' - n))) by (unfold total, active in HS; lia). apply small. unfold total, active in *. lia. }
  assert (E2 : u64 (active + u64 (i' - i)) = total). { rewrite (small (i' - i)) by lia. apply small. unfold total, active in *. lia. }
  rewrite E1, E2. destruct (percentage active total 1) as (P1 & P2); try (unfold total, active in *; lia). split; [exact P1|]. destruct P1 as (_ & ->). rewrite Rmult_1_r in P2. exact P2.
Qed.
(** If a counter went backwards, the reported usage stays as it was. *)
Theorem system_usage_kept t a x b y m m1 u n s i cx u' n' s' i' cy stx sty :
  monitored t (a ++ x :: b) m1 -> monitored t (a ++ x :: b ++ [y]) m -> stat2 x = Some stx -> stat_file u n s i cx stx -> stat2 y = Some sty -> stat_file u' n' s' i' cy sty ->
  Forall (fun z => unreadable (stat2 z)) b -> u < 2 ^ 64 -> n < 2 ^ 64 -> s < 2 ^ 64 -> i < 2 ^ 64 -> u' < 2 ^ 64 -> n' < 2 ^ 64 -> s' < 2 ^ 64 -> i' < 2 ^ 64 ->
  u' < u \/ n' < n \/ s' < s \/ i' < i -> system_usage m = system_usage m1.
Proof.
  intros HM1 HM EX HX EY HY HB B1 B2 B3 B4 L1 L2 L3 L4 HO. apply monitored_polls in HM as (m0 & HC & HM). apply monitored_polls in HM1 as (m0' & HC' & HM1). assert (m0' = m0) by congruence. subst m0'.
  replace (a ++ x :: b ++ [y]) with ((a ++ x :: b) ++ [y]) in HM by (rewrite <- app_assoc; reflexivity). apply polls_split in HM as (m3 & m4 & H3 & H4 & H5). injection H5 as <-. assert (m3 = m1) by congruence. subst m3.
  apply polls_split in HM1 as (m3 & m5 & _ & H6 & H7). destruct (poll_counters _ _ _ _ _ _ _ _ _ H6 EX HX) as (C2 & _); try assumption. destruct (poll_counters _ _ _ _ _ _ _ _ _ H4 EY HY) as (_ & C4); try assumption.
  pose proof (polls_keep (fun m => (counters m, system_usage m)) (fun z => unreadable (stat2 z)) poll_unreadable b m5 m1 H7 HB) as K1. cbn beta in K1.
  assert (C3 : counters m1 = [u; n; s; i]) by congruence. rewrite (C4 _ _ _ _ C3). destruct (Z.leb_spec u u'), (Z.leb_spec n n'), (Z.leb_spec s s'), (Z.leb_spec i i'); try reflexivity. lia.
Qed.

(** Before the second readable poll, it is the share since the system was started. *)
Theorem first_usage_since_boot t b y d m u n s i cy sty :
  monitored t (b ++ y :: d) m -> stat2 y = Some sty -> stat_file u n s i cy sty -> Forall (fun z => unreadable (stat2 z)) b -> Forall (fun z => unreadable (stat2 z)) d ->
  0 <= u < 2 ^ 64 -> 0 <= n < 2 ^ 64 -> 0 <= s < 2 ^ 64 -> 0 <= i < 2 ^ 64 -> 0 < u + n + s + i -> 100 * (u + n + s + i) <= 2 ^ 53 ->
  is_number (system_usage m) (nearest (100 * IZR (u + n + s) / IZR (u + n + s + i))).
Proof.
  intros HM EY HY HB HD L1 L2 L3 L4 HT HS. apply monitored_polls in HM as (m0 & HC & HM). apply polls_split in HM as (m3 & m4 & H3 & H4 & H5).
  destruct (poll_counters _ _ _ _ _ _ _ _ _ H4 EY HY) as (_ & C4); try lia.
  pose proof (polls_keep (fun m => (counters m, system_usage m)) (fun z => unreadable (stat2 z)) poll_unreadable b m0 m3 H3 HB) as K1.
  pose proof (polls_keep (fun m => (counters m, system_usage m)) (fun z => unreadable (stat2 z)) poll_unreadable d m4 m H5 HD) as K2. cbn beta in K1, K2.
  assert (C0 : counters m0 = [0; 0; 0; 0]). { unfold create in HC. destruct (poll_later _ _); [|discriminate HC]. injection HC as <-. pose proof (count_view new_monitor t) as V. cbv zeta in V. injection V as _ _ _ _ _ V1 V2 V3 V4 _ _ _. unfold counters. now rewrite V1, V2, V3, V4. }
  assert (C3 : counters m3 = [0; 0; 0; 0]) by congruence. specialize (C4 _ _ _ _ C3). assert (EU : system_usage m = system_usage m4) by congruence. rewrite EU, C4.
  destruct (Z.leb_spec 0 u), (Z.leb_spec 0 n), (Z.leb_spec 0 s), (Z.leb_spec 0 i); try lia. cbn [andb]. cbv zeta. rewrite !Z.sub_0_r. rewrite (small u), (small n), (small s), (small i) by lia. rewrite (small (u + n)) by lia. rewrite (small (u + n + s)) by lia. rewrite (small (u + n + s + i)) by lia.
  apply (percentage (u + n + s) (u + n + s + i) 1); lia.
Qed.
(** If no time has passed between the last two readable polls according to the counters (which count hundredths of a second), the usage is
    not a number. *)
Lemma nan_0_0 : is_nan (div (mul (to_double 100) (to_double 0)) (to_double 0)) = true.
Proof. vm_compute. reflexivity. Qed.
Theorem usage_not_a_number t a x b y d m u n s i cx cy stx sty :
  monitored t (a ++ x :: b ++ y :: d) m -> stat2 x = Some stx -> stat_file u n s i cx stx -> stat2 y = Some sty -> stat_file u n s i cy sty ->
  Forall (fun z => unreadable (stat2 z)) b -> Forall (fun z => unreadable (stat2 z)) d -> u < 2 ^ 64 -> n < 2 ^ 64 -> s < 2 ^ 64 -> i < 2 ^ 64 -> is_nan (system_usage m) = true.
Proof.
  intros HM EX HX EY HY HB HD L1 L2 L3 L4. apply monitored_polls in HM as (m0 & _ & HM). apply polls_split in HM as (m1 & m2 & _ & H2 & HM). apply polls_split in HM as (m3 & m4 & H3 & H4 & H5).
  destruct (poll_counters _ _ _ _ _ _ _ _ _ H2 EX HX) as (C2 & _); try lia. destruct (poll_counters _ _ _ _ _ _ _ _ _ H4 EY HY) as (_ & C4); try assumption.
  pose proof (polls_keep (fun m => (counters m, system_usage m)) (fun z => unreadable (stat2 z)) poll_unreadable b m2 m3 H3 HB) as K1.
  pose proof (polls_keep (fun m => (counters m, system_usage m)) (fun z => unreadable (stat2 z)) poll_unreadable d m4 m H5 HD) as K2. cbn beta in K1, K2.
  assert (C3 : counters m3 = [u; n; s; i]) by congruence. specialize (C4 _ _ _ _ C3). assert (EU : system_usage m = system_usage m4) by congruence. rewrite EU, C4. rewrite !Z.leb_refl, !Z.sub_diag. exact nan_0_0.
Qed.

(** *** CPU usage of the process *)
Lemma poll_no_times m x m' : poll m x = Ok m' -> times x = None -> (clocks m', process_usage m') = (clocks m, process_usage m).
Proof. intros H E. destruct (poll_process _ _ _ H) as (m1 & V1 & V2 & V3 & V4 & V5). rewrite E in *. cbn [update_process_usage] in *. congruence. Qed.
Lemma poll_times m x m' now ut st : poll m x = Ok m' -> times x = Some (now, ut, st) ->
  clocks m' = (now, ut, st) /\ forall pnow put pst, clocks m = (pnow, put, pst) -> process_usage m' = if (pnow <? now) && (pst <=? st) && (put <=? ut) then div (div (mul (to_double 100) (to_double ((st - pst) + (ut - put)))) (to_double (now - pnow))) (to_double (cpu_count m')) else process_usage m.
Proof.
  intros H E. destruct (poll_process _ _ _ H) as (m1 & V1 & V2 & V3 & V4 & V5). rewrite E in *. cbn [update_process_usage] in *. split; [exact V4|]. intros pnow put pst EC. rewrite <- V2 in EC. unfold clocks in EC. injection EC as <- <- <-. rewrite V5, <- V1, <- V3. reflexivity.
Qed.
(** get_process_cpu_usage: the CPU time that the process used between the last two polls, divided by the elapsed time and
    by the number of CPUs, in percent (rounded twice); between 0 and 100 if the process used at most the time of all CPUs. *)
Theorem process_usage_reported t a x b y m now ut st now' ut' st' :
  monitored t (a ++ x :: b ++ [y]) m -> times x = Some (now, ut, st) -> times y = Some (now', ut', st') -> Forall (fun z => times z = None) b ->
  now < now' -> ut <= ut' -> st <= st' -> let used := (st' - st) + (ut' - ut) in let elapsed := now' - now in
  used <= cpu_count m * elapsed -> 100 * used <= 2 ^ 53 -> elapsed <= 2 ^ 53 -> cpu_count m < 2 ^ 32 ->
  is_number (process_usage m) (nearest (nearest (100 * IZR used / IZR elapsed) / IZR (cpu_count m))) /\ (0 <= B2R (process_usage m) <= 100)%R.
Proof.
  intros HM EX EY HB L1 L2 L3 used elapsed HU H100 HE HCC. destruct HM as (m00 & HC0 & HL). destruct (monitor_goes_on _ _ _ _ _ HC0 HL) as (_ & HP). assert (HM : monitored t (a ++ x :: b ++ [y]) m) by (exists m00; auto). clear HC0 HL m00.
  apply monitored_polls in HM as (m0 & _ & HM). apply polls_split in HM as (m1 & m2 & _ & H2 & HM). apply polls_split in HM as (m3 & m4 & H3 & H4 & H5). injection H5 as ->.
  destruct (poll_times _ _ _ _ _ _ H2 EX) as (C2 & _). destruct (poll_times _ _ _ _ _ _ H4 EY) as (_ & C4).
  pose proof (polls_keep (fun m => (clocks m, process_usage m)) (fun z => times z = None) poll_no_times b m2 m3 H3 HB) as K1. cbn beta in K1. assert (C3 : clocks m3 = (now, ut, st)) by congruence. specialize (C4 _ _ _ C3). rewrite C4. clear C4.
  destruct (Z.ltb_spec now now'), (Z.leb_spec st st'), (Z.leb_spec ut ut'); try lia. cbn [andb]. change (st' - st + (ut' - ut)) with used. change (now' - now) with elapsed.
  destruct (percentage used elapsed (cpu_count m)) as (P1 & P2 & P3); try (unfold used, elapsed in *; lia).
  assert (P4 := to_double_int (cpu_count m) ltac:(lia)). assert (HC : (0 < IZR (cpu_count m))%R) by (apply IZR_lt; lia).
  assert (Q : (0 <= nearest (100 * IZR used / IZR elapsed) / IZR (cpu_count m) <= 100)%R) by (apply quotient_bounds; assumption).
  assert (P5 : is_number (div (div (mul (to_double 100) (to_double used)) (to_double elapsed)) (to_double (cpu_count m))) (nearest (nearest (100 * IZR used / IZR elapsed) / IZR (cpu_count m)))).
  { apply div_number; [assumption..|lra|]. destruct Q as (Q1 & Q2). split; [assumption|]. eapply Rle_trans; [exact Q2|]. apply IZR_le. lia. }
  split; [exact P5|]. destruct P5 as (_ & ->). destruct Q as (Q1 & Q2). apply nearest_le in Q1, Q2. rewrite nearest_int in Q1, Q2 by lia. split; assumption.
Qed.
(** If no tick has passed, or a time went backwards, the reported usage stays as it was. *)
Theorem process_usage_kept t a x b y m m1 now ut st now' ut' st' :
  monitored t (a ++ x :: b) m1 -> monitored t (a ++ x :: b ++ [y]) m -> times x = Some (now, ut, st) -> times y = Some (now', ut', st') -> Forall (fun z => times z = None) b ->
  now' <= now \/ ut' < ut \/ st' < st -> process_usage m = process_usage m1.
Proof.
  intros HM1 HM EX EY HB HO. apply monitored_polls in HM as (m0 & HC & HM). apply monitored_polls in HM1 as (m0' & HC' & HM1). assert (m0' = m0) by congruence. subst m0'.
  replace (a ++ x :: b ++ [y]) with ((a ++ x :: b) ++ [y]) in HM by (rewrite <- app_assoc; reflexivity). apply polls_split in HM as (m3 & m4 & H3 & H4 & H5). injection H5 as <-. assert (m3 = m1) by congruence. subst m3.
  apply polls_split in HM1 as (m3 & m5 & _ & H6 & H7). destruct (poll_times _ _ _ _ _ _ H6 EX) as (C2 & _). destruct (poll_times _ _ _ _ _ _ H4 EY) as (_ & C4).
  pose proof (polls_keep (fun m => (clocks m, process_usage m)) (fun z => times z = None) poll_no_times b m5 m1 H7 HB) as K1. cbn beta in K1. assert (C3 : clocks m1 = (now, ut, st)) by congruence.
  rewrite (C4 _ _ _ C3). destruct (Z.ltb_spec now now'), (Z.leb_spec st st'), (Z.leb_spec ut ut'); try reflexivity. lia.
Qed.

(** *** Memory *)
(** get_total_system_memory, get_system_memory_usage: what the last successful ::sysinfo said, in bytes. *)
Theorem memory_reported t a x b m totalram freeram unit_ : monitored t (a ++ x :: b) m -> sysinfo x = Some (totalram, freeram, unit_) -> Forall (fun z => sysinfo z = None) b ->
  0 <= freeram <= totalram -> 0 <= unit_ -> totalram * unit_ < 2 ^ 64 ->
  total_memory m = totalram * unit_ /\ memory_usage m = (totalram - freeram) * unit_ /\ 0 <= memory_usage m <= total_memory m.
Proof.
  intros HM EX HB H1 H2 H3. apply monitored_polls in HM as (m0 & _ & HM). apply polls_split in HM as (m1 & m2 & _ & P2 & HM).
  assert (K : (total_memory m, memory_usage m) = (total_memory m2, memory_usage m2)).
  { apply (polls_keep (fun m => (total_memory m, memory_usage m)) (fun z => sysinfo z = None)) with (b := b); [|assumption..]. intros z y z' Hz Hy. rewrite (poll_memory _ _ _ Hz), Hy. reflexivity. }
  apply poll_memory in P2. rewrite EX in P2.
  assert (B : 0 <= freeram * unit_ <= totalram * unit_) by (split; [apply Z.mul_nonneg_nonneg; lia|apply Z.mul_le_mono_nonneg_r; lia]).
  rewrite (small (totalram * unit_)), (small (freeram * unit_)), (small (totalram * unit_ - freeram * unit_)) in P2 by lia.
  assert (E1 : total_memory m = totalram * unit_) by congruence. assert (E2 : memory_usage m = totalram * unit_ - freeram * unit_) by congruence. rewrite E1, E2. repeat split; lia.
Qed.
(** get_process_memory_usage: the VmRSS of the last readable /proc/self/status, in bytes. *)
Theorem process_memory_reported t a x b m kb c : monitored t (a ++ x :: b) m -> status x = Some c -> status_file kb c -> Forall (fun z => unreadable (status z)) b ->
  0 < kb -> kb * 1024 < 2 ^ 64 -> process_memory m = kb * 1024.
Proof.
  intros HM EX HF HB H1 H2. apply monitored_polls in HM as (m0 & _ & HM). apply polls_split in HM as (m1 & m2 & _ & P2 & HM).
  assert (K : process_memory m = process_memory m2).
  { apply (polls_keep process_memory (fun z => unreadable (status z))) with (b := b); [|assumption..]. intros z y z' Hz Hy. destruct (poll_rss _ _ _ Hz) as (v & E1 & E2). rewrite (unreadable_lines _ Hy) in E1. injection E1 as <-. exact E2. }
  destruct (poll_rss _ _ _ P2) as (v & E1 & E2). rewrite EX, (status_scan _ _ HF) in E1 by lia. injection E1 as <-. rewrite K, E2. destruct (Z.eqb_spec kb 0); [lia|]. rewrite Z.shiftl_mul_pow2 by lia. change (2 ^ 10) with 1024. apply small. lia.
Qed.

(** ** Examples *)
(** "cpu  u n s i 7\ncpu0 1\ncpu1 2\nintr 3\n" with one-digit numbers *)
Definition stat_text (u n s i : Z) : list Z :=
  file_of ([99; 112; 117; 32; 32; 48 + u; 32; 48 + n; 32; 48 + s; 32; 48 + i; 32; 55] :: [[99; 112; 117; 48; 32; 49]; [99; 112; 117; 49; 32; 50]] ++ [[105; 110; 116; 114; 32; 51]]).
Lemma stat_text_file u n s i : 0 <= u <= 9 -> 0 <= n <= 9 -> 0 <= s <= 9 -> 0 <= i <= 9 -> stat_file u n s i 2 (stat_text u n s i).
Proof.
  intros H1 H2 H3 H4. assert (HG : gap [32]) by (split; [discriminate|constructor; [now left|constructor]]). assert (HG2 : gap [32; 32]) by (split; [discriminate|repeat (constructor; [now left|]); constructor]).
  eexists _, _, _. split; [left; reflexivity|]. split; [|split; [|split; [|split; [reflexivity|split]]]].
  - repeat (apply Forall_cons; [unfold one_line; cbn [In app]; lia|]). apply Forall_nil.
  - exists 32. eexists. split; reflexivity.
  - exists [32; 32], [48 + u], [32], [48 + n], [32], [48 + s], [32], [48 + i], [32; 55]. split; [reflexivity|]. repeat (split; [first [assumption|now apply numeral_digit]|]). cbn. lia.
  - repeat (apply Forall_cons; [eexists _, _; split; [reflexivity|lia]|]). apply Forall_nil.
  - apply Forall_cons; [|apply Forall_nil]. intros (r & E). discriminate E.
Qed.
(** "A\nVmRSS:\t42 kB\n" *)
Definition status_text : list Z := file_of ([[65]] ++ (vmrss ++ [9] ++ [52; 50] ++ [32; 107; 66]) :: []).
Lemma status_text_file : status_file 42 status_text.
Proof.
  exists [[65]], [9], [52; 50], [32; 107; 66], []. split; [left; reflexivity|]. split; [|split; [|split; [|split]]].
  - repeat (apply Forall_cons; [unfold one_line; cbn [In app vmrss]; lia|]). apply Forall_nil.
  - split; [discriminate|]. constructor; [now right|constructor].
  - exact (numeral_more 4 [52] 2 (numeral_digit 4 ltac:(lia)) ltac:(lia)).
  - cbn. lia.
  - apply Forall_cons; [|apply Forall_nil]. intros (r & E). discriminate E.
Qed.
Definition poll_of (u n s i now ut st : Z) : sample := Sample (Some (stat_text u n s i)) (Some (stat_text u n s i)) (Some (now, ut, st)) (Some (1000, 300, 4096)) (Some status_text).
Lemma example_monitored xs : Forall (fun x => x = Sample None None None None None \/ exists u n s i now ut st, x = poll_of u n s i now ut st /\ 0 <= u <= 9 /\ 0 <= n <= 9 /\ 0 <= s <= 9 /\ 0 <= i <= 9) xs -> exists m, monitored (Some (stat_text 1 1 1 1)) xs m.
Proof.
  intros HF. destruct (create (Some (stat_text 1 1 1 1)) true) as [m0|] eqn:E.
  - apply (monitor_defined _ m0); [exact E|]. eapply Forall_impl; [|exact HF]. intros x [-> |(u & n & s & i & now & ut & st & -> & B1 & B2 & B3 & B4)]; [split; left; now left|]. split; right.
    + exists u, n, s, i, 2%nat. eexists. split; [reflexivity|]. split; [now apply stat_text_file|]. lia.
    + exists 42. eexists. split; [reflexivity|]. split; [apply status_text_file|lia].
  - exfalso. destruct (monitor_created 1 1 1 1 2 (stat_text 1 1 1 1) true) as (H & _); [apply stat_text_file; lia|reflexivity|]. apply H in E; [assumption|]. split; [lia|reflexivity].
Qed.
(** Three polls, the second of which can read nothing: the CPUs were busy 3 of 4 ticks, the process used 2 of 5 * 2 ticks; and then one in which the
    counters have not moved. *)
Example monitor_run : exists m, monitored (Some (stat_text 1 1 1 1)) [poll_of 1 1 1 1 10 0 0; Sample None None None None None; poll_of 2 2 2 2 15 1 1] m /\
  cpu_count m = 2 /\ is_number (system_usage m) 75 /\ is_number (process_usage m) 20 /\ total_memory m = 4096000 /\ memory_usage m = 2867200 /\ process_memory m = 43008.
Proof.
  destruct (example_monitored [poll_of 1 1 1 1 10 0 0; Sample None None None None None; poll_of 2 2 2 2 15 1 1]) as (m & HM).
  { repeat (apply Forall_cons; [first [now left|right; eexists _, _, _, _, _, _, _; split; [reflexivity|lia]]|]). apply Forall_nil. }
  exists m. split; [assumption|].
  assert (EC : cpu_count m = 2) by (apply (cpu_count_reported _ [_; _] _ [] m 2 2 2 2 2 _ HM eq_refl); [apply stat_text_file; lia|lia|reflexivity|apply Forall_nil]). split; [exact EC|].
  assert (HU : Forall (fun z => unreadable (stat2 z)) [Sample None None None None None]) by (apply Forall_cons; [now left|apply Forall_nil]).
  assert (HV : Forall (fun z => times z = None) [Sample None None None None None]) by (apply Forall_cons; [reflexivity|apply Forall_nil]).
  split; [|split; [|split]].
  - destruct (system_usage_reported _ [] _ [_] _ [] m 1 1 1 1 2 2 2 2 2 2 _ _ HM eq_refl (stat_text_file 1 1 1 1 ltac:(lia) ltac:(lia) ltac:(lia) ltac:(lia)) eq_refl (stat_text_file 2 2 2 2 ltac:(lia) ltac:(lia) ltac:(lia) ltac:(lia)) HU (Forall_nil _)) as ((H1 & H2) & _); try lia.
    split; [assumption|]. rewrite H2. replace (100 * IZR (2 - 1 + (2 - 1) + (2 - 1)) / IZR (2 - 1 + (2 - 1) + (2 - 1) + (2 - 1)))%R with (IZR 75) by (cbn; lra). apply nearest_int. lia.
  - destruct (process_usage_reported _ [] _ [_] _ m 10 0 0 15 1 1 HM eq_refl eq_refl HV) as ((H1 & H2) & _); try lia.
    split; [assumption|]. rewrite H2, EC. replace (100 * IZR (1 - 0 + (1 - 0)) / IZR (15 - 10))%R with (IZR 40) by (cbn; lra). rewrite (nearest_int 40) by lia. replace (40 / 2)%R with (IZR 20) by lra. apply nearest_int. lia.
  - destruct (memory_reported _ [_; _] _ [] m 1000 300 4096 HM eq_refl (Forall_nil _)) as (H1 & H2 & _); lia.
  - destruct (memory_reported _ [_; _] _ [] m 1000 300 4096 HM eq_refl (Forall_nil _)) as (H1 & H2 & _); try lia. split; [lia|].
    rewrite (process_memory_reported _ [_; _] _ [] m 42 _ HM eq_refl status_text_file (Forall_nil _)); lia.
Qed.
(** "the usage is between 0 and 100" is false of two polls within one tick. *)
Theorem usage_is_percentage_refuted : exists m, monitored (Some (stat_text 1 1 1 1)) [poll_of 1 1 1 1 10 0 0; poll_of 1 1 1 1 10 0 0] m /\ is_nan (system_usage m) = true.
Proof.
  destruct (example_monitored [poll_of 1 1 1 1 10 0 0; poll_of 1 1 1 1 10 0 0]) as (m & HM).
  { repeat (apply Forall_cons; [right; eexists _, _, _, _, _, _, _; split; [reflexivity|lia]|]). apply Forall_nil. }
  exists m. split; [assumption|]. pose proof (stat_text_file 1 1 1 1 ltac:(lia) ltac:(lia) ltac:(lia) ltac:(lia)) as HT.
  apply (usage_not_a_number _ [] _ [] _ [] m 1 1 1 1 2 2 _ _ HM eq_refl HT eq_refl HT (Forall_nil _) (Forall_nil _)); reflexivity.
Qed.
