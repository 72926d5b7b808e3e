(** Property C65: texts of system errors and of the local time. *)
From Verif Require Import Common Bits Lexer_Model Format_Model Format_Spec Format_Proofs Format_Props FormatString_Model FormatString_Props Join_Model Join_Spec Join_Props SysText_Model SysText_Spec.

(** ** Error strings *)
Lemma parse_error v s : parse_format 8 (map type_of_arg [AInteger 32 true v; AString s]) error_format = Ok (Some [sp0 (AInteger 32 true v) 0 1; sp0 (AString s) 1 5]).
Proof. reflexivity. Qed.
Lemma error_fields cm v s : format_to 8 cm [] error_format [AInteger 32 true v; AString s] =
  let! x := format_arg cm [AInteger 32 true v; AString s] (sp0 (AInteger 32 true v) 0 1) (AInteger 32 true v) in
  let! y := format_arg cm [AInteger 32 true v; AString s] (sp0 (AString s) 1 5) (AString s) in Ok ([40] ++ x ++ [41; 32] ++ y).
Proof.
  unfold format_to. rewrite parse_error. cbn [bind].
  change (format_loop (S (length error_format)) cm [AInteger 32 true v; AString s] error_format 0 [sp0 (AInteger 32 true v) 0 1; sp0 (AString s) 1 5]) with
    (let! r := (let! out := format_arg cm [AInteger 32 true v; AString s] (sp0 (AInteger 32 true v) 0 1) (AInteger 32 true v) in
     let! rest := (let! r2 := (let! r3 := (let! out := format_arg cm [AInteger 32 true v; AString s] (sp0 (AString s) 1 5) (AString s) in let! rest := Ok [] in Ok (out ++ rest)) in Ok (32 :: r3)) in Ok (41 :: r2)) in Ok (out ++ rest)) in Ok (40 :: r)).
  destruct (format_arg cm _ (sp0 (AInteger 32 true v) 0 1) _) as [x|]; cbn [bind]; [|reflexivity]. destruct (format_arg cm _ (sp0 (AString s) 1 5) _) as [y|]; cbn [bind]; [|reflexivity]. now rewrite app_nil_r.
Qed.
Definition char_kind (sg : bool) : Z := if sg then 127 else 255.
(** The string is the code in parentheses, a space, and the message for it. *)
Theorem error_string_text : forall sg message code, - 2 ^ 31 <= code < 2 ^ 31 -> Z.of_nat (length (message code)) < 2 ^ 64 ->
  exists number, decimal code number /\ get_error_string (char_kind sg) message code = Ok ([40] ++ number ++ [41; 32] ++ message code).
Proof.
  intros sg message code HC HL. unfold get_error_string. rewrite error_fields.
  assert (HT : character_type 8 sg (char_kind sg)) by (split; [tauto|now destruct sg]).
  destruct (format_plain 8 sg (char_kind sg) [AInteger 32 true code; AString (message code)] (AInteger 32 true code) 0 1 HT) as (x & PX & EX); [cbn [arg_ok]; split; [unfold native_int; tauto|exact HC]|exact I|].
  destruct (format_plain 8 sg (char_kind sg) [AInteger 32 true code; AString (message code)] (AString (message code)) 1 5 HT) as (y & PY & EY); [exact I|exact HL|].
  rewrite EX, EY. cbn [bind]. cbn [plain] in PX, PY. subst y. exists x. split; [exact PX|reflexivity].
Qed.
(** So the code and the message can be read back from it. *)
Lemma decimal_no_parenthesis v text : decimal v text -> ~ In 41 text.
Proof.
  intros (d & (F & _) & ->) H. apply in_app_or in H. destruct H as [H|H]; [destruct (v <? 0); [destruct H as [H|[]]; discriminate H|exact H]|].
  rewrite Forall_forall in F. specialize (F 41 H). unfold digit_of in F. cbn in F. lia.
Qed.
Lemma split_at (a b : list Z) (x : Z) : forall a' b', a ++ x :: b = a' ++ x :: b' -> ~ In x a -> ~ In x a' -> a = a' /\ b = b'.
Proof.
  induction a as [|c a IH]; intros [|c' a'] b' E HA HA'; cbn [app] in E.
  - split; [reflexivity|congruence]. - exfalso. apply HA'. left. congruence. - exfalso. apply HA. left. congruence.
  - destruct (IH a' b') as (-> & ->); [congruence|intros H; apply HA; now right|intros H; apply HA'; now right|]. split; [congruence|reflexivity].
Qed.
Lemma decimal_injective v v' text : decimal v text -> decimal v' text -> v = v'.
Proof.
  intros (d & (F & V & N & _) & E) (d' & (F' & V' & N' & _) & E'). subst text.
  assert (HM : forall d, Forall (digit_of 10 false) d -> forall r, d <> 45 :: r). { intros l HF r ->. inversion HF as [|? ? HX]. unfold digit_of in HX. cbn in HX. lia. }
  destruct (Z.ltb_spec v 0), (Z.ltb_spec v' 0); cbn [app] in E'.
  - assert (d = d') by congruence. subst d'. lia.
  - exfalso. apply (HM d' F' d). congruence.
  - exfalso. apply (HM d F d'). congruence.
  - subst d'. lia.
Qed.
Theorem error_string_injective : forall sg message code message' code', - 2 ^ 31 <= code < 2 ^ 31 -> - 2 ^ 31 <= code' < 2 ^ 31 -> Z.of_nat (length (message code)) < 2 ^ 64 -> Z.of_nat (length (message' code')) < 2 ^ 64 ->
  get_error_string (char_kind sg) message code = get_error_string (char_kind sg) message' code' -> code = code' /\ message code = message' code'.
Proof.
  intros sg message code message' code' HC HC' HL HL' E. destruct (error_string_text sg message code HC HL) as (n & D & E1). destruct (error_string_text sg message' code' HC' HL') as (n' & D' & E2). rewrite E1, E2 in E.
  assert (E3 : n ++ 41 :: 32 :: message code = n' ++ 41 :: 32 :: message' code') by (cbn [app] in E; congruence). apply split_at in E3; [|now apply (decimal_no_parenthesis code)|now apply (decimal_no_parenthesis code')]. destruct E3 as (-> & E3).
  split; [now apply (decimal_injective code code' n')|congruence].
Qed.

(** ** Local time *)
Lemma two_digits_padded n : 0 <= n <= 99 -> padded n (two_digits n).
Proof.
  intros H. exists (48 + n / 10), (48 + n mod 10). split; [reflexivity|].
  assert (A : 0 <= n / 10 <= 9) by dlia. assert (B : 0 <= n mod 10 <= 9) by dlia. assert (C : n = n / 10 * 10 + n mod 10) by dlia. set (q := n / 10) in *. set (r := n mod 10) in *. clearbody q r.
  unfold digit_of, value_of_digit. repeat match goal with |- context [?a <=? ?b] => destruct (Z.leb_spec a b) | |- context [?a <? ?b] => destruct (Z.ltb_spec a b) end; cbn [andb]; split; try lia; split; lia.
Qed.
Lemma positional_length v s k : positional 10 false v s -> (0 < k)%nat -> v < 10 ^ Z.of_nat k -> (length s <= k)%nat.
Proof.
  intros (F & V & N & H) HK HV. destruct H as [H|H]; [lia|]. destruct s as [|c s]; [congruence|]. cbn [hd] in H. inversion F as [|? ? Hc Hs]; subst. pose proof (positional_bound 10 false s ltac:(lia) Hs) as B. cbn [positional_value] in HV.
  assert (D : 1 <= value_of_digit c). { unfold digit_of in Hc. unfold value_of_digit. repeat match goal with |- context [?a <=? ?b] => destruct (Z.leb_spec a b) end; lia. }
  cbn [length]. destruct (le_lt_dec (S (length s)) k) as [|L]; [assumption|exfalso].
  assert (P : 10 ^ Z.of_nat k <= 10 ^ Z.of_nat (length s)) by (apply Z.pow_le_mono_r; lia). assert (1 * 10 ^ Z.of_nat (length s) <= value_of_digit c * 10 ^ Z.of_nat (length s)) by (apply Z.mul_le_mono_nonneg_r; lia). lia.
Qed.
Lemma positional_longer v s k : positional 10 false v s -> 10 ^ Z.of_nat k <= v -> (k < length s)%nat.
Proof. intros (F & V & N & H) HV. pose proof (positional_bound 10 false s ltac:(lia) F) as B. rewrite V in B. destruct (le_lt_dec (length s) k) as [L|]; [exfalso|assumption]. assert (10 ^ Z.of_nat (length s) <= 10 ^ Z.of_nat k) by (apply Z.pow_le_mono_r; lia). lia. Qed.
Lemma year_decimal y : - 2 ^ 40 < y < 2 ^ 40 -> decimal y (year_text y).
Proof.
  intros H. change (2 ^ 40) with 1099511627776 in H. destruct (to_chars_64 10 (Z.abs y)) as (s & E & P & _); [lia|change (2 ^ 64) with 18446744073709551616; lia|]. exists s. split; [exact P|]. unfold year_text. rewrite E. reflexivity.
Qed.
Lemma year_length y : - 2 ^ 31 <= y < 2 ^ 31 + 1900 -> (length (year_text y) <= 11)%nat /\ (1000 <= y <= 9999 -> length (year_text y) = 4%nat).
Proof.
  intros H. change (2 ^ 31) with 2147483648 in H. destruct (year_decimal y) as (d & P & ->); [change (2 ^ 40) with 1099511627776; lia|]. pose proof (positional_length _ d 10 P ltac:(lia)) as L. change (10 ^ Z.of_nat 10) with 10000000000 in L. specialize (L ltac:(lia)). rewrite app_length. split.
  - destruct (y <? 0); cbn [length]; lia.
  - intros HY. destruct (Z.ltb_spec y 0); [lia|]. pose proof (positional_length _ d 4 P ltac:(lia)) as L4. pose proof (positional_longer _ d 3 P) as L3. change (10 ^ Z.of_nat 4) with 10000 in L4. change (10 ^ Z.of_nat 3) with 1000 in L3. cbn [length]. lia.
Qed.
(** The local time is always shown, as month-day-year hour:minute:second, with two digits each but for the year. *)
Theorem local_time_text : forall t, tm_ok t -> exists mon mday year hour min sec,
  local_time (Some t) = mon ++ [45] ++ mday ++ [45] ++ year ++ [32] ++ hour ++ [58] ++ min ++ [58] ++ sec /\
  padded (tm_mon t + 1) mon /\ padded (tm_mday t) mday /\ decimal (tm_year t + 1900) year /\ padded (tm_hour t) hour /\ padded (tm_min t) min /\ padded (tm_sec t) sec.
Proof.
  intros t (H1 & H2 & H3 & H4 & H5 & H6). change (2 ^ 31) with 2147483648 in H3. do 6 eexists. split.
  - unfold local_time, strftime. assert (L : Z.of_nat (length (strftime_text t)) + 1 <= 32). { unfold strftime_text. rewrite !app_length. cbn [length two_digits]. destruct (year_length (tm_year t + 1900)) as (LY & _); [change (2 ^ 31) with 2147483648; lia|]. lia. }
    destruct (Z.leb_spec (Z.of_nat (length (strftime_text t)) + 1) 32) as [_|G]; [|lia]. reflexivity.
  - repeat (split; [apply two_digits_padded; lia|]). split; [apply year_decimal; change (2 ^ 40) with 1099511627776; lia|]. split; [apply two_digits_padded; lia|]. split; apply two_digits_padded; lia.
Qed.
Lemma padded_injective v v' text : padded v text -> padded v' text -> v = v'.
Proof. intros (a & b & -> & _ & _ & ->) (a' & b' & E & _ & _ & ->). congruence. Qed.
Lemma decimal_no_space v text : decimal v text -> ~ In 32 text.
Proof.
  intros (d & (F & _) & ->) H. apply in_app_or in H. destruct H as [H|H]; [destruct (v <? 0); [destruct H as [H|[]]; discriminate H|exact H]|].
  rewrite Forall_forall in F. specialize (F 32 H). unfold digit_of in F. cbn in F. lia.
Qed.
(** Different times look different. *)
Theorem local_time_injective : forall t t', tm_ok t -> tm_ok t' -> local_time (Some t) = local_time (Some t') -> t = t'.
Proof.
  intros t t' HT HT' E. destruct (local_time_text t HT) as (m & d & y & h & n & s & E1 & (m1 & m2 & -> & HM) & (d1 & d2 & -> & HD) & HY & (h1 & h2 & -> & HH) & (n1 & n2 & -> & HN) & (s1 & s2 & -> & HS)).
  destruct (local_time_text t' HT') as (m' & d' & y' & h' & n' & s' & E2 & (m1' & m2' & -> & HM') & (d1' & d2' & -> & HD') & HY' & (h1' & h2' & -> & HH') & (n1' & n2' & -> & HN') & (s1' & s2' & -> & HS')).
  rewrite E1, E2 in E. cbn [app] in E. injection E as <- <- <- <- E. apply split_at in E; [|now apply (decimal_no_space (tm_year t + 1900))|now apply (decimal_no_space (tm_year t' + 1900))]. destruct E as (-> & E). injection E as <- <- <- <- <- <-.
  pose proof (decimal_injective _ _ _ HY HY'). destruct t, t'. cbn in *. f_equal; lia.
Qed.
(** In the years 1000 to 9999 it has 19 characters. *)
Theorem local_time_length : forall t, tm_ok t -> 1000 <= tm_year t + 1900 <= 9999 -> length (local_time (Some t)) = 19%nat.
Proof.
  intros t HT HY. pose proof HT as (H1 & H2 & H3 & H4 & H5 & H6). change (2 ^ 31) with 2147483648 in H3. destruct (year_length (tm_year t + 1900)) as (LY & LE); [change (2 ^ 31) with 2147483648; lia|]. specialize (LE HY).
  unfold local_time, strftime. assert (L : length (strftime_text t) = 19%nat). { unfold strftime_text. rewrite !app_length, LE. reflexivity. } rewrite L. exact L.
Qed.

(** ** Examples *)
(** ENOENT; 29 February 2024, 23:59:60 *)
Example error_run : get_error_string 127 (fun _ => [78; 111]) 2 = Ok [40; 50; 41; 32; 78; 111].
Proof. vm_compute. reflexivity. Qed.
Example time_run : let t := Tm 1 29 124 23 59 60 in tm_ok t /\ local_time (Some t) = [48; 50; 45; 50; 57; 45; 50; 48; 50; 52; 32; 50; 51; 58; 53; 57; 58; 54; 48].
Proof. split; [unfold tm_ok; cbn; lia|vm_compute; reflexivity]. Qed.
