(** C30, C31: lemmas about the parser's building blocks. *)
From Verif Require Import Common Bits Unicode_Model Unicode_Spec Unicode_Proofs Format_Model Format_Spec Json_Model Json_Spec Json_String_Proofs.

Lemma is_whitespace_iff c : is_whitespace c = true <-> white c.
Proof. unfold is_whitespace, white. rewrite !orb_true_iff, !Z.eqb_eq. tauto. Qed.
Lemma is_whitespace_false c : is_whitespace c = false <-> ~ white c.
Proof. rewrite <- is_whitespace_iff. destruct (is_whitespace c); split; congruence. Qed.

Definition not_white_head (r : list Z) : Prop := match r with c :: _ => ~ white c | [] => True end.
Definition clean (r : list Z) : Prop := match r with c :: _ => ~ white c /\ c <> 47 | [] => True end.

Lemma cws_spec input : exists w, Forall white w /\ input = w ++ consume_whitespace input /\ not_white_head (consume_whitespace input).
Proof.
  induction input as [|c r IH]; [exists []; repeat split; constructor|]. cbn [consume_whitespace].
  destruct (is_whitespace c) eqn:E.
  - destruct IH as (w & Hw & E2 & HN). exists (c :: w). split; [constructor; [now apply is_whitespace_iff|assumption]|].
    split; [cbn [app]; congruence|assumption].
  - exists []. repeat split; [constructor|]. now apply is_whitespace_false.
Qed.
Lemma cws_ok w r : Forall white w -> not_white_head r -> consume_whitespace (w ++ r) = r.
Proof.
  induction 1 as [|c w Hc Hw IH]; intros HN.
  - destruct r as [|c r]; [reflexivity|]. cbn in *. now rewrite (proj2 (is_whitespace_false c)).
  - cbn [app consume_whitespace]. rewrite (proj2 (is_whitespace_iff c)); auto.
Qed.
Lemma cws_length input : (length (consume_whitespace input) <= length input)%nat.
Proof. destruct (cws_spec input) as (w & _ & E & _). rewrite E at 2. rewrite app_length. lia. Qed.
Lemma cws_not_white input : not_white_head input -> consume_whitespace input = input.
Proof. intros H. exact (cws_ok [] input (Forall_nil _) H). Qed.

Lemma line_comment_spec input :
  (exists b, ~ In 10 b /\ input = b ++ [10] ++ line_comment input) \/ (~ In 10 input /\ line_comment input = []).
Proof.
  induction input as [|c r IH]; [right; auto|]. cbn [line_comment]. destruct (Z.eqb_spec c 10) as [->|N].
  - left. exists []. auto.
  - destruct IH as [(b & Hb & E)|[Hn E]].
    + left. exists (c :: b). split; [cbn; intuition|]. cbn [app] in *. congruence.
    + right. split; [cbn; intuition|assumption].
Qed.
Lemma line_comment_ok b r : ~ In 10 b -> line_comment (b ++ [10] ++ r) = r.
Proof.
  induction b as [|c b IH]; intros H; [reflexivity|]. cbn [app line_comment]. destruct (Z.eqb_spec c 10) as [->|N]; [cbn in H; tauto|].
  apply IH. cbn in H. tauto.
Qed.
Lemma line_comment_eof b : ~ In 10 b -> line_comment b = [].
Proof.
  induction b as [|c b IH]; intros H; [reflexivity|]. cbn [line_comment]. destruct (Z.eqb_spec c 10) as [->|N]; [cbn in H; tauto|].
  apply IH. cbn in H. tauto.
Qed.

Lemma block_cons c d r : block_comment (c :: d :: r) = if (c =? 42) && (d =? 47) then (KeepParsing, r) else block_comment (d :: r).
Proof. reflexivity. Qed.
Lemma block_comment_spec : forall input,
  (exists b r, block_comment input = (KeepParsing, r) /\ input = b ++ [42; 47] ++ r /\ forall x y, b <> x ++ [42; 47] ++ y) \/
  block_comment input = (Invalid, []).
Proof.
  induction input as [|c r IH]; [now right|]. destruct r as [|d r']; [now right|]. rewrite block_cons.
  destruct (Z.eqb_spec c 42) as [->|N]; cbn [andb].
  - destruct (Z.eqb_spec d 47) as [->|N].
    + left. exists [], r'. repeat split. intros [|? ?] y; discriminate.
    + destruct IH as [(b & r & E & EI & HB)|E]; [|now right]. left. exists (42 :: b), r. split; [assumption|]. split; [now rewrite EI|].
      intros x y. destruct x as [|x0 x].
      * cbn [app]. intros E2. destruct b as [|b0 b]; [discriminate|]. cbn [app] in EI. injection E2 as E2 _. injection EI as EI _. lia.
      * cbn [app]. intros E2. injection E2 as _ E2. exact (HB x y E2).
  - destruct IH as [(b & r & E & EI & HB)|E]; [|now right]. left. exists (c :: b), r. split; [assumption|]. split; [now rewrite EI|].
    intros x y. destruct x as [|x0 x].
    + cbn [app]. congruence.
    + cbn [app]. intros E2. injection E2 as _ E2. exact (HB x y E2).
Qed.
Lemma block_comment_ok : forall b r, (forall x y, b <> x ++ [42; 47] ++ y) -> block_comment (b ++ [42; 47] ++ r) = (KeepParsing, r).
Proof.
  induction b as [|c b IH]; intros r H; [reflexivity|].
  assert (HB : forall x y, b <> x ++ [42; 47] ++ y).
  { intros x y E. apply (H (c :: x) y). cbn [app]. now rewrite E. }
  specialize (IH r HB). cbn [app]. destruct b as [|d b].
  - cbn [app] in *. rewrite block_cons. change (42 =? 47) with false. rewrite andb_false_r. exact IH.
  - cbn [app] in *. rewrite block_cons. destruct (Z.eqb_spec c 42) as [->|]; cbn [andb]; [|exact IH].
    destruct (Z.eqb_spec d 47) as [->|]; [|exact IH]. exfalso. now apply (H [] b).
Qed.

(** consume_comment on an input starting with a solidus. *)
Inductive comment_result (o : features) (r : list Z) : parse_state * list Z -> Prop :=
| cr_disabled : allow_comments o = false -> comment_result o r (Invalid, 47 :: r)
| cr_line b r' : allow_comments o = true -> ~ In 10 b -> r = [47] ++ b ++ [10] ++ r' -> comment_result o r (KeepParsing, r')
| cr_line_eof b : allow_comments o = true -> ~ In 10 b -> r = [47] ++ b -> comment_result o r (KeepParsing, [])
| cr_block b r' : allow_comments o = true -> (forall x y, b <> x ++ [42; 47] ++ y) -> r = [42] ++ b ++ [42; 47] ++ r' -> comment_result o r (KeepParsing, r')
| cr_open : allow_comments o = true -> comment_result o r (Invalid, [])
| cr_junk c r' : allow_comments o = true -> c <> 47 -> c <> 42 -> r = c :: r' -> comment_result o r (Invalid, r').
Lemma consume_comment_spec o r : comment_result o r (consume_comment o (47 :: r)).
Proof.
  unfold consume_comment. destruct (allow_comments o) eqn:EA; cbn [negb tl]; [|now constructor].
  destruct r as [|c r']; [now constructor|].
  destruct (Z.eqb_spec c 47) as [->|N1].
  - destruct (line_comment_spec r') as [(b & Hb & E)|[Hn E]].
    + apply (cr_line o _ b); [assumption|assumption|]. cbn [app] in *. congruence.
    + rewrite E. now apply (cr_line_eof o _ r').
  - destruct (Z.eqb_spec c 42) as [->|N2]; [|now apply (cr_junk o _ c)].
    destruct (block_comment_spec r') as [(b & r & -> & -> & HB)| ->]; [|now constructor].
    now apply (cr_block o _ b).
Qed.
Lemma comment_result_shorter o r s rest : comment_result o r (s, rest) -> (length rest <= S (length r))%nat /\ (s = KeepParsing -> (length rest < S (length r))%nat).
Proof.
  intros H. inversion H; subst; rewrite ?app_length; cbn [length app]; rewrite ?app_length; cbn [length]; rewrite ?app_length; cbn [length]; rewrite ?app_length; split; intros; try discriminate; lia.
Qed.

(** Fuel for white space and comments. *)
Lemma wsc_agree o : forall n m input, (length input <= n)%nat -> (length input <= m)%nat ->
  whitespace_and_comments n o input = whitespace_and_comments m o input /\ whitespace_and_comments n o input <> None.
Proof.
  induction n as [|n IH]; intros m input Hn Hm.
  - destruct input; [|cbn in Hn; lia]. destruct m; split; try reflexivity; discriminate.
  - cbn [whitespace_and_comments]. destruct (consume_whitespace input) as [|c r] eqn:EW.
    + destruct m; cbn [whitespace_and_comments]; rewrite EW; split; try reflexivity; discriminate.
    + pose proof (cws_length input) as HL. rewrite EW in HL. cbn [length] in HL.
      destruct m as [|m]; [lia|]. cbn [whitespace_and_comments]. rewrite EW.
      destruct (Z.eqb_spec c 47) as [->|]; [|split; [reflexivity|discriminate]].
      pose proof (consume_comment_spec o r) as HC. destruct (consume_comment o (47 :: r)) as [st rest] eqn:EC.
      destruct (comment_result_shorter _ _ _ _ HC) as [_ HS].
      destruct st; [split; [reflexivity|discriminate]| |]; [exfalso; inversion HC|].
      specialize (HS eq_refl). apply IH; lia.
Qed.
Lemma wsc_total o input : whitespace_and_comments (length input) o input <> None.
Proof. now apply (wsc_agree o (length input) (length input)). Qed.
Lemma wac_eq o input :
  consume_whitespace_and_comments o input =
  match consume_whitespace input with
  | c :: r => if c =? 47 then match consume_comment o (c :: r) with
                              | (Invalid, rest) => (Invalid, rest)
                              | (_, rest) => consume_whitespace_and_comments o rest
                              end
              else (KeepParsing, c :: r)
  | [] => (KeepParsing, [])
  end.
Proof.
  unfold consume_whitespace_and_comments at 1. pose proof (cws_length input) as HL.
  destruct (length input) as [|n] eqn:EL.
  - destruct input; [reflexivity|discriminate].
  - cbn [whitespace_and_comments]. destruct (consume_whitespace input) as [|c r] eqn:EW; [reflexivity|]. cbn [length] in HL.
    destruct (Z.eqb_spec c 47) as [->|]; [|reflexivity].
    pose proof (consume_comment_spec o r) as HC. destruct (consume_comment o (47 :: r)) as [st rest] eqn:EC.
    destruct (comment_result_shorter _ _ _ _ HC) as [_ HS].
    destruct st; [reflexivity| |]; [exfalso; inversion HC|]. specialize (HS eq_refl).
    unfold consume_whitespace_and_comments. destruct (wsc_agree o n (length rest) rest ltac:(lia) (le_n _)) as [EA NN]. rewrite <- EA.
    destruct (whitespace_and_comments n o rest); [reflexivity|congruence].
Qed.

Lemma gap_whites o w g : Forall white w -> gap o g -> gap o (w ++ g).
Proof. induction 1; intros; [assumption|]. cbn [app]. constructor; auto. Qed.
Lemma gap_app o a b : gap o a -> gap o b -> gap o (a ++ b).
Proof.
  induction 1 as [|c g Hc HG IH|x g HA HX HG IH|x g HA HX HG IH]; intros HB; [assumption|cbn [app]; constructor; auto| |].
  - rewrite <- !app_assoc. apply gap_line; auto.
  - rewrite <- !app_assoc. apply gap_block; auto.
Qed.
Lemma final_whites o w g : Forall white w -> final_gap o g -> final_gap o (w ++ g).
Proof.
  intros Hw [g' HG|g' b HG HA HB]; [constructor; now apply gap_whites|]. rewrite app_assoc. apply final_line; auto. now apply gap_whites.
Qed.
Lemma final_prepend o a g : gap o a -> final_gap o g -> final_gap o (a ++ g).
Proof.
  intros Ha [g' HG|g' b HG HA HB]; [constructor; now apply gap_app|]. rewrite app_assoc. apply final_line; auto. now apply gap_app.
Qed.

(** What consume_whitespace_and_comments did. *)
Definition wac_done (o : features) (input : list Z) (st : parse_state) (r : list Z) : Prop :=
  (st = KeepParsing /\ clean r /\ exists g, input = g ++ r /\ (gap o g \/ (r = [] /\ final_gap o g))) \/
  (st = Invalid /\ ((allow_comments o = false /\ exists r', r = 47 :: r') \/ r = [] \/
     exists g x, gap o g /\ junk o x /\ input = g ++ x ++ r)).
Lemma wac_spec o : forall n input, (length input <= n)%nat ->
  wac_done o input (fst (consume_whitespace_and_comments o input)) (snd (consume_whitespace_and_comments o input)) /\
  (length (snd (consume_whitespace_and_comments o input)) <= length input)%nat.
Proof.
  induction n as [|n IH]; intros input Hn.
  - destruct input; [|cbn in Hn; lia]. split; [|cbn; lia]. left. split; [reflexivity|]. split; [exact I|]. exists []. split; [reflexivity|]. left. constructor.
  - rewrite wac_eq. destruct (cws_spec input) as (w & Hw & E & HN). pose proof (cws_length input) as HL.
    destruct (consume_whitespace input) as [|c r].
    + split; [|cbn; lia]. left. split; [reflexivity|]. split; [exact I|]. exists w. rewrite app_nil_r in E. split; [now rewrite app_nil_r|]. left.
      rewrite <- (app_nil_r w). apply gap_whites; [assumption|constructor].
    + cbn [length] in HL. destruct (Z.eqb_spec c 47) as [->|N].
      * pose proof (consume_comment_spec o r) as HC. destruct (consume_comment o (47 :: r)) as [st rest].
        destruct (comment_result_shorter _ _ _ _ HC) as [HS1 HS].
        assert (ADD : forall g, gap o g -> forall rest, (length rest <= n)%nat -> input = g ++ rest ->
          wac_done o input (fst (consume_whitespace_and_comments o rest)) (snd (consume_whitespace_and_comments o rest))).
        { clear - IH. intros g HG rest HL ->. destruct (IH rest HL) as [[(E1 & CL & g2 & E2 & HG2)|(E1 & HI)] _].
          - left. split; [assumption|]. split; [assumption|]. exists (g ++ g2). rewrite <- app_assoc. split; [congruence|].
            destruct HG2 as [HG2|[E3 HG2]]; [left; now apply gap_app|right; split; [assumption|now apply final_prepend]].
          - right. split; [assumption|]. destruct HI as [HI|[HI|(g2 & x & HG2 & HX & E2)]]; [auto|auto|].
            right. right. exists (g ++ g2), x. split; [now apply gap_app|]. split; [assumption|]. rewrite <- app_assoc. congruence. }
        destruct st; [|exfalso; inversion HC|].
        -- split; [|cbn [snd]; lia]. right. cbn [fst snd]. split; [reflexivity|]. inversion HC; subst.
           ++ left. eauto.
           ++ auto.
           ++ right. right. exists w, [47; c]. split; [rewrite <- (app_nil_r w); apply gap_whites; [assumption|constructor]|].
              split; [now constructor|]. reflexivity.
        -- specialize (HS eq_refl).
           split; [|destruct (IH rest ltac:(lia)) as [_ HR]; lia].
           inversion HC; subst.
           ++ apply (ADD (w ++ [47; 47] ++ b ++ [10] ++ [])); [apply gap_whites; [assumption|]; apply gap_line; auto; constructor|lia|].
              rewrite <- !app_assoc. reflexivity.
           ++ rewrite wac_eq. cbn [consume_whitespace fst snd]. left. split; [reflexivity|]. split; [exact I|].
              exists (w ++ [47; 47] ++ b). rewrite app_nil_r. split; [reflexivity|]. right. split; [reflexivity|].
              apply final_line; auto. rewrite <- (app_nil_r w). apply gap_whites; [assumption|constructor].
           ++ apply (ADD (w ++ [47; 42] ++ b ++ [42; 47] ++ [])); [apply gap_whites; [assumption|]; apply gap_block; auto; constructor|lia|].
              rewrite <- !app_assoc. reflexivity.
      * split; [|cbn [snd length]; lia]. left. cbn [fst snd]. split; [reflexivity|]. split; [split; assumption|]. exists w. split; [assumption|]. left.
        rewrite <- (app_nil_r w). apply gap_whites; [assumption|constructor].
Qed.
Lemma wac_inv o input st r : consume_whitespace_and_comments o input = (st, r) -> wac_done o input st r.
Proof. intros E. pose proof (proj1 (wac_spec o (length input) input (le_n _))) as H. now rewrite E in H. Qed.
Lemma wac_length o input : (length (snd (consume_whitespace_and_comments o input)) <= length input)%nat.
Proof. exact (proj2 (wac_spec o (length input) input (le_n _))). Qed.

Lemma wac_white o c r : white c -> consume_whitespace_and_comments o (c :: r) = consume_whitespace_and_comments o r.
Proof.
  intros Hc. rewrite wac_eq. cbn [consume_whitespace]. rewrite (proj2 (is_whitespace_iff c) Hc). now rewrite <- wac_eq.
Qed.
Lemma solidus_not_white : is_whitespace 47 = false. Proof. reflexivity. Qed.
Lemma wac_line o b r : allow_comments o = true -> ~ In 10 b ->
  consume_whitespace_and_comments o ([47; 47] ++ b ++ [10] ++ r) = consume_whitespace_and_comments o r.
Proof.
  intros HA HB. rewrite wac_eq. cbn [app consume_whitespace]. rewrite solidus_not_white. change (47 =? 47) with true. cbv iota.
  unfold consume_comment. rewrite HA. cbn [negb tl]. change (47 =? 47) with true. cbv iota. change (b ++ 10 :: r) with (b ++ [10] ++ r). now rewrite line_comment_ok.
Qed.
Lemma wac_line_eof o b : allow_comments o = true -> ~ In 10 b ->
  consume_whitespace_and_comments o ([47; 47] ++ b) = (KeepParsing, []).
Proof.
  intros HA HB. rewrite wac_eq. cbn [app consume_whitespace]. rewrite solidus_not_white. change (47 =? 47) with true. cbv iota.
  unfold consume_comment. rewrite HA. cbn [negb tl]. change (47 =? 47) with true. cbv iota. now rewrite line_comment_eof.
Qed.
Lemma wac_block o b r : allow_comments o = true -> (forall x y, b <> x ++ [42; 47] ++ y) ->
  consume_whitespace_and_comments o ([47; 42] ++ b ++ [42; 47] ++ r) = consume_whitespace_and_comments o r.
Proof.
  intros HA HB. rewrite wac_eq. cbn [app consume_whitespace]. rewrite solidus_not_white. change (47 =? 47) with true. cbv iota.
  unfold consume_comment. rewrite HA. cbn [negb tl]. change (42 =? 47) with false. change (42 =? 42) with true. cbv iota. change (b ++ 42 :: 47 :: r) with (b ++ [42; 47] ++ r). now rewrite block_comment_ok.
Qed.
Lemma wac_gap o g r : gap o g -> consume_whitespace_and_comments o (g ++ r) = consume_whitespace_and_comments o r.
Proof.
  induction 1 as [|c g Hc HG IH|b g HA HB HG IH|b g HA HB HG IH]; [reflexivity| | |].
  - cbn [app]. now rewrite wac_white.
  - rewrite <- !app_assoc. now rewrite wac_line.
  - rewrite <- !app_assoc. now rewrite wac_block.
Qed.
Lemma wac_clean o r : clean r -> consume_whitespace_and_comments o r = (KeepParsing, r).
Proof.
  intros H. rewrite wac_eq. rewrite cws_not_white by (destruct r; [exact I|exact (proj1 H)]).
  destruct r as [|c r]; [reflexivity|]. destruct H as [_ H]. now rewrite (proj2 (Z.eqb_neq c 47) H).
Qed.
Lemma wac_ok o g r : gap o g -> clean r -> consume_whitespace_and_comments o (g ++ r) = (KeepParsing, r).
Proof. intros HG HC. rewrite wac_gap by assumption. now apply wac_clean. Qed.
Lemma wac_final o g : final_gap o g -> consume_whitespace_and_comments o g = (KeepParsing, []).
Proof.
  intros [g' HG|g' b HG HA HB].
  - rewrite <- (app_nil_r g'). apply wac_ok; [assumption|exact I].
  - rewrite wac_gap by assumption. now apply wac_line_eof.
Qed.
Lemma wac_junk o g x r : gap o g -> junk o x -> consume_whitespace_and_comments o (g ++ x ++ r) = (Invalid, r).
Proof.
  intros HG [c HA H1 H2]. rewrite wac_gap by assumption. rewrite wac_eq. cbn [app consume_whitespace].
  rewrite solidus_not_white. change (47 =? 47) with true. cbv iota. unfold consume_comment. rewrite HA. cbn [negb tl].
  now rewrite (proj2 (Z.eqb_neq c 47)), (proj2 (Z.eqb_neq c 42)).
Qed.

(** * state_for_object_or_array, consume_token, consume_comma *)
Lemma state_ok_stop o e g r : gap o g -> ~ white e -> e <> 47 -> state_for_object_or_array o e (g ++ e :: r) = (StopParsing, r).
Proof. intros HG H1 H2. unfold state_for_object_or_array. rewrite wac_ok; [|assumption|split; assumption]. now rewrite Z.eqb_refl. Qed.
Lemma state_ok_keep o e g c r : gap o g -> clean (c :: r) -> c <> e -> state_for_object_or_array o e (g ++ c :: r) = (KeepParsing, c :: r).
Proof. intros HG HC H. unfold state_for_object_or_array. rewrite wac_ok by assumption. now rewrite (proj2 (Z.eqb_neq c e)). Qed.
Lemma state_junk o e g x r : gap o g -> junk o x -> state_for_object_or_array o e (g ++ x ++ r) = (Invalid, r).
Proof. intros HG HX. unfold state_for_object_or_array. now rewrite wac_junk. Qed.

Lemma state_inv o e input st r : state_for_object_or_array o e input = (st, r) ->
  match st with
  | StopParsing => exists g, gap o g /\ input = g ++ e :: r
  | KeepParsing => exists g c r', gap o g /\ r = c :: r' /\ input = g ++ r /\ clean r /\ c <> e
  | Invalid => (allow_comments o = false /\ exists r', r = 47 :: r') \/ r = [] \/ exists g x, gap o g /\ junk o x /\ input = g ++ x ++ r
  end.
Proof.
  unfold state_for_object_or_array. destruct (consume_whitespace_and_comments o input) as [st1 r1] eqn:E.
  apply wac_inv in E. destruct E as [(-> & CL & g & EI & HG)|(-> & HI)].
  - destruct r1 as [|c r1].
    + intros H. assert (EA : st = Invalid /\ r = []) by (split; congruence). destruct EA as [-> ->]. auto.
    + assert (GAP : gap o g) by (destruct HG as [HG|[? _]]; [assumption|discriminate]).
      destruct (Z.eqb_spec c e) as [->|N]; intros H.
      * assert (EA : st = StopParsing /\ r = r1) by (split; congruence). destruct EA as [-> ->]. eauto.
      * assert (EA : st = KeepParsing /\ r = c :: r1) by (split; congruence). destruct EA as [-> ->]. exists g, c, r1. auto.
  - intros H. assert (EA : st = Invalid /\ r = r1) by (split; congruence). destruct EA as [-> ->]. exact HI.
Qed.
Lemma state_length o e input : (length (snd (state_for_object_or_array o e input)) <= length input)%nat /\
  (fst (state_for_object_or_array o e input) = StopParsing -> (length (snd (state_for_object_or_array o e input)) < length input)%nat).
Proof.
  unfold state_for_object_or_array. pose proof (wac_length o input) as HL.
  destruct (consume_whitespace_and_comments o input) as [st1 r1]. cbn [snd] in HL.
  assert (NS : forall (x : list Z), Invalid = StopParsing -> (length x < length input)%nat) by (intros; discriminate).
  destruct st1; cbn [snd fst]; [split; [lia|discriminate]| |];
    (destruct r1 as [|c r1]; [cbn [fst snd length] in *; split; [lia|discriminate]|]; cbn [length] in HL; destruct (c =? e); cbn [fst snd length]; split; [lia|lia|lia|discriminate]).
Qed.

Lemma token_ok t w r : Forall white w -> ~ white t -> consume_token t (w ++ t :: r) = (KeepParsing, r).
Proof. intros Hw Ht. unfold consume_token. rewrite cws_ok by assumption. now rewrite Z.eqb_refl. Qed.
Lemma token_inv t input r : consume_token t input = (KeepParsing, r) -> exists w, Forall white w /\ input = w ++ t :: r.
Proof.
  unfold consume_token. destruct (cws_spec input) as (w & Hw & E & _). destruct (consume_whitespace input) as [|c r1]; [discriminate|].
  destruct (Z.eqb_spec c t) as [->|]; [|discriminate]. intros H. injection H as <-. eauto.
Qed.
Lemma token_state t input : fst (consume_token t input) <> StopParsing.
Proof. unfold consume_token. destruct (consume_whitespace input) as [|c r]; [discriminate|]. destruct (c =? t); discriminate. Qed.

Lemma comma_inv o e input st r : consume_comma o e input = (st, r) -> clean input ->
  match st with
  | StopParsing => allow_trailing_comma o = true /\ exists g, gap o g /\ input = [44] ++ g ++ e :: r
  | KeepParsing => exists r1, input = [44] ++ r1 /\
      ((exists g c r', gap o g /\ r = c :: r' /\ r1 = g ++ r /\ clean r /\ c <> e) \/
       (allow_comments o = false /\ exists r', r = 47 :: r') \/ r = [] \/
       exists g x, gap o g /\ junk o x /\ r1 = g ++ x ++ r)
  | Invalid => True
  end.
Proof.
  unfold consume_comma. intros E CL. pose proof (token_state 44 input) as HT. destruct (consume_token 44 input) as [st1 r1] eqn:ET.
  destruct st1; [injection E as <- _; exact I|exfalso; now apply HT|].
  apply token_inv in ET. destruct ET as (w & Hw & ->).
  assert (w = []) as ->. { destruct Hw as [|c w Hc _]; [reflexivity|]. cbn in CL. tauto. }
  destruct (state_for_object_or_array o e r1) as [st2 r2] eqn:ES. apply state_inv in ES.
  destruct st2.
  - assert (EA : st = KeepParsing /\ r = r2) by (split; congruence). destruct EA as [-> ->]. exists r1. auto.
  - destruct (allow_trailing_comma o) eqn:EA; [|injection E as <- _; exact I].
    assert (EB : st = StopParsing /\ r = r2) by (split; congruence). destruct EB as [-> ->].
    split; [reflexivity|]. destruct ES as (g & HG & ->). exists g. auto.
  - assert (EA : st = KeepParsing /\ r = r2) by (split; congruence). destruct EA as [-> ->]. exists r1. auto.
Qed.
Lemma token_comma r : consume_token 44 (44 :: r) = (KeepParsing, r).
Proof. reflexivity. Qed.
Lemma comma_ok_stop o e g r : allow_trailing_comma o = true -> gap o g -> ~ white e -> e <> 47 ->
  consume_comma o e (44 :: g ++ e :: r) = (StopParsing, r).
Proof.
  intros HA HG H1 H2. unfold consume_comma. rewrite token_comma.
  rewrite state_ok_stop by assumption. now rewrite HA.
Qed.
Lemma comma_ok_keep o e g c r : gap o g -> clean (c :: r) -> c <> e -> consume_comma o e (44 :: g ++ c :: r) = (KeepParsing, c :: r).
Proof.
  intros HG HC H. unfold consume_comma. rewrite token_comma. now rewrite state_ok_keep.
Qed.
Lemma comma_ok_junk o e g x r : gap o g -> junk o x -> consume_comma o e (44 :: g ++ x ++ r) = (KeepParsing, r).
Proof.
  intros HG HX. unfold consume_comma. rewrite token_comma. now rewrite state_junk.
Qed.
Lemma token_length t input : fst (consume_token t input) = KeepParsing -> (length (snd (consume_token t input)) < length input)%nat.
Proof.
  unfold consume_token. pose proof (cws_length input) as HL. destruct (consume_whitespace input) as [|c r]; [discriminate|].
  cbn [length] in HL. destruct (c =? t); cbn [fst snd]; [lia|discriminate].
Qed.
Lemma comma_length o e input : fst (consume_comma o e input) <> Invalid -> (length (snd (consume_comma o e input)) < length input)%nat.
Proof.
  unfold consume_comma. pose proof (token_length 44 input) as HT. destruct (consume_token 44 input) as [st1 r1] eqn:E.
  destruct st1; [now intros H; exfalso; apply H|pose proof (token_state 44 input) as H; rewrite E in H; now exfalso; apply H|].
  cbn [fst snd] in HT. specialize (HT eq_refl). pose proof (proj1 (state_length o e r1)) as HL.
  destruct (state_for_object_or_array o e r1) as [st2 r2]. cbn [snd] in HL.
  destruct st2; [| destruct (allow_trailing_comma o)|]; cbn [fst snd]; intros; try lia.
Qed.

(** * Quoted strings *)
Lemma quoted_sound : forall n input v rest, (length input <= n)%nat -> quoted input = Some (v, rest) -> input = v ++ 34 :: rest.
Proof.
  induction n as [|n IH]; intros input v rest HL E.
  - destruct input; [discriminate|cbn in HL; lia].
  - destruct input as [|c r]; [discriminate|]. cbn [quoted] in E. cbn [length] in HL.
    destruct (Z.eqb_spec c 34) as [->|]; [injection E as <- <-; reflexivity|].
    destruct (Z.eqb_spec c 92) as [->|].
    + destruct r as [|d r]; [discriminate|]. cbn [length] in HL. destruct (quoted r) as [[v' rest']|] eqn:EQ; [|discriminate].
      injection E as <- <-. apply IH in EQ; [|lia]. cbn [app]. congruence.
    + destruct (quoted r) as [[v' rest']|] eqn:EQ; [|discriminate]. injection E as <- <-. apply IH in EQ; [|lia]. cbn [app]. congruence.
Qed.
Lemma hex_not_special c v : hex_digit c v -> c <> 34 /\ c <> 92.
Proof. unfold hex_digit. lia. Qed.
Lemma quoted_plain c r v rest : c <> 34 -> c <> 92 -> quoted r = Some (v, rest) -> quoted (c :: r) = Some (c :: v, rest).
Proof. intros H1 H2 E. cbn [quoted]. rewrite (proj2 (Z.eqb_neq c 34)), (proj2 (Z.eqb_neq c 92)) by assumption. now rewrite E. Qed.
Lemma quoted_hex4 h x r v rest : hex4 h x -> quoted r = Some (v, rest) -> quoted (h ++ r) = Some (h ++ v, rest).
Proof.
  intros (a & b & c & d & a' & b' & c' & d' & -> & Ha & Hb & Hc & Hd & _) E. cbn [app].
  apply hex_not_special in Ha, Hb, Hc, Hd. repeat (apply quoted_plain; [tauto|tauto|]). exact E.
Qed.
Lemma quoted_escape e r v rest : quoted r = Some (v, rest) -> quoted (92 :: e :: r) = Some (92 :: e :: v, rest).
Proof. intros E. cbn [quoted]. change (92 =? 34) with false. change (92 =? 92) with true. cbv iota. now rewrite E. Qed.
Lemma quoted_literal w s : literal w s -> forall rest, quoted (w ++ 34 :: rest) = Some (w, rest).
Proof.
  induction 1 as [|c w s H1 H2 H3 HL IH|e c w s HI HL IH|h v w s Hh HS HL IH|h l hv lv v w s Hh Hl Hv EH EL HL IH]; intros rest.
  - reflexivity.
  - cbn [app]. apply quoted_plain; auto.
  - cbn [app]. apply quoted_escape; auto.
  - cbn [app]. apply quoted_escape. rewrite <- app_assoc. eapply quoted_hex4; eauto.
  - cbn [app]. apply quoted_escape. rewrite <- app_assoc. eapply quoted_hex4; eauto.
    cbn [app]. apply quoted_escape. rewrite <- app_assoc. eapply quoted_hex4; eauto.
Qed.
Lemma pqs_inv input v rest : parse_quoted_string input = Some (v, rest) -> exists w, Forall white w /\ input = w ++ [34] ++ v ++ [34] ++ rest.
Proof.
  unfold parse_quoted_string. destruct (consume_token 34 input) as [st r] eqn:E. pose proof (token_state 34 input) as HT. rewrite E in HT.
  destruct st; [discriminate|now exfalso; apply HT|]. apply token_inv in E. destruct E as (w & Hw & ->). intros E.
  apply (quoted_sound (length r) r) in E; [|lia]. subst r. eauto.
Qed.
Lemma pqs_ok w v s rest : Forall white w -> literal v s -> parse_quoted_string (w ++ [34] ++ v ++ [34] ++ rest) = Some (v, rest).
Proof.
  intros Hw HL. unfold parse_quoted_string. cbn [app]. rewrite token_ok; [|assumption|unfold white; lia]. now apply quoted_literal with (s := s).
Qed.

(** * Literals *)
Lemma keep_value_iff c : keep_value c = true <-> ~ stop c.
Proof.
  unfold keep_value, stop. rewrite negb_true_iff, !orb_false_iff, is_whitespace_false, !Z.eqb_neq. tauto.
Qed.
Lemma consume_value_spec : forall input, exists v, consume_value input = (v, skipn (length v) input) /\ input = v ++ skipn (length v) input /\
  Forall (fun c => ~ stop c) v.
Proof.
  induction input as [|c r IH]; [exists []; repeat split; constructor|]. cbn [consume_value].
  destruct (keep_value c) eqn:E.
  - destruct IH as (v & E1 & E2 & HF). rewrite E1. exists (c :: v). cbn [length skipn app]. repeat split; [congruence|].
    constructor; [now apply keep_value_iff|assumption].
  - exists []. repeat split. constructor.
Qed.
Definition stops (r : list Z) : Prop := match r with c :: _ => stop c | [] => True end.
Lemma consume_value_ok : forall v r, Forall (fun c => ~ stop c) v -> stops r -> consume_value (v ++ r) = (v, r).
Proof.
  induction v as [|c v IH]; intros r HF HS.
  - destruct r as [|c r]; [reflexivity|]. cbn [app consume_value]. cbn in HS. destruct (keep_value c) eqn:E; [|reflexivity].
    apply keep_value_iff in E. contradiction.
  - inversion HF; subst. cbn [app consume_value]. rewrite (proj2 (keep_value_iff c)) by assumption. now rewrite IH.
Qed.
Lemma string_eqb_eq a : forall b, string_eqb a b = true <-> a = b.
Proof.
  induction a as [|x a IH]; intros [|y b]; cbn; [tauto|split; discriminate|split; discriminate|].
  rewrite andb_true_iff, Z.eqb_eq, IH. split; [intros [-> ->]; reflexivity|intros E; now injection E].
Qed.

Lemma find_char_none ch s : find_char ch s = None <-> ~ In ch s.
Proof.
  induction s as [|c s IH]; cbn [find_char In]; [tauto|]. destruct (Z.eqb_spec c ch) as [->|N]; [split; [discriminate|tauto]|].
  destruct (find_char ch s); cbn [option_map]; [split; [discriminate|intuition congruence]|]. intuition.
Qed.
Lemma find_char_some ch s i : find_char ch s = Some i <-> exists a b, s = a ++ [ch] ++ b /\ ~ In ch a /\ length a = i.
Proof.
  revert i. induction s as [|c s IH]; intros i; cbn [find_char].
  - split; [discriminate|]. intros ([|? ?] & b & E & _); discriminate.
  - destruct (Z.eqb_spec c ch) as [->|N].
    + split.
      * intros E. injection E as <-. exists [], s. auto.
      * intros ([|x a] & b & E & HI & HL); [cbn in HL; congruence|]. injection E as <- E. cbn in HI. tauto.
    + split.
      * intros E. apply option_map_some in E. destruct E as (k & E & ->). apply IH in E. destruct E as (a & b & -> & HI & <-).
        exists (c :: a), b. cbn. intuition.
      * intros ([|x a] & b & E & HI & HL); [cbn in E; congruence|]. cbn in E. injection E as <- E. cbn in HL, HI.
        assert (F : find_char ch s = Some (length a)) by (apply IH; exists a, b; intuition). rewrite F. cbn. congruence.
Qed.
Lemma is_digit_iff c : is_digit c = true <-> digit_of 10 false c.
Proof. unfold is_digit, digit_of. rewrite andb_true_iff, !Z.leb_le. lia. Qed.
Lemma is_digit_false c : is_digit c = false <-> ~ digit_of 10 false c.
Proof. rewrite <- is_digit_iff. destruct (is_digit c); split; congruence. Qed.
