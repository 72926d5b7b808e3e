(** The parser against the grammar: fuel, soundness, completeness. *)
From Verif Require Import Common Unicode_Spec Format_Spec Unicode_Model Format_Model.
From Verif Require Import Json_Model Json_Spec Json_String_Proofs Json_Parser_Proofs Json_Token_Proofs.

Scheme value_mind := Induction for value Sort Prop
with elements_mind := Induction for elements Sort Prop
with members_mind := Induction for members Sort Prop
with member_mind := Induction for member Sort Prop.
Combined Scheme grammar_mind from value_mind, elements_mind, members_mind, member_mind.

Section Parser.
Variables (fp : fp_text) (sg : bool) (o : features).
Notation pj n x := (parse_json n fp sg o x).
Notation pa n acc x := (parse_array n fp sg o acc x).
Notation po n acc x := (parse_object n fp sg o acc x).

(** * More fuel does not change a result *)
Lemma parser_mono : forall n,
  (forall m x, (n <= m)%nat -> pj n x <> OutOfFuel -> pj m x = pj n x) /\
  (forall m acc x, (n <= m)%nat -> po n acc x <> OutOfFuel -> po m acc x = po n acc x) /\
  (forall m acc x, (n <= m)%nat -> pa n acc x <> OutOfFuel -> pa m acc x = pa n acc x).
Proof.
  induction n as [|n (IJ & IO & IA)]; [repeat split; intros; exfalso; auto|].
  repeat split.
  - intros [|m] x HM HN; [lia|]. assert (HL : (n <= m)%nat) by lia. cbn [parse_json] in *.
    destruct (consume_whitespace_and_comments o x) as [[| |] [|c r]]; try reflexivity;
    (destruct (c =? 123); [now apply IO|]; destruct (c =? 91); [now apply IA|]; reflexivity).
  - intros [|m] acc x HM HN; [lia|]. assert (HL : (n <= m)%nat) by lia. cbn [parse_object] in *.
    destruct (state_for_object_or_array o 125 x) as [[| |] x1]; try reflexivity.
    destruct (if nonempty acc then _ else _) as [[| |] x2]; try reflexivity.
    destruct (parse_quoted_string x2) as [[key x3]|]; try reflexivity.
    destruct (consume_token 58 x3) as [[| |] x4]; try reflexivity;
    (destruct (pj n x4) as [v x5| |] eqn:EV;
     [rewrite (IJ m) by (auto; congruence); rewrite EV; destruct (convert_to_string sg key); [now apply IO|reflexivity]
     |rewrite (IJ m) by (auto; congruence); now rewrite EV
     |now destruct HN]).
  - intros [|m] acc x HM HN; [lia|]. assert (HL : (n <= m)%nat) by lia. cbn [parse_array] in *.
    destruct (state_for_object_or_array o 93 x) as [[| |] x1]; try reflexivity.
    destruct (if nonempty acc then _ else _) as [[| |] x2]; try reflexivity.
    destruct (pj n x2) as [v x5| |] eqn:EV;
     [rewrite (IJ m) by (auto; congruence); rewrite EV; now apply IA
     |rewrite (IJ m) by (auto; congruence); now rewrite EV
     |now destruct HN].
Qed.
Lemma pj_mono n m x j r : (n <= m)%nat -> pj n x = Done j r -> pj m x = Done j r.
Proof. intros HL E. rewrite (proj1 (parser_mono n) m x HL) by congruence. exact E. Qed.
Lemma po_mono n m acc x j r : (n <= m)%nat -> po n acc x = Done j r -> po m acc x = Done j r.
Proof. intros HL E. rewrite (proj1 (proj2 (parser_mono n)) m acc x HL) by congruence. exact E. Qed.
Lemma pa_mono n m acc x j r : (n <= m)%nat -> pa n acc x = Done j r -> pa m acc x = Done j r.
Proof. intros HL E. rewrite (proj2 (proj2 (parser_mono n)) m acc x HL) by congruence. exact E. Qed.

(** * Termination *)
Lemma pqs_length x v r : parse_quoted_string x = Some (v, r) -> (length r < length x)%nat.
Proof. intros E. destruct (pqs_inv _ _ _ E) as (w & _ & ->). rewrite !app_length. cbn [length]. lia. Qed.
Lemma token_len t x st r : consume_token t x = (st, r) -> (length r <= length x)%nat.
Proof.
  unfold consume_token. pose proof (cws_length x) as HL. destruct (consume_whitespace x) as [|c r1]; cbn [length] in HL.
  - intros E. injection E as <- <-. cbn [length]. lia.
  - destruct (c =? t); intros E; injection E as <- <-; lia.
Qed.

Lemma terminates : forall n,
  (forall x, (2 * length x + 1 <= n)%nat -> pj n x <> OutOfFuel /\ forall j r, pj n x = Done j r -> (length r < length x)%nat) /\
  (forall acc x, (2 * length x + 2 <= n)%nat -> po n acc x <> OutOfFuel /\ forall j r, po n acc x = Done j r -> (length r < length x)%nat) /\
  (forall acc x, (2 * length x + 2 <= n)%nat -> pa n acc x <> OutOfFuel /\ forall j r, pa n acc x = Done j r -> (length r < length x)%nat).
Proof.
  induction n as [|n (IJ & IO & IA)]; [repeat apply conj; intros; lia|].
  assert (FAIL : forall x : list Z, Fail <> OutOfFuel /\ forall j r, Fail = Done j r -> (length r < length x)%nat)
    by (split; intros; discriminate).
  repeat apply conj.
  - intros x HL. cbn [parse_json]. pose proof (wac_length o x) as HW.
    destruct (consume_whitespace_and_comments o x) as [st x1]. cbn [snd] in HW.
    destruct st; [apply FAIL| |].
    all: destruct x1 as [|c r]; [apply FAIL|cbn [length] in HW].
    all: destruct (c =? 123); [destruct (IO [] r) as [H1 H2]; [lia|]; split; [exact H1|]; intros j r' E; specialize (H2 _ _ E); lia|].
    all: destruct (c =? 91); [destruct (IA [] r) as [H1 H2]; [lia|]; split; [exact H1|]; intros j r' E; specialize (H2 _ _ E); lia|].
    all: destruct (c =? 34);
      [destruct (parse_quoted_string (c :: r)) as [[t rest]|] eqn:EQ; [|apply FAIL]; apply pqs_length in EQ; cbn [length] in EQ;
       destruct (convert_to_string sg t); [|apply FAIL]; split; [discriminate|]; intros j r' E; injection E as _ <-; lia|].
    all: destruct (consume_value_spec (c :: r)) as (v & EV & E2 & _); rewrite EV; apply (f_equal (@length Z)) in E2; rewrite app_length in E2;
      destruct (value_of_text fp v) as [j|] eqn:ET; [|apply FAIL];
      split; [discriminate|]; intros j' r' E; injection E as _ <-;
      destruct v as [|d v]; [discriminate ET|]; remember (skipn (length (d :: v)) (c :: r)) as q eqn:EQ; clear EQ;
      cbn [length] in *; lia.
  - intros acc x HL. cbn [parse_object]. destruct (state_length o 125 x) as [HS1 HS2].
    destruct (state_for_object_or_array o 125 x) as [st x1]. cbn [fst snd] in HS1, HS2.
    destruct st; [apply FAIL| |].
    + specialize (HS2 eq_refl). split; [discriminate|]. intros j r E. injection E as _ <-. exact HS2.
    + clear HS2. assert (HC : match (if nonempty acc then consume_comma o 125 x1 else (KeepParsing, x1)) with
        | (Invalid, _) => True | (StopParsing, x2) => (length x2 < length x)%nat | (_, x2) => (length x2 <= length x)%nat end).
      { destruct (nonempty acc); [|exact HS1]. pose proof (comma_length o 125 x1) as HC.
        destruct (consume_comma o 125 x1) as [[| |] x2]; cbn [fst snd] in HC; [exact I| |]; (assert (length x2 < length x1)%nat by (apply HC; discriminate)); lia. }
      destruct (if nonempty acc then _ else _) as [[| |] x2]; [apply FAIL| |].
      * split; [discriminate|]. intros j r E. injection E as _ <-. exact HC.
      * destruct (parse_quoted_string x2) as [[key x3]|] eqn:EQ; [|apply FAIL]. apply pqs_length in EQ.
        destruct (consume_token 58 x3) as [st x4] eqn:ET. apply token_len in ET.
        assert (G : pj n x4 <> OutOfFuel /\ forall j r, pj n x4 = Done j r -> (length r < length x4)%nat) by (apply IJ; lia).
        destruct G as [G1 G2].
        destruct st; [apply FAIL| |].
        all: destruct (pj n x4) as [v x5| |] eqn:EV; [|apply FAIL|now destruct G1];
             specialize (G2 _ _ eq_refl); destruct (convert_to_string sg key); [|apply FAIL];
             (destruct (IO (insert_or_assign l v acc) x5) as [H1 H2]; [lia|]); split; [exact H1|];
             intros j r E; specialize (H2 _ _ E); lia.
  - intros acc x HL. cbn [parse_array]. destruct (state_length o 93 x) as [HS1 HS2].
    destruct (state_for_object_or_array o 93 x) as [st x1] eqn:EST. cbn [fst snd] in HS1, HS2.
    destruct st; [apply FAIL| |].
    + specialize (HS2 eq_refl). split; [discriminate|]. intros j r E. injection E as _ <-. exact HS2.
    + clear HS2. assert (HC : match (if nonempty acc then consume_comma o 93 x1 else (KeepParsing, x1)) with
        | (Invalid, _) => True | (StopParsing, x2) => (length x2 < length x)%nat | (_, x2) => (length x2 <= length x)%nat end).
      { destruct (nonempty acc); [|exact HS1]. pose proof (comma_length o 93 x1) as HC.
        destruct (consume_comma o 93 x1) as [[| |] x2]; cbn [fst snd] in HC; [exact I| |]; (assert (length x2 < length x1)%nat by (apply HC; discriminate)); lia. }
      destruct (if nonempty acc then _ else _) as [[| |] x2]; [apply FAIL| |].
      * split; [discriminate|]. intros j r E. injection E as _ <-. exact HC.
      * assert (G : pj n x2 <> OutOfFuel /\ forall j r, pj n x2 = Done j r -> (length r < length x2)%nat) by (apply IJ; lia).
        destruct G as [G1 G2].
        destruct (pj n x2) as [v x5| |] eqn:EV; [|apply FAIL|now destruct G1]. specialize (G2 _ _ eq_refl).
        destruct (IA (acc ++ [v]) x5) as [H1 H2]; [lia|]. split; [exact H1|].
        intros j r E; specialize (H2 _ _ E); lia.
Qed.

(** * Soundness *)
Definition array_tail (w : list Z) (l : list json) : Prop :=
  exists g, gap o g /\
  ((exists t, w = g ++ t /\ trailing o t /\ l = []) \/
   (exists r, w = g ++ [44] ++ r /\ elements fp o r l) \/
   (exists g' x r, w = g ++ [44] ++ g' ++ x ++ r /\ gap o g' /\ junk o x /\ elements fp o r l)).
Definition array_form (acc : list json) (w : list Z) (l : list json) : Prop :=
  if nonempty acc then array_tail w l else (l = [] /\ gap o w) \/ elements fp o w l.
Definition object_tail (w : list Z) (l : list (list Z * json)) : Prop :=
  exists g, gap o g /\
  ((exists t, w = g ++ t /\ trailing o t /\ l = []) \/
   (exists r, w = g ++ [44] ++ r /\ members fp o r l) \/
   (exists g' x s r, w = g ++ [44] ++ g' ++ x ++ s ++ r /\ gap o g' /\ junk o x /\ Forall white s /\ hd 0 r = 34 /\ members fp o r l)).
Definition object_form (acc : list (list Z * json)) (w : list Z) (l : list (list Z * json)) : Prop :=
  if nonempty acc then object_tail w l else (l = [] /\ gap o w) \/ members fp o w l.

Lemma elements_tail g w j t l : gap o g -> value fp o w j -> array_tail t l -> elements fp o (g ++ w ++ t) (j :: l).
Proof.
  intros HG HV (g' & HG' & [(t' & -> & HT & ->)|[(r & -> & HE)|(g2 & x & r & -> & HG2 & HX & HE)]]).
  - now apply e_last.
  - now apply e_more.
  - now apply e_more_junk.
Qed.
Lemma members_tail g w k j t l : gap o g -> member fp o w k j -> object_tail t l -> members fp o (g ++ w ++ t) ((k, j) :: l).
Proof.
  intros HG HV (g' & HG' & [(t' & -> & HT & ->)|[(r & -> & HE)|(g2 & x & s & r & -> & HG2 & HX & HS & HH & HE)]]).
  - now apply m_last.
  - now apply m_more.
  - now apply m_more_junk.
Qed.

Lemma pj_disabled n r : allow_comments o = false -> forall j rest, pj n (47 :: r) <> Done j rest.
Proof.
  intros HA j rest. destruct n; [discriminate|]. cbn [parse_json]. rewrite wac_eq. cbn [consume_whitespace].
  change (is_whitespace 47) with false. cbv iota. change (47 =? 47) with true. cbv iota. unfold consume_comment. rewrite HA. discriminate.
Qed.
Lemma pj_empty n : forall j rest, pj n [] <> Done j rest.
Proof. intros j rest. destruct n; discriminate. Qed.

Lemma sound : forall n,
  (forall x j r, Forall byte x -> pj n x = Done j r -> exists g w, x = g ++ w ++ r /\ gap o g /\ value fp o w j) /\
  (forall acc x j r, Forall byte x -> po n acc x = Done j r ->
     exists ms w, j = JObject (insert_all ms acc) /\ x = w ++ [125] ++ r /\ object_form acc w ms) /\
  (forall acc x j r, Forall byte x -> pa n acc x = Done j r ->
     exists l w, j = JArray (acc ++ l) /\ x = w ++ [93] ++ r /\ array_form acc w l).
Proof.
  induction n as [|n (IJ & IO & IA)]; [repeat apply conj; intros; discriminate|].
  repeat apply conj.
  - intros x j r HB E. cbn [parse_json] in E. destruct (consume_whitespace_and_comments o x) as [st x1] eqn:EW.
    apply wac_inv in EW. destruct EW as [(-> & HC & g & -> & HG)|(-> & _)]; [|discriminate].
    destruct x1 as [|c x1]; [discriminate E|].
    destruct HG as [HG|[HG _]]; [|discriminate HG].
    apply Forall_app in HB. destruct HB as [_ HB]. exists g.
    destruct (Z.eqb_spec c 123) as [->|N1].
    { apply IO in E; [|now inversion HB]. destruct E as (ms & w & -> & -> & HF). exists ([123] ++ w ++ [125]).
      split; [now rewrite <- !app_assoc|]. split; [assumption|]. cbn [object_form nonempty] in HF. destruct HF as [[-> HF]|HF].
      - now apply v_object_empty.
      - eapply v_object; [exact HF|apply insert_all_map]. }
    destruct (Z.eqb_spec c 91) as [->|N2].
    { apply IA in E; [|now inversion HB]. destruct E as (l & w & -> & -> & HF). exists ([91] ++ w ++ [93]).
      split; [now rewrite <- !app_assoc|]. split; [assumption|]. cbn [array_form nonempty] in HF. destruct HF as [[-> HF]|HF].
      - now apply v_array_empty.
      - now apply v_array. }
    destruct (Z.eqb_spec c 34) as [->|N3].
    { destruct (parse_quoted_string (34 :: x1)) as [[t rest]|] eqn:EQ; [|discriminate].
      apply pqs_inv in EQ. destruct EQ as (w & Hw & EQ).
      assert (w = []). { destruct w as [|d w]; [reflexivity|]. injection EQ as <- _. inversion Hw; subst. unfold white in *. lia. }
      subst w. cbn [app] in EQ. injection EQ as EQ.
      destruct (convert_to_string sg t) as [s|] eqn:EC; [|discriminate]. injection E as <- <-.
      apply construct_iff in EC; [|subst x1; inversion HB as [|? ? ? HB2]; apply Forall_app in HB2; tauto].
      exists ([34] ++ t ++ [34]). split; [subst x1; now rewrite <- !app_assoc|]. split; [assumption|]. now apply v_string. }
    destruct (consume_value_spec (c :: x1)) as (v & EV & E2 & HF). rewrite EV in E.
    destruct (value_of_text fp v) as [j'|] eqn:ET; [|discriminate]. injection E as <- <-. exists v. split; [now rewrite <- E2|].
    split; [assumption|]. apply v_token. now apply value_of_text_iff.
  - intros acc x j r HB E. cbn [parse_object] in E. destruct (state_for_object_or_array o 125 x) as [st x1] eqn:ES.
    apply state_inv in ES. destruct st; [discriminate| |].
    { destruct ES as (g & HG & ->). injection E as <- <-. exists [], g. split; [reflexivity|]. split; [reflexivity|].
      unfold object_form. destruct (nonempty acc); [|now left]. exists g. split; [assumption|]. left. exists []. rewrite app_nil_r. repeat split. constructor. }
    destruct ES as (g & c & x1' & HG & EX1 & -> & HC & HNE).
    (* the member and what follows it *)
    assert (STEP : forall y rest', Forall byte y ->
      match parse_quoted_string y with
              | None => Fail
              | Some (key, input3) =>
                  match consume_token 58 input3 with
                  | (Invalid, _) => Fail
                  | (_, input4) =>
                      match pj n input4 with
                      | Done value input5 =>
                          match convert_to_string sg key with
                          | Some key' => po n (insert_or_assign key' value acc) input5
                          | None => Fail
                          end
                      | Fail => Fail
                      | OutOfFuel => OutOfFuel
                      end
                  end
      end = Done j rest' -> exists s w t k v ms, Forall white s /\ y = s ++ w ++ t ++ [125] ++ rest' /\ member fp o w k v /\ hd 0 w = 34 /\
         object_tail t ms /\ j = JObject (insert_all ((k, v) :: ms) acc)).
    { clear E. intros y rest' HBy E. destruct (parse_quoted_string y) as [[key y3]|] eqn:EQ; [|discriminate].
      apply pqs_inv in EQ. destruct EQ as (s & Hs & ->).
      destruct (consume_token 58 y3) as [st y4] eqn:ET.
      assert (ET' : st = KeepParsing \/ st = Invalid) by (pose proof (token_state 58 y3) as HT; rewrite ET in HT; destruct st; auto; now destruct HT).
      destruct ET' as [->| ->]; [|discriminate].
      apply token_inv in ET. destruct ET as (s2 & Hs2 & ->).
      destruct (pj n y4) as [v y5| |] eqn:EV; try discriminate.
      assert (HB4 : Forall byte y4 /\ Forall byte key).
      { rewrite !Forall_app in HBy. destruct HBy as (_ & _ & Hk & _ & _ & HB4). inversion HB4; auto. }
      destruct HB4 as [HB4 HBk]. apply IJ in EV; [|assumption]. destruct EV as (g2 & w2 & -> & HG2 & HV).
      destruct (convert_to_string sg key) as [k|] eqn:EC; [|discriminate]. apply construct_iff in EC; [|assumption]. destruct EC as [EU EL].
      apply IO in E; [|rewrite !Forall_app in HB4; tauto]. destruct E as (ms & t & -> & -> & HF). unfold object_form in HF. rewrite insert_nonempty in HF.
      exists s, ([34] ++ key ++ [34] ++ s2 ++ [58] ++ g2 ++ w2), t, k, v, ms.
      split; [assumption|]. split; [now rewrite <- !app_assoc|]. split; [now apply mem|]. auto. }
    assert (HB1 : Forall byte x1) by (rewrite Forall_app in HB; tauto).
    unfold object_form. destruct (nonempty acc) eqn:EN.
    + destruct (consume_comma o 125 x1) as [st2 x2] eqn:EC. apply comma_inv in EC; [|assumption]. destruct st2; [discriminate| |].
      { destruct EC as (HT & g2 & HG2 & ->). injection E as <- <-. exists [], (g ++ [44] ++ g2). split; [reflexivity|]. split; [now rewrite <- !app_assoc|].
        exists g. split; [assumption|]. left. exists ([44] ++ g2). repeat split. now constructor. }
      destruct EC as (r1 & -> & EC).
      assert (HBx2 : Forall byte x2 \/ (exists r', x2 = 47 :: r') \/ x2 = []).
      { destruct EC as [(g2 & c2 & r' & _ & _ & -> & _)|[(_ & r' & ->)|[->|(g2 & y & _ & _ & ->)]]]; eauto; rewrite !Forall_app in HB1; tauto. }
      destruct EC as [(g2 & c2 & r' & HG2 & _ & -> & _)|[(_ & r' & ->)|[->|(g2 & y & HG2 & HY & ->)]]].
      * apply STEP in E; [|rewrite !Forall_app in HB1; tauto].
        destruct E as (s & w & t & k & v & ms & Hs & -> & HM & HH & HT & ->).
        exists ((k, v) :: ms), (g ++ [44] ++ g2 ++ s ++ w ++ t). split; [reflexivity|]. split; [now rewrite <- !app_assoc|].
        exists g. split; [assumption|]. right. left. exists (g2 ++ s ++ w ++ t). split; [reflexivity|].
        rewrite app_assoc. apply members_tail; [|assumption|assumption]. apply gap_app; [assumption|]. rewrite <- (app_nil_r s). apply gap_whites; [assumption|constructor].
      * discriminate E.
      * discriminate E.
      * apply STEP in E; [|rewrite !Forall_app in HB1; tauto].
        destruct E as (s & w & t & k & v & ms & Hs & -> & HM & HH & HT & ->).
        exists ((k, v) :: ms), (g ++ [44] ++ g2 ++ y ++ s ++ w ++ t). split; [reflexivity|]. split; [now rewrite <- !app_assoc|].
        exists g. split; [assumption|]. right. right. exists g2, y, s, (w ++ t). split; [reflexivity|]. split; [assumption|]. split; [assumption|].
        split; [assumption|]. split; [destruct w; [discriminate|exact HH]|]. apply (members_tail [] w k v t ms); auto. constructor.
    + apply STEP in E; [|assumption]. destruct E as (s & w & t & k & v & ms & Hs & EY & HM & HH & HT & ->).
      exists ((k, v) :: ms), (g ++ s ++ w ++ t). split; [reflexivity|]. split; [rewrite EY; now rewrite <- !app_assoc|]. right.
      rewrite app_assoc. apply members_tail; [|assumption|assumption]. apply gap_app; [assumption|]. rewrite <- (app_nil_r s). apply gap_whites; [assumption|constructor].
  - intros acc x j r HB E. cbn [parse_array] in E. destruct (state_for_object_or_array o 93 x) as [st x1] eqn:ES.
    apply state_inv in ES. destruct st; [discriminate| |].
    { destruct ES as (g & HG & ->). injection E as <- <-. exists [], g. rewrite app_nil_r. split; [reflexivity|]. split; [reflexivity|].
      unfold array_form. destruct (nonempty acc); [|now left]. exists g. split; [assumption|]. left. exists []. rewrite app_nil_r. repeat split. constructor. }
    destruct ES as (g & c & x1' & HG & EX1 & -> & HC & HNE).
    assert (STEP : forall y rest', Forall byte y ->
      match pj n y with
      | Done value input3 => pa n (acc ++ [value]) input3
      | Fail => Fail
      | OutOfFuel => OutOfFuel
      end = Done j rest' -> exists g2 w t v l, gap o g2 /\ y = g2 ++ w ++ t ++ [93] ++ rest' /\ value fp o w v /\
         array_tail t l /\ j = JArray (acc ++ v :: l)).
    { clear E. intros y rest' HBy E. destruct (pj n y) as [v y5| |] eqn:EV; try discriminate.
      apply IJ in EV; [|assumption]. destruct EV as (g2 & w2 & -> & HG2 & HV).
      apply IA in E; [|rewrite !Forall_app in HBy; tauto]. destruct E as (l & t & -> & -> & HF). unfold array_form in HF.
      assert (EN : nonempty (acc ++ [v]) = true) by (destruct acc; reflexivity). rewrite EN in HF.
      exists g2, w2, t, v, l. rewrite <- app_assoc. auto. }
    assert (HB1 : Forall byte x1) by (rewrite Forall_app in HB; tauto).
    unfold array_form. destruct (nonempty acc) eqn:EN.
    + destruct (consume_comma o 93 x1) as [st2 x2] eqn:EC. apply comma_inv in EC; [|assumption]. destruct st2; [discriminate| |].
      { destruct EC as (HT & g2 & HG2 & ->). injection E as <- <-. exists [], (g ++ [44] ++ g2). rewrite app_nil_r. split; [reflexivity|]. split; [now rewrite <- !app_assoc|].
        exists g. split; [assumption|]. left. exists ([44] ++ g2). repeat split. now constructor. }
      destruct EC as (r1 & -> & EC).
      destruct EC as [(g2 & c2 & r' & HG2 & _ & -> & _)|[(HA & r' & ->)|[->|(g2 & y & HG2 & HY & ->)]]].
      * apply STEP in E; [|rewrite !Forall_app in HB1; tauto].
        destruct E as (g3 & w & t & v & l & HG3 & -> & HV & HT & ->).
        exists (v :: l), (g ++ [44] ++ g2 ++ g3 ++ w ++ t). split; [reflexivity|]. split; [now rewrite <- !app_assoc|].
        exists g. split; [assumption|]. right. left. exists (g2 ++ g3 ++ w ++ t). split; [reflexivity|].
        rewrite app_assoc. apply elements_tail; [|assumption|assumption]. now apply gap_app.
      * exfalso. destruct (pj n (47 :: r')) eqn:EV; try discriminate. exact (pj_disabled n r' HA _ _ EV).
      * exfalso. destruct (pj n []) eqn:EV; try discriminate. exact (pj_empty n _ _ EV).
      * apply STEP in E; [|rewrite !Forall_app in HB1; tauto].
        destruct E as (g3 & w & t & v & l & HG3 & -> & HV & HT & ->).
        exists (v :: l), (g ++ [44] ++ g2 ++ y ++ g3 ++ w ++ t). split; [reflexivity|]. split; [now rewrite <- !app_assoc|].
        exists g. split; [assumption|]. right. right. exists g2, y, (g3 ++ w ++ t). split; [reflexivity|]. split; [assumption|]. split; [assumption|].
        now apply elements_tail.
    + apply STEP in E; [|assumption]. destruct E as (g3 & w & t & v & l & HG3 & EY & HV & HT & ->).
      exists (v :: l), (g ++ g3 ++ w ++ t). split; [reflexivity|]. split; [rewrite EY; now rewrite <- !app_assoc|]. right.
      rewrite app_assoc. apply elements_tail; [|assumption|assumption]. now apply gap_app.
Qed.

(** * Completeness *)
Definition head_ok (w : list Z) : Prop := match w with c :: _ => ~ stop c | [] => False end.
Lemma value_head w j : value fp o w j -> head_ok w.
Proof.
  intros H. destruct H as [w j H| | | | |]; try (cbn; unfold stop, white; lia).
  apply token_head in H. destruct H as (c & r & -> & HS & _). exact HS.
Qed.
Lemma stops_gap g r : gap o g -> stops r -> stops (g ++ r).
Proof.
  intros HG HS. destruct HG as [|c g Hc _| |]; [exact HS|left; exact Hc| |]; cbn; unfold stop; tauto.
Qed.
Lemma stops_c c r : stop c -> stops (c :: r).
Proof. intros H. exact H. Qed.
Lemma stop44 : stop 44. Proof. unfold stop; tauto. Qed.
Lemma stop93 : stop 93. Proof. unfold stop; tauto. Qed.
Lemma stop125 : stop 125. Proof. unfold stop; tauto. Qed.
Lemma stops_trailing t e r : trailing o t -> stop e -> stops (t ++ e :: r).
Proof. intros [|g HA HG] HE; [exact HE|exact stop44]. Qed.

Lemma pj_gap n g x : gap o g -> pj n (g ++ x) = pj n x.
Proof. intros HG. destruct n; [reflexivity|]. cbn [parse_json]. now rewrite wac_gap. Qed.
Lemma clean_head w r : head_ok w -> clean (w ++ r).
Proof. destruct w as [|c w]; [contradiction|]. cbn. unfold stop. tauto. Qed.
Lemma pqs_whites s x : Forall white s -> hd 0 x = 34 -> parse_quoted_string (s ++ x) = parse_quoted_string x.
Proof.
  intros Hs HH. destruct x as [|c x]; [discriminate HH|]. cbn in HH. subst c. unfold parse_quoted_string.
  rewrite (token_ok 34 s) by (assumption || (unfold white; lia)). pose proof (token_ok 34 [] x (Forall_nil _) ltac:(unfold white; lia)) as H. cbn [app] in H. now rewrite H.
Qed.

Definition array_ok (w : list Z) (l : list json) : Prop :=
  exists g w', w = g ++ w' /\ gap o g /\ head_ok w' /\ forall acc rest, exists n v r1,
    pj n (w' ++ [93] ++ rest) = Done v r1 /\ pa n (acc ++ [v]) r1 = Done (JArray (acc ++ l)) rest.
Definition object_ok (w : list Z) (ms : list (list Z * json)) : Prop :=
  exists g w', w = g ++ w' /\ gap o g /\ hd 0 w' = 34 /\ forall acc rest, exists n key x3 x4 k v r1,
    parse_quoted_string (w' ++ [125] ++ rest) = Some (key, x3) /\ consume_token 58 x3 = (KeepParsing, x4) /\ pj n x4 = Done v r1 /\ convert_to_string sg key = Some k /\ po n (insert_or_assign k v acc) r1 = Done (JObject (insert_all ms acc)) rest.
Definition member_ok (w k : list Z) (v : json) : Prop :=
  hd 0 w = 34 /\ forall rest, stops rest -> exists n key x3 x4,
    parse_quoted_string (w ++ rest) = Some (key, x3) /\ consume_token 58 x3 = (KeepParsing, x4) /\ pj n x4 = Done v rest /\ convert_to_string sg key = Some k.

Lemma pa_stop acc g rest : gap o g -> pa 1 acc (g ++ [93] ++ rest) = Done (JArray acc) rest.
Proof. intros HG. cbn [parse_array app]. rewrite state_ok_stop; [reflexivity|assumption|unfold white; lia|lia]. Qed.
Lemma po_stop acc g rest : gap o g -> po 1 acc (g ++ [125] ++ rest) = Done (JObject acc) rest.
Proof. intros HG. cbn [parse_object app]. rewrite state_ok_stop; [reflexivity|assumption|unfold white; lia|lia]. Qed.
Lemma pa_trailing acc v g t rest : gap o g -> trailing o t -> pa 1 (acc ++ [v]) (g ++ t ++ [93] ++ rest) = Done (JArray (acc ++ [v])) rest.
Proof.
  intros HG HT. destruct HT as [|g2 HA HG2]; [now apply pa_stop|]. cbn [parse_array app].
  rewrite state_ok_keep; [|assumption|cbn; unfold white; lia|lia].
  assert (EN : nonempty (acc ++ [v]) = true) by (destruct acc; reflexivity). rewrite EN.
  rewrite comma_ok_stop; [reflexivity|assumption|assumption|unfold white; lia|lia].
Qed.
Lemma po_trailing acc k v g t rest : gap o g -> trailing o t ->
  po 1 (insert_or_assign k v acc) (g ++ t ++ [125] ++ rest) = Done (JObject (insert_or_assign k v acc)) rest.
Proof.
  intros HG HT. destruct HT as [|g2 HA HG2]; [now apply po_stop|]. cbn [parse_object app].
  rewrite state_ok_keep; [|assumption|cbn; unfold white; lia|lia].
  rewrite insert_nonempty. rewrite comma_ok_stop; [reflexivity|assumption|assumption|unfold white; lia|lia].
Qed.
Lemma complete :
  (forall w j, value fp o w j -> forall rest, stops rest -> exists n, pj n (w ++ rest) = Done j rest) /\ (forall w l, elements fp o w l -> array_ok w l) /\ (forall w ms, members fp o w ms -> object_ok w ms) /\ (forall w k v, member fp o w k v -> member_ok w k v).
Proof.
  apply (grammar_mind fp o (fun w j _ => forall rest, stops rest -> exists n, pj n (w ++ rest) = Done j rest)
    (fun w l _ => array_ok w l) (fun w ms _ => object_ok w ms) (fun w k v _ => member_ok w k v)).
  - (* token *)
    intros w j HT rest HS. exists 1%nat. cbn [parse_json]. pose proof (token_nostop fp w j HT) as HN.
    destruct (token_head fp w j HT) as (c & r & -> & HC & N1 & N2 & N3).
    rewrite wac_clean by (cbn; unfold stop in HC; tauto). cbn [app].
    rewrite (proj2 (Z.eqb_neq c 123) N3), (proj2 (Z.eqb_neq c 91) N2), (proj2 (Z.eqb_neq c 34) N1).
    change (c :: r ++ rest) with ((c :: r) ++ rest). rewrite consume_value_ok by assumption.
    rewrite (proj2 (value_of_text_iff fp (c :: r) j HN) HT). reflexivity.
  - (* string *)
    intros w s HU HL rest HS. exists 1%nat. cbn [parse_json]. rewrite <- !app_assoc.
    rewrite wac_clean by (cbn; unfold white; lia). cbn [app]. change (34 =? 123) with false. change (34 =? 91) with false. change (34 =? 34) with true. cbv iota.
    pose proof (pqs_ok [] w s rest (Forall_nil _) HL) as HP. cbn [app] in HP. rewrite HP.
    rewrite (proj2 (construct_iff sg w s (utf8_text_bytes w HU))) by auto. reflexivity.
  - (* [] *)
    intros g HG rest HS. exists 2%nat. cbn [parse_json]. rewrite <- !app_assoc. rewrite wac_clean by (cbn; unfold white; lia).
    cbn [app]. change (91 =? 123) with false. change (91 =? 91) with true. cbv iota. now apply (pa_stop []).
  - (* array *)
    intros w l _ IH rest HS. destruct IH as (g & w' & -> & HG & HH & IH). destruct (IH [] rest) as (n & v & r1 & E1 & E2).
    exists (S (S n)). cbn [parse_json]. rewrite <- !app_assoc. rewrite wac_clean by (cbn; unfold white; lia).
    cbn [app]. change (91 =? 123) with false. change (91 =? 91) with true. cbv iota. cbn [parse_array].
    destruct w' as [|c w']; [contradiction|]. cbn [app]. rewrite state_ok_keep; [|assumption|apply (clean_head (c :: w') ([93] ++ rest) HH)|].
    + cbn [nonempty]. cbn [app] in E1, E2. rewrite E1. exact E2.
    + intros ->. apply HH. exact stop93.
  - (* {} *)
    intros g HG rest HS. exists 2%nat. cbn [parse_json]. rewrite <- !app_assoc. rewrite wac_clean by (cbn; unfold white; lia).
    cbn [app]. change (123 =? 123) with true. cbv iota. now apply (po_stop []).
  - (* object *)
    intros w ms m _ IH HM rest HS. destruct IH as (g & w' & -> & HG & HH & IH).
    destruct (IH [] rest) as (n & key & x3 & x4 & k & v & r1 & EQ & ET & EV & EC & E2).
    exists (S (S n)). cbn [parse_json]. rewrite <- !app_assoc. rewrite wac_clean by (cbn; unfold white; lia).
    cbn [app]. change (123 =? 123) with true. cbv iota. cbn [parse_object].
    destruct w' as [|c w']; [discriminate HH|]. cbn [hd] in HH. subst c. cbn [app] in *. rewrite state_ok_keep; [|assumption|cbn; unfold white; lia|lia].
    cbn [nonempty]. rewrite EQ, ET, EV, EC, E2. now rewrite <- (map_of_unique ms m HM).
  - (* last element *)
    intros g w j g' t HG HV IH HG' HT. exists g, (w ++ g' ++ t). split; [reflexivity|]. split; [assumption|].
    pose proof (value_head w j HV) as HH. split; [destruct w; [contradiction|exact HH]|]. intros acc rest.
    destruct (IH (g' ++ t ++ [93] ++ rest)) as (n & E); [apply stops_gap; [assumption|]; apply stops_trailing; [assumption|exact stop93]|].
    exists (S n), j, (g' ++ t ++ [93] ++ rest). rewrite <- !app_assoc. split; [apply (pj_mono n); [lia|exact E]|].
    apply (pa_mono 1); [lia|]. now apply pa_trailing.
  - (* more elements *)
    intros g w j g' r l HG HV IH HG' _ IHE. exists g, (w ++ g' ++ [44] ++ r). split; [reflexivity|]. split; [assumption|].
    pose proof (value_head w j HV) as HH. split; [destruct w; [contradiction|exact HH]|]. intros acc rest.
    destruct IHE as (g2 & w' & -> & HG2 & HH2 & IHE). destruct (IHE (acc ++ [j]) rest) as (n2 & v & r1 & E1 & E2).
    destruct (IH (g' ++ [44] ++ (g2 ++ w') ++ [93] ++ rest)) as (n & E); [apply stops_gap; [assumption|exact stop44]|].
    exists (S (n + n2)), j, (g' ++ [44] ++ (g2 ++ w') ++ [93] ++ rest). rewrite <- !app_assoc in *. split; [apply (pj_mono n); [lia|exact E]|].
    cbn [parse_array]. cbn [app]. rewrite state_ok_keep; [|assumption|cbn; unfold white; lia|lia].
    assert (EN : nonempty (acc ++ [j]) = true) by (destruct acc; reflexivity). rewrite EN.
    destruct w' as [|c w']; [contradiction|]. cbn [app] in *. rewrite comma_ok_keep; [|assumption|apply (clean_head (c :: w') ([93] ++ rest) HH2)|intros ->; apply HH2; exact stop93].
    rewrite (pj_mono n2 (n + n2) _ _ _ ltac:(lia) E1). apply (pa_mono n2); [lia|]. rewrite <- app_assoc. exact E2.
  - (* more elements after a malformed comment *)
    intros g w j g' g'' x r l HG HV IH HG' HG'' HX _ IHE. exists g, (w ++ g' ++ [44] ++ g'' ++ x ++ r). split; [reflexivity|]. split; [assumption|].
    pose proof (value_head w j HV) as HH. split; [destruct w; [contradiction|exact HH]|]. intros acc rest.
    destruct IHE as (g2 & w' & -> & HG2 & HH2 & IHE). destruct (IHE (acc ++ [j]) rest) as (n2 & v & r1 & E1 & E2).
    destruct (IH (g' ++ [44] ++ g'' ++ x ++ (g2 ++ w') ++ [93] ++ rest)) as (n & E); [apply stops_gap; [assumption|exact stop44]|].
    exists (S (n + n2)), j, (g' ++ [44] ++ g'' ++ x ++ (g2 ++ w') ++ [93] ++ rest). rewrite <- !app_assoc in *. split; [apply (pj_mono n); [lia|exact E]|].
    cbn [parse_array]. cbn [app]. rewrite state_ok_keep; [|assumption|cbn; unfold white; lia|lia].
    assert (EN : nonempty (acc ++ [j]) = true) by (destruct acc; reflexivity). rewrite EN.
    rewrite comma_ok_junk by assumption. rewrite pj_gap by assumption.
    cbn [app] in *. rewrite (pj_mono n2 (n + n2) _ _ _ ltac:(lia) E1). apply (pa_mono n2); [lia|]. rewrite <- app_assoc. exact E2.
  - (* last member *)
    intros g w k j g' t HG _ IH HG' HT. destruct IH as [HH IH]. exists g, (w ++ g' ++ t). split; [reflexivity|]. split; [assumption|].
    split; [destruct w; [discriminate|exact HH]|]. intros acc rest.
    destruct (IH (g' ++ t ++ [125] ++ rest)) as (n & key & x3 & x4 & EQ & ET & EV & EC); [apply stops_gap; [assumption|]; apply stops_trailing; [assumption|exact stop125]|].
    exists (S n), key, x3, x4, k, j, (g' ++ t ++ [125] ++ rest). rewrite <- !app_assoc. split; [exact EQ|]. split; [exact ET|]. split; [apply (pj_mono n); [lia|exact EV]|].
    split; [exact EC|]. apply (po_mono 1); [lia|]. now apply po_trailing.
  - (* more members *)
    intros g w k j g' r l HG _ IH HG' _ IHE. destruct IH as [HH IH]. exists g, (w ++ g' ++ [44] ++ r). split; [reflexivity|]. split; [assumption|].
    split; [destruct w; [discriminate|exact HH]|]. intros acc rest.
    destruct IHE as (g2 & w' & -> & HG2 & HH2 & IHE).
    destruct (IHE (insert_or_assign k j acc) rest) as (n2 & key2 & y3 & y4 & k2 & v & r1 & EQ2 & ET2 & EV2 & EC2 & E2).
    destruct (IH (g' ++ [44] ++ (g2 ++ w') ++ [125] ++ rest)) as (n & key & x3 & x4 & EQ & ET & EV & EC); [apply stops_gap; [assumption|exact stop44]|].
    exists (S (n + n2)), key, x3, x4, k, j, (g' ++ [44] ++ (g2 ++ w') ++ [125] ++ rest). rewrite <- !app_assoc in *.
    split; [exact EQ|]. split; [exact ET|]. split; [apply (pj_mono n); [lia|exact EV]|]. split; [exact EC|].
    cbn [parse_object]. cbn [app]. rewrite state_ok_keep; [|assumption|cbn; unfold white; lia|lia]. rewrite insert_nonempty.
    destruct w' as [|c w']; [discriminate HH2|]. cbn [hd] in HH2. subst c. cbn [app] in *. rewrite comma_ok_keep; [|assumption|cbn; unfold white; lia|lia].
    rewrite EQ2, ET2. rewrite (pj_mono n2 (n + n2) _ _ _ ltac:(lia) EV2). rewrite EC2. apply (po_mono n2); [lia|]. exact E2.
  - (* more members after a malformed comment *)
    intros g w k j g' g'' x s r l HG _ IH HG' HG'' HX Hs HR _ IHE. destruct IH as [HH IH]. exists g, (w ++ g' ++ [44] ++ g'' ++ x ++ s ++ r). split; [reflexivity|]. split; [assumption|].
    split; [destruct w; [discriminate|exact HH]|]. intros acc rest.
    destruct IHE as (g2 & w' & -> & HG2 & HH2 & IHE).
    assert (g2 = []) as ->. { destruct HG2 as [|c g2 Hc _| |]; [reflexivity|cbn in HR; unfold white in Hc; lia|discriminate HR|discriminate HR]. }
    destruct (IHE (insert_or_assign k j acc) rest) as (n2 & key2 & y3 & y4 & k2 & v & r1 & EQ2 & ET2 & EV2 & EC2 & E2).
    destruct (IH (g' ++ [44] ++ g'' ++ x ++ s ++ w' ++ [125] ++ rest)) as (n & key & x3 & x4 & EQ & ET & EV & EC); [apply stops_gap; [assumption|exact stop44]|].
    exists (S (n + n2)), key, x3, x4, k, j, (g' ++ [44] ++ g'' ++ x ++ s ++ w' ++ [125] ++ rest). rewrite <- !app_assoc in *.
    split; [exact EQ|]. split; [exact ET|]. split; [apply (pj_mono n); [lia|exact EV]|]. split; [exact EC|].
    cbn [parse_object]. cbn [app]. rewrite state_ok_keep; [|assumption|cbn; unfold white; lia|lia]. rewrite insert_nonempty.
    rewrite comma_ok_junk by assumption.
    rewrite pqs_whites by (assumption || (destruct w'; [discriminate HH2|exact HH2])). cbn [app] in *.
    rewrite EQ2, ET2. rewrite (pj_mono n2 (n + n2) _ _ _ ltac:(lia) EV2). rewrite EC2. apply (po_mono n2); [lia|]. exact E2.
  - (* member *)
    intros key k s g w j HU HL Hs HG _ IH. split; [reflexivity|]. intros rest HS. destruct (IH rest HS) as (n & E).
    exists n, key, (s ++ [58] ++ g ++ w ++ rest), (g ++ w ++ rest). rewrite <- !app_assoc.
    split; [apply (pqs_ok [] key k); [constructor|assumption]|]. split; [apply token_ok; [assumption|unfold white; lia]|].
    split; [now rewrite pj_gap|]. apply construct_iff; [now apply utf8_text_bytes|]. auto.
Qed.

(** * Documents *)
Lemma parse_total input : parse_internal (2 * length input + 2) fp sg o input = Some (parse fp sg o input).
Proof.
  unfold parse. destruct (parse_internal _ _ _ _ _) eqn:E; [reflexivity|]. exfalso. unfold parse_internal in E.
  destruct (proj1 (terminates (2 * length input + 2)) input ltac:(lia)) as [HN _].
  destruct (pj (2 * length input + 2) input) as [j rest| |]; [|discriminate|now apply HN].
  destruct (consume_whitespace_and_comments o rest) as [[| |] [|c r]]; try discriminate; destruct (negb (is_container j) && negb (allow_any_type o)); discriminate.
Qed.
Lemma container_iff j : is_container j = true <-> (exists m, j = JObject m) \/ (exists l, j = JArray l).
Proof. destruct j; cbn; split; intros H; try discriminate; try reflexivity; eauto; destruct H as [[? H]|[? H]]; discriminate. Qed.

Lemma parse_iff input j : Forall byte input -> (parse fp sg o input = Some j <-> document fp o input j).
Proof.
  intros HB. pose proof (parse_total input) as HT. split.
  - intros E. rewrite E in HT. unfold parse_internal in HT. destruct (pj (2 * length input + 2) input) as [j' rest| |] eqn:EJ; try discriminate.
    apply (proj1 (sound _)) in EJ; [|assumption]. destruct EJ as (g & w & -> & HG & HV).
    destruct (consume_whitespace_and_comments o rest) as [st r] eqn:EW. apply wac_inv in EW.
    destruct EW as [(-> & HC & g2 & -> & HG2)|(-> & _)]; [|discriminate]. destruct r; [|discriminate HT].
    destruct (negb (is_container j') && negb (allow_any_type o)) eqn:EA; [discriminate|]. injection HT as <-.
    exists g, w, g2. rewrite app_nil_r. split; [reflexivity|]. split; [assumption|]. split; [assumption|]. split; [destruct HG2 as [HG2|[_ HG2]]; [now constructor|assumption]|].
    apply andb_false_iff in EA. rewrite !negb_false_iff in EA. destruct EA as [EA|EA]; [right; now apply container_iff|now left].
  - intros (g & w & g' & -> & HG & HV & HG' & HA).
    assert (HS : stops g').
    { destruct HG' as [g' HG'|g' b HG' _ _]; [rewrite <- (app_nil_r g'); apply stops_gap; [assumption|exact I]|]. apply stops_gap; [assumption|]. cbn. unfold stop. tauto. }
    destruct (proj1 complete w j HV g' HS) as (n & E). rewrite <- (pj_gap n g) in E by assumption.
    destruct (proj1 (terminates (2 * length (g ++ w ++ g') + 2)) (g ++ w ++ g') ltac:(lia)) as [HN _].
    assert (E' : pj (2 * length (g ++ w ++ g') + 2) (g ++ w ++ g') = Done j g').
    { destruct (Nat.le_ge_cases n (2 * length (g ++ w ++ g') + 2)) as [HL|HL].
      - now apply (pj_mono n).
      - rewrite <- (proj1 (parser_mono _) n _ HL HN). exact E. }
    unfold parse_internal in HT. rewrite E' in HT. rewrite (wac_final o g' HG') in HT.
    destruct (negb (is_container j) && negb (allow_any_type o)) eqn:EA; [|congruence]. exfalso.
    apply andb_true_iff in EA. rewrite !negb_true_iff in EA. destruct EA as [E1 E2].
    destruct HA as [HA|HA]; [congruence|]. apply container_iff in HA. congruence.
Qed.
End Parser.
