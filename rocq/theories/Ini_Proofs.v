(** C33: lemmas about the INI parser. *)
From Verif Require Import Common Lexer_Model Strings_Model Strings_Spec Strings_Proofs Strings_Props.
From Verif Require Import Json_Model Json_Spec Json_String_Proofs Json_Token_Proofs Ini_Model Ini_Spec.

Lemma is_space_iff c : is_space c = true <-> space c.
Proof. unfold is_space, space. rewrite !orb_true_iff, !Z.eqb_eq. lia. Qed.
Lemma is_space_false c : is_space c = false <-> ~ space c.
Proof. rewrite <- is_space_iff. destruct (is_space c); split; congruence. Qed.
Lemma trim_iff s r : trim s = r <-> stripped s r.
Proof.
  rewrite trim_exact. unfold stripped. split; intros (a & b & E & HA & HB & HR); exists a, b; (split; [exact E|]);
  (split; [eapply Forall_impl; [|exact HA]; intros c; apply is_space_iff|]);
  (split; [eapply Forall_impl; [|exact HB]; intros c; apply is_space_iff|]);
  intros N; specialize (HR N); rewrite !is_space_false in *; exact HR.
Qed.
Lemma stripped_byte s r : stripped s r -> Forall byte s -> Forall byte r.
Proof. intros (a & b & -> & _). rewrite !Forall_app. tauto. Qed.

(** trim_value *)
Lemma begins_iff s c : starts_with s [c] = true <-> begins s c.
Proof. apply starts_with_iff. Qed.
Lemma ends_iff s c : ends_with s [c] = true <-> ends s c.
Proof. apply ends_with_iff. Qed.
Lemma begins_false s c : starts_with s [c] = false <-> ~ begins s c.
Proof. rewrite <- begins_iff. destruct (starts_with s [c]); split; congruence. Qed.
Lemma ends_false s c : ends_with s [c] = false <-> ~ ends s c.
Proof. rewrite <- ends_iff. destruct (ends_with s [c]); split; congruence. Qed.
Lemma trim_value_trimmed s a b m : trim_value s a b = (Trimmed, m) <-> s = [a] ++ m ++ [b] \/ (a = b /\ s = [a] /\ m = []).
Proof.
  unfold trim_value. split.
  - destruct (starts_with s [a]) eqn:E1, (ends_with s [b]) eqn:E2; try discriminate. intros H. injection H as <-.
    apply begins_iff in E1. apply ends_iff in E2. destruct E1 as (r & ->), E2 as (r' & E2). cbn [tl].
    destruct r as [|x r] using rev_ind.
    + right. destruct r' as [|y r']; [injection E2 as ->; auto|]. destruct r'; discriminate.
    + left. clear IHr. rewrite removelast_last. change (a :: r ++ [x]) with ((a :: r) ++ [x]) in E2. apply app_inj_tail in E2. destruct E2 as [_ ->]. reflexivity.
  - intros [->|(-> & -> & ->)].
    + rewrite (proj2 (begins_iff _ a)) by (eexists; reflexivity). rewrite (proj2 (ends_iff _ b)) by (exists ([a] ++ m); now rewrite <- app_assoc).
      cbn [app tl]. now rewrite removelast_last.
    + rewrite (proj2 (begins_iff _ b)) by (eexists; reflexivity). rewrite (proj2 (ends_iff _ b)) by (exists []; reflexivity). reflexivity.
Qed.
Lemma trim_value_untrimmed s a b m : trim_value s a b = (Untrimmed, m) <-> m = s /\ ~ begins s a /\ ~ ends s b.
Proof.
  unfold trim_value. rewrite <- begins_false, <- ends_false. destruct (starts_with s [a]), (ends_with s [b]); split; try discriminate; intros H; try (destruct H as (_ & H1 & H2); discriminate).
  - injection H as <-. auto.
  - destruct H as (-> & _). reflexivity.
Qed.
Lemma trim_value_unquote s q m : (exists r, trim_value s q q = (r, m) /\ r <> Imbalanced) <-> unquote q s m.
Proof.
  split.
  - intros (r & E & N). destruct r; [congruence| |].
    + apply trim_value_trimmed in E. destruct E as [->|(_ & -> & ->)]; constructor.
    + apply trim_value_untrimmed in E. destruct E as (-> & H1 & H2). now constructor.
  - intros [s'| |s' H1 H2].
    + exists Trimmed. split; [|discriminate]. apply trim_value_trimmed. now left.
    + exists Trimmed. split; [|discriminate]. apply trim_value_trimmed. now right.
    + exists Untrimmed. split; [|discriminate]. now apply trim_value_untrimmed.
Qed.

Lemma denotes_iff sg w s : Forall byte w -> (convert_to_string sg w = Some s <-> denotes w s).
Proof. apply construct_iff. Qed.
Lemma on_section_iff a t : on_section a = Some t <-> stripped a t /\ unquoted t.
Proof.
  unfold on_section. rewrite <- trim_iff. split.
  - destruct (trim_value (trim a) 39 39) as [[| |] m] eqn:E1; try discriminate. destruct (trim_value m 34 34) as [[| |] m'] eqn:E2; try discriminate.
    intros H. injection H as <-. apply trim_value_untrimmed in E1, E2. destruct E1 as (-> & H1 & H2), E2 as (-> & H3 & H4). split; [reflexivity|].
    intros q [->| ->]; auto.
  - intros [<- HU]. rewrite (proj2 (trim_value_untrimmed (trim a) 39 39 (trim a))) by (split; [reflexivity|apply HU; auto]).
    rewrite (proj2 (trim_value_untrimmed (trim a) 34 34 (trim a))) by (split; [reflexivity|apply HU; auto]). reflexivity.
Qed.

Lemma split2 t n v : split t 61 2 = Ok [n; v] <-> exists ps v1 rest, pieces_of 61 t ps /\ filter Strings_Spec.nonempty ps = n :: v1 :: rest /\ v = join 61 (v1 :: rest).
Proof.
  pose proof (split_count t 61 2 _ ltac:(lia) (pieces_ok 61 t)) as E. cbv zeta in E. rewrite E. clear E. split.
  - intros H. destruct (filter Strings_Spec.nonempty (pieces 61 t)) as [|n' [|v1 [|w rest]]] eqn:EF; cbn [length Nat.leb Nat.sub firstn skipn app] in H; try discriminate.
    + injection H as -> ->. exists (pieces 61 t), v, []. split; [apply pieces_ok|]. auto.
    + injection H as -> <-. exists (pieces 61 t), v1, (w :: rest). split; [apply pieces_ok|]. auto.
  - intros (ps & v1 & rest & HP & HF & ->). rewrite (pieces_of_unique _ _ _ _ HP (pieces_ok 61 t)) in HF. rewrite HF.
    destruct rest; reflexivity.
Qed.
Lemma on_pair_iff t name value : on_name_value_pair t = Some (name, value) <->
  exists ps n v rest raw m, pieces_of 61 t ps /\ filter Strings_Spec.nonempty ps = n :: v :: rest /\ stripped n name /\ unquoted name /\
    stripped (join 61 (v :: rest)) raw /\ unquote 39 raw m /\ unquote 34 m value.
Proof.
  unfold on_name_value_pair. split.
  - destruct (split t 61 2) as [[|n [|v [|? ?]]]|] eqn:ES; try discriminate. apply split2 in ES. destruct ES as (ps & v1 & rest & HP & HF & ->).
    destruct (trim_value (trim n) 39 39) as [[| |] n1] eqn:E1; try discriminate. destruct (trim_value n1 34 34) as [[| |] n2] eqn:E2; try discriminate.
    apply trim_value_untrimmed in E1, E2. destruct E1 as (-> & H1 & H2), E2 as (-> & H3 & H4).
    intros H. exists ps, n, v1, rest, (trim (join 61 (v1 :: rest))).
    destruct (trim_value (trim (join 61 (v1 :: rest))) 39 39) as [r1 w1] eqn:E3.
    destruct (trim_value w1 34 34) as [r2 w2] eqn:E4.
    assert (N : r1 <> Imbalanced /\ r2 <> Imbalanced /\ name = trim n /\ value = w2).
    { destruct r1; [discriminate H| |]; (destruct r2; [discriminate H| |]); injection H as <- <-; repeat split; discriminate. }
    destruct N as (N1 & N2 & -> & ->). exists w1. split; [assumption|]. split; [assumption|]. split; [now apply trim_iff|].
    split; [intros q [->| ->]; auto|]. split; [now apply trim_iff|]. split; apply trim_value_unquote; eauto.
  - intros (ps & n & v & rest & raw & m & HP & HF & HN & HU & HR & H39 & H34).
    rewrite (proj2 (split2 t n (join 61 (v :: rest)))) by (exists ps, v, rest; auto).
    apply trim_iff in HN, HR. rewrite HN, HR.
    rewrite (proj2 (trim_value_untrimmed name 39 39 name)) by (split; [reflexivity|apply HU; auto]).
    rewrite (proj2 (trim_value_untrimmed name 34 34 name)) by (split; [reflexivity|apply HU; auto]).
    apply trim_value_unquote in H39, H34. destruct H39 as (r1 & -> & N1), H34 as (r2 & E2 & N2). rewrite E2.
    destruct r1; [congruence| |]; (destruct r2; [congruence| |]); reflexivity.
Qed.

(** * One line *)
Definition line_item (sg : bool) (l : list Z) : option item :=
  let data := trim l in
  match data with
  | [] => Some Skip
  | c :: _ =>
      if c =? 59 then Some Skip
      else
        match trim_value data 91 93 with
        | (Imbalanced, _) => None
        | (Trimmed, data) =>
            match on_section data with
            | Some section => option_map Section_ (convert_to_string sg section)
            | None => None
            end
        | (Untrimmed, data) =>
            match on_name_value_pair data with
            | Some (name, value) =>
                match convert_to_string sg value, convert_to_string sg name with Some v, Some k => Some (Pair k v) | _, _ => None end
            | None => None
            end
        end
  end.
Lemma filter_join_byte ps n v rest : Forall (Forall byte) ps -> filter Strings_Spec.nonempty ps = n :: v :: rest -> Forall byte n /\ Forall byte (join 61 (v :: rest)).
Proof.
  intros HB HF. assert (HX : Forall (Forall byte) (n :: v :: rest)) by (rewrite <- HF; apply Forall_forall; intros x Hx; apply filter_In in Hx; rewrite Forall_forall in HB; apply HB; tauto).
  inversion HX as [|? ? H1 H2]; subst. split; [assumption|]. clear HX HF H1.
  assert (G : forall l, Forall (Forall byte) l -> Forall byte (join 61 l)).
  { induction l as [|x [|y l] IH]; intros HL; [constructor|inversion HL; assumption|]. inversion HL; subst.
    change (join 61 (x :: y :: l)) with (x ++ 61 :: join 61 (y :: l)). apply Forall_app. split; [assumption|]. constructor; [unfold byte; lia|auto]. }
  now apply G.
Qed.
Lemma pieces_byte d s ps : Forall byte s -> pieces_of d s ps -> Forall (Forall byte) ps.
Proof.
  intros HB (_ & _ & ->). induction ps as [|p [|q ps] IH]; [constructor|constructor; [exact HB|constructor]|].
  change (join d (p :: q :: ps)) with (p ++ d :: join d (q :: ps)) in HB. apply Forall_app in HB. destruct HB as [H1 H2]. constructor; [assumption|]. inversion H2; auto.
Qed.
Lemma unquote_byte q s m : Forall byte s -> unquote q s m -> Forall byte m.
Proof. intros HB H. revert HB. destruct H as [s'| |s' _ _]; intros HB; [rewrite !Forall_app in HB; tauto|constructor|assumption]. Qed.

Lemma line_item_iff sg l i : Forall byte l -> (line_item sg l = Some i <-> line l i).
Proof.
  intros HB. split; [unfold line_item|].
  - destruct (trim l) as [|c r] eqn:ET; [intros H; injection H as <-; apply l_blank; now apply trim_iff|].
    apply trim_iff in ET. pose proof (stripped_byte _ _ ET HB) as HBt.
    destruct (Z.eqb_spec c 59) as [->|NC]; [intros H; injection H as <-; now apply (l_comment l r)|].
    destruct (trim_value (c :: r) 91 93) as [[| |] data] eqn:EV; [discriminate| |].
    + apply trim_value_trimmed in EV. destruct EV as [EV|(? & _)]; [|discriminate]. destruct (on_section data) as [t|] eqn:ES; [|discriminate].
      apply on_section_iff in ES. destruct ES as [ES HU]. intros H. apply option_map_some in H. destruct H as (s & EC & ->).
      rewrite EV in ET, HBt. apply denotes_iff in EC; [|apply (stripped_byte data); [assumption|rewrite !Forall_app in HBt; tauto]].
      now apply (l_section l data t s).
    + apply trim_value_untrimmed in EV. destruct EV as (-> & N1 & N2). destruct (on_name_value_pair (c :: r)) as [[name value]|] eqn:EP; [|discriminate].
      apply on_pair_iff in EP. destruct EP as (ps & n & v & rest & raw & m & HP & HF & HN & HU & HR & H39 & H34).
      destruct (filter_join_byte ps n v rest (pieces_byte _ _ _ HBt HP) HF) as [HBn HBv].
      destruct (convert_to_string sg value) as [s|] eqn:EC1; [|discriminate]. destruct (convert_to_string sg name) as [k|] eqn:EC2; [|discriminate].
      apply denotes_iff in EC1; [|eapply unquote_byte; [|exact H34]; eapply unquote_byte; [|exact H39]; eapply stripped_byte; eassumption].
      apply denotes_iff in EC2; [|eapply stripped_byte; eassumption].
      intros H. injection H as <-. eapply (l_pair l (c :: r) ps n v rest name k raw m value s); try eassumption; [discriminate|]. intros (? & E). injection E as -> _. congruence.
  - intros H. revert HB. unfold line_item. destruct H as [l' HS|l' r HS|l' a t s HS HA HU HD|l' t ps n v rest name k raw m value s HS HN0 HN1 HN2 HN3 HP HF HN HU HDn HR H39 H34 HDv]; intros HB.
    + apply trim_iff in HS. now rewrite HS.
    + apply trim_iff in HS. rewrite HS. reflexivity.
    + pose proof (stripped_byte _ _ HS HB) as HBt. apply trim_iff in HS. rewrite HS. cbn [app]. change (91 =? 59) with false. cbv iota.
      rewrite (proj2 (trim_value_trimmed (91 :: a ++ [93]) 91 93 a)) by (left; reflexivity). rewrite (proj2 (on_section_iff a t)) by auto.
      rewrite (proj2 (denotes_iff sg t s ltac:(apply (stripped_byte a); [assumption|rewrite !Forall_app in HBt; tauto]))) by assumption. reflexivity.
    + pose proof (stripped_byte _ _ HS HB) as HBt. apply trim_iff in HS. rewrite HS. destruct t as [|c r]; [congruence|].
      destruct (Z.eqb_spec c 59) as [->|NC]; [exfalso; apply HN1; eexists; reflexivity|].
      rewrite (proj2 (trim_value_untrimmed (c :: r) 91 93 (c :: r))) by auto.
      rewrite (proj2 (on_pair_iff (c :: r) name value)) by (exists ps, n, v, rest, raw, m; auto 10).
      destruct (filter_join_byte ps n v rest (pieces_byte _ _ _ HBt HP) HF) as [HBn HBv].
      rewrite (proj2 (denotes_iff sg value s ltac:(eapply unquote_byte; [|exact H34]; eapply unquote_byte; [|exact H39]; eapply stripped_byte; eassumption))) by assumption.
      rewrite (proj2 (denotes_iff sg name k ltac:(eapply stripped_byte; eassumption))) by assumption. reflexivity.
Qed.

(** * All lines *)
Definition finish (values : list (list Z * json)) : option json := match values with [] => None | _ :: _ => Some (JObject values) end.
Fixpoint exec (items : list item) (values : list (list Z * json)) (current : list Z) : option json :=
  match items with
  | [] => finish values
  | Skip :: r => exec r values current
  | Section_ s :: r => exec r (insert_or_assign s (JObject []) values) s
  | Pair k v :: r => match values with [] => None | _ :: _ => exec r (insert_in_section current k (JString v) values) current end
  end.
Fixpoint run (sg : bool) (ls : list (list Z)) (values : list (list Z * json)) (current : list Z) : option json :=
  match ls with
  | [] => finish values
  | l :: r =>
      match line_item sg l with
      | None => None
      | Some Skip => run sg r values current
      | Some (Section_ s) => run sg r (insert_or_assign s (JObject []) values) s
      | Some (Pair k v) => match values with [] => None | _ :: _ => run sg r (insert_in_section current k (JString v) values) current end
      end
  end.
Lemma take_line_pieces input : exists l rest, take_line input = (l, rest) /\
  ((pieces 10 input = l :: pieces 10 rest /\ (length rest < length input)%nat) \/ (pieces 10 input = [l] /\ rest = [] /\ input = l)).
Proof.
  induction input as [|c r (l & rest & E & H)].
  - exists [], []. split; [reflexivity|]. right. auto.
  - cbn [take_line pieces]. destruct (c =? 10).
    + exists [], r. split; [reflexivity|]. left. cbn [length]. split; [reflexivity|lia].
    + rewrite E. exists (c :: l), rest. split; [reflexivity|]. destruct H as [[-> HL]|(-> & -> & ->)]; [left; cbn [length]; split; [reflexivity|lia]|right; auto].
Qed.
Lemma line_item_nil sg : line_item sg [] = Some Skip. Proof. reflexivity. Qed.
Lemma ini_loop_nil fuel sg values current : ini_loop fuel sg [] values current = finish values.
Proof. destruct fuel; reflexivity. Qed.
Lemma ini_loop_run sg : forall fuel input values current, (length input < fuel)%nat ->
  ini_loop fuel sg input values current = run sg (pieces 10 input) values current.
Proof.
  induction fuel as [|fuel IH]; intros input values current HL; [lia|].
  cbn [ini_loop]. unfold getline. destruct (take_line_pieces input) as (l & rest & E & H). rewrite E.
  assert (NIL : forall v c, run sg (pieces 10 []) v c = finish v) by reflexivity.
  assert (STEP : forall (G : list (list Z * json) -> list Z -> option json),
    (match trim l with
          | [] => G values current
          | c :: _ =>
              if c =? 59 then G values current
              else
                match trim_value (trim l) 91 93 with
                | (Imbalanced, _) => None
                | (Trimmed, data) =>
                    match on_section data with
                    | Some section =>
                        match convert_to_string sg section with
                        | Some key => G (insert_or_assign key (JObject []) values) key
                        | None => None
                        end
                    | None => None
                    end
                | (Untrimmed, data) =>
                    match values with
                    | [] => None
                    | _ :: _ =>
                        match on_name_value_pair data with
                        | Some (name, value) =>
                            match convert_to_string sg value, convert_to_string sg name with
                            | Some v, Some k => G (insert_in_section current k (JString v) values) current
                            | _, _ => None
                            end
                        | None => None
                        end
                    end
                end
          end) = match line_item sg l with
      | None => None
      | Some Skip => G values current
      | Some (Section_ s) => G (insert_or_assign s (JObject []) values) s
      | Some (Pair k v) => match values with [] => None | _ :: _ => G (insert_in_section current k (JString v) values) current end
      end).
  { intros G. unfold line_item. destruct (trim l) as [|c r]; [reflexivity|]. destruct (c =? 59); [reflexivity|].
    destruct (trim_value (c :: r) 91 93) as [[| |] data]; [reflexivity| |].
    - destruct (on_section data) as [s|]; [|reflexivity]. destruct (convert_to_string sg s); reflexivity.
    - destruct (on_name_value_pair data) as [[name value]|]; [|destruct values; reflexivity].
      destruct (convert_to_string sg value), (convert_to_string sg name); destruct values; reflexivity. }
  destruct H as [[EP HR]|(EP & -> & ->)]; rewrite EP.
  - destruct rest as [|x rest].
    + destruct l as [|y l]; [reflexivity|]. cbn [run]. rewrite (STEP (fun v c => ini_loop fuel sg [] v c)).
      destruct (line_item sg (y :: l)) as [[|s|k v]|]; try reflexivity; rewrite ?ini_loop_nil, ?NIL; try reflexivity.
    + assert (GL : match l with [] => Some ([], x :: rest) | _ :: _ => Some (l, x :: rest) end = Some (l, x :: rest)) by (destruct l; reflexivity).
      rewrite (STEP (fun v c => ini_loop fuel sg (x :: rest) v c)). cbn [run].
      destruct (line_item sg l) as [[|s|k v]|]; try reflexivity; rewrite ?IH by lia; try reflexivity.
  - destruct l as [|y l]; [reflexivity|]. cbn [run]. rewrite (STEP (fun v c => ini_loop fuel sg [] v c)).
    destruct (line_item sg (y :: l)) as [[|s|k v]|]; try reflexivity; rewrite ?ini_loop_nil; try reflexivity.
Qed.
Lemma run_exec sg : forall ls values current j, Forall (Forall byte) ls ->
  (run sg ls values current = Some j <-> exists items, Forall2 line ls items /\ exec items values current = Some j).
Proof.
  induction ls as [|l ls IH]; intros values current j HB; cbn [run].
  - split; [intros H; exists []; split; [constructor|exact H]|]. intros (items & HF & HE). inversion HF; subst. exact HE.
  - inversion HB as [|? ? HBl HBls]; subst. split.
    + destruct (line_item sg l) as [i|] eqn:EI; [|discriminate]. apply line_item_iff in EI; [|assumption]. intros H.
      destruct i as [|s|k v]; [| |destruct values as [|e values]; [discriminate|]]; apply IH in H; try assumption; destruct H as (items & HF & HE); (eexists; split; [constructor; eassumption|exact HE]).
    + intros (items & HF & HE). inversion HF as [|? i ? items' HI HF']; subst. apply (line_item_iff sg) in HI; [|assumption]. rewrite HI.
      destruct i as [|s|k v]; cbn [exec] in HE; [| |destruct values as [|e values]; [discriminate|]]; apply IH; try assumption; eauto.
Qed.

(** * Blocks *)
Definition jpairs (ps : list (list Z * list Z)) : list (list Z * json) := map (fun p => (fst p, JString (snd p))) ps.
Definition ent (b : block) : list Z * json := (fst b, JObject (insert_all (jpairs (snd b)) [])).
Lemma insert_in_section_insert s k v e V :
  insert_in_section s k v (insert_or_assign s (JObject e) V) = insert_or_assign s (JObject (insert_or_assign k v e)) V.
Proof.
  induction V as [|[k' v'] V IH]; cbn [insert_or_assign insert_in_section].
  - now rewrite (proj2 (key_compare_eq s s) eq_refl).
  - destruct (key_compare s k') eqn:E; cbn [insert_in_section].
    + now rewrite E.
    + now rewrite (proj2 (key_compare_eq s s) eq_refl).
    + rewrite E. now rewrite IH.
Qed.
Definition pairs_items (ps : list (list Z * list Z)) : list item := map (fun p => Pair (fst p) (snd p)) ps.
Lemma exec_pairs : forall ps rest s e V,
  exec (pairs_items ps ++ rest) (insert_or_assign s (JObject e) V) s = exec rest (insert_or_assign s (JObject (insert_all (jpairs ps) e)) V) s.
Proof.
  induction ps as [|[k v] ps IH]; intros rest s e V; [reflexivity|]. cbn [pairs_items map app fst snd exec].
  pose proof (insert_nonempty s (JObject e) V) as HN. destruct (insert_or_assign s (JObject e) V) eqn:EI; [discriminate HN|]. rewrite <- EI.
  rewrite insert_in_section_insert. apply IH.
Qed.
Lemma exec_blocks : forall bs V c, exec (flat_map items_of bs) V c = finish (insert_all (map ent bs) V).
Proof.
  induction bs as [|[s ps] bs IH]; intros V c; [reflexivity|]. cbn [flat_map items_of fst snd app exec map].
  change (map (fun p => Pair (fst p) (snd p)) ps) with (pairs_items ps). rewrite exec_pairs. rewrite IH. reflexivity.
Qed.
Lemma exec_filter : forall items V c, exec (filter (fun i => negb (skip i)) items) V c = exec items V c.
Proof.
  induction items as [|[|s|k v] items IH]; intros V c; cbn [filter skip negb exec]; auto. destruct V; auto.
Qed.
Lemma decompose items : exists ps bs, filter (fun i => negb (skip i)) items = pairs_items ps ++ flat_map items_of bs.
Proof.
  induction items as [|[|s|k v] items (ps & bs & IH)]; cbn [filter skip negb].
  - exists [], []. reflexivity.
  - exists ps, bs. exact IH.
  - exists [], ((s, ps) :: bs). rewrite IH. reflexivity.
  - exists ((k, v) :: ps), bs. rewrite IH. reflexivity.
Qed.
Lemma entries_unique bs es : Forall2 entry_of bs es <-> es = map ent bs.
Proof.
  split.
  - induction 1 as [|b e bs es HE _ IH]; [reflexivity|]. cbn [map]. rewrite IH. f_equal. destruct HE as (E1 & m & E2 & HM). destruct e as [k v]. cbn [fst snd] in *. subst.
    apply map_of_unique in HM. subst m. reflexivity.
  - intros ->. induction bs as [|b bs IH]; constructor; [|assumption]. split; [reflexivity|]. eexists. split; [reflexivity|]. apply insert_all_map.
Qed.
Lemma insert_all_nonempty ms m : ms <> [] \/ m <> [] -> insert_all ms m <> [].
Proof.
  revert m; induction ms as [|[k v] ms IH]; intros m H; [destruct H as [H|H]; [congruence|exact H]|]. unfold insert_all. cbn [fold_left fst snd].
  apply IH. right. intros E. pose proof (insert_nonempty k v m) as HN. rewrite E in HN. discriminate.
Qed.

Lemma parse_ini_iff sg input j : Forall byte input -> (parse_ini sg input = Some j <-> ini_document input j).
Proof.
  intros HB. unfold parse_ini. rewrite ini_loop_run by lia. rewrite run_exec by (eapply pieces_byte; [exact HB|apply pieces_ok]). split.
  - intros (items & HF & HE). rewrite <- exec_filter in HE. destruct (decompose items) as (ps & bs & ED). rewrite ED in HE.
    destruct ps as [|[k v] ps]; [|discriminate HE]. cbn [pairs_items map app] in *. rewrite exec_blocks in HE.
    exists (pieces 10 input), items, bs, (map ent bs), (insert_all (map ent bs) []). split; [apply pieces_ok|]. split; [assumption|]. split; [assumption|].
    split; [intros ->; discriminate HE|]. split; [now apply entries_unique|]. split; [apply insert_all_map|].
    unfold finish in HE. destruct (insert_all (map ent bs) []); [discriminate|]. congruence.
  - intros (ls & items & bs & es & m & HP & HF & ED & HN & HE & HM & ->). apply entries_unique in HE. subst es. apply map_of_unique in HM. subst m.
    rewrite <- (pieces_of_unique _ _ _ _ HP (pieces_ok 10 input)). exists items. split; [assumption|]. rewrite <- exec_filter, ED, exec_blocks.
    unfold finish. destruct (insert_all (map ent bs) []) eqn:E; [|reflexivity]. exfalso. revert E. apply insert_all_nonempty. left. destruct bs; [congruence|discriminate].
Qed.
