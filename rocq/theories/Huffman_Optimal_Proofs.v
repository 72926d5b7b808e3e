(** Optimality of the trees HuffmanEncoder builds (C13), and their existence. *)
From Coq Require Import Permutation.
From Verif Require Import Common Bits BitStream_Model BitStream_Proofs Huffman_Model Huffman_Codes_Proofs Huffman_Spec.

(** * Kraft's inequality for prefix-free lists of words *)
Definition wkraft (M : nat) (ws : list (list bool)) : Z :=
  zsum (map (fun w => 2 ^ (Z.of_nat M - Z.of_nat (length w))) ws).

Inductive pfree : list (list bool) -> Prop :=
| pf_nil : pfree []
| pf_cons u ws : pfree ws -> Forall (fun v => ~ is_prefix u v /\ ~ is_prefix v u) ws -> pfree (u :: ws).

Definition tails (b : bool) (ws : list (list bool)) : list (list bool) :=
  flat_map (fun w => match w with x :: t => if Bool.eqb x b then [t] else [] | [] => [] end) ws.

Lemma tails_in b ws v : In v (tails b ws) -> In (b :: v) ws.
Proof.
  unfold tails. intros H. apply in_flat_map in H. destruct H as ([|x t] & Hin & H); [destruct H|].
  destruct (Bool.eqb x b) eqn:E; [|destruct H]. apply eqb_prop in E. subst.
  destruct H as [->|[]]. assumption.
Qed.

Lemma prefix_cons b u v : is_prefix (b :: u) (b :: v) <-> is_prefix u v.
Proof.
  split; intros (w & E).
  - inversion E. now exists w.
  - subst. now exists w.
Qed.

Lemma tails_pfree b ws : pfree ws -> pfree (tails b ws).
Proof.
  induction 1 as [|u ws HP IH HF]; [constructor|].
  unfold tails. cbn [flat_map]. destruct u as [|x t]; [exact IH|]. destruct (Bool.eqb x b) eqn:E; [|exact IH].
  apply eqb_prop in E. subst. cbn [app]. constructor; [exact IH|].
  apply Forall_forall. intros v Hv. apply tails_in in Hv. rewrite Forall_forall in HF. specialize (HF _ Hv).
  rewrite !prefix_cons in HF. exact HF.
Qed.

Lemma wkraft_split M ws : ~ In [] ws ->
  Forall (fun w => (length w <= S M)%nat) ws ->
  wkraft (S M) ws = wkraft M (tails true ws) + wkraft M (tails false ws) /\
  (forall b, Forall (fun w => (length w <= M)%nat) (tails b ws)).
Proof.
  intros HN HF. split.
  - induction ws as [|w ws IH]; [reflexivity|]. inversion_clear HF as [|? ? Hw HF'].
    assert (HN' : ~ In [] ws) by (intros H; apply HN; right; exact H).
    specialize (IH HN' HF'). destruct w as [|x t]; [exfalso; apply HN; now left|].
    unfold wkraft in *. cbn [map zsum fold_right]. fold (zsum (map (fun w => 2 ^ (Z.of_nat (S M) - Z.of_nat (length w))) ws)).
    rewrite IH. unfold tails at 3 4. cbn [flat_map]. cbn [length].
    replace (Z.of_nat (S M) - Z.of_nat (S (length t))) with (Z.of_nat M - Z.of_nat (length t)) by lia.
    destruct x; cbn [Bool.eqb app map zsum fold_right];
      fold (tails true ws); fold (tails false ws); unfold zsum; lia.
  - intros b. apply Forall_forall. intros v Hv. apply tails_in in Hv. rewrite Forall_forall in HF.
    specialize (HF _ Hv). cbn in HF. lia.
Qed.

Lemma kraft_prefix_free : forall M ws, pfree ws -> Forall (fun w => (length w <= M)%nat) ws -> wkraft M ws <= 2 ^ Z.of_nat M.
Proof.
  assert (Base : forall M ws, pfree ws -> In [] ws -> wkraft M ws <= 2 ^ Z.of_nat M).
  { intros M ws HP Hin. destruct HP as [|u ws HP HF]; [destruct Hin|]. destruct ws as [|v ws].
    - destruct Hin as [->|[]]. cbn. rewrite Z.sub_0_r. lia.
    - exfalso. inversion_clear HF as [|? ? [H1 H2] HF']. destruct Hin as [->|Hin]; [apply H1; now exists v|].
      destruct Hin as [->|Hin]; [apply H2; now exists u|]. rewrite Forall_forall in HF'. destruct (HF' _ Hin) as [_ H3].
      apply H3. now exists u. }
  induction M as [|M IH]; intros ws HP HF.
  - destruct ws as [|w ws]; [cbn; lia|]. apply Base; [assumption|]. inversion_clear HF. destruct w; [now left|cbn in *; lia].
  - destruct (in_dec (list_eq_dec Bool.bool_dec) [] ws) as [Hin|HN]; [now apply Base|].
    destruct (wkraft_split M ws HN HF) as [-> HT].
    pose proof (IH _ (tails_pfree true ws HP) (HT true)). pose proof (IH _ (tails_pfree false ws HP) (HT false)).
    rewrite Nat2Z.inj_succ, Z.pow_succ_r by lia. lia.
Qed.

(** * The exchange argument *)
Notation wl := (list (Z * Z)).   (* weight, length *)
Definition cost (P : wl) : Z := zsum (map (fun p => fst p * snd p) P).
Definition pk (K : Z) (P : wl) : Z := zsum (map (fun p => 2 ^ (K - snd p)) P).
Lemma cost_perm P Q : Permutation P Q -> cost P = cost Q.
Proof. intros H. apply zsum_perm. now apply Permutation_map. Qed.
Lemma pk_perm K P Q : Permutation P Q -> pk K P = pk K Q.
Proof. intros H. apply zsum_perm. now apply Permutation_map. Qed.
Lemma cost_cons p P : cost (p :: P) = fst p * snd p + cost P. Proof. reflexivity. Qed.
Lemma pk_cons K p P : pk K (p :: P) = 2 ^ (K - snd p) + pk K P. Proof. reflexivity. Qed.
Lemma pk_nonneg K P : 0 <= pk K P.
Proof. induction P as [|p P IH]; [cbn; lia|]. rewrite pk_cons. pose proof (Z.pow_nonneg 2 (K - snd p)). lia. Qed.

Lemma max_elem (P : wl) : P <> [] -> exists p R, Permutation P (p :: R) /\ Forall (fun q => snd q <= snd p) R.
Proof.
  induction P as [|p P IH]; intros H; [contradiction|]. destruct P as [|q P].
  - exists p, []. split; [apply Permutation_refl|constructor].
  - destruct IH as (m & R & HP & HF); [discriminate|]. destruct (Z.le_ge_cases (snd m) (snd p)).
    + exists p, (q :: P). split; [apply Permutation_refl|]. eapply Permutation_Forall; [symmetry; exact HP|].
      constructor; [assumption|]. eapply Forall_impl; [|exact HF]. cbn; intros; lia.
    + exists m, (p :: R). split; [rewrite HP; apply perm_swap|]. constructor; assumption.
Qed.

(** Some element of weight [w] can be given the greatest length, when [w] is a least weight. *)
Lemma give_longest K w P ws : Permutation (map fst P) (w :: ws) -> Forall (fun x => w <= x) ws ->
  Forall (fun p => 0 <= snd p <= K) P ->
  exists M R, Permutation (map fst R) ws /\ Forall (fun q => 0 <= snd q <= M) R /\ 0 <= M <= K /\
    pk K ((w, M) :: R) = pk K P /\ cost ((w, M) :: R) <= cost P /\ exists x, In (x, M) P.
Proof.
  intros HP Hw HK.
  assert (HNE : P <> []). { intros ->. apply Permutation_length in HP. discriminate. }
  destruct (max_elem P HNE) as ([x M] & R & PP & HF). cbn [snd] in HF.
  pose proof (Permutation_Forall PP HK) as HK'. inversion_clear HK' as [|? ? HM HR]. cbn [snd] in HM.
  assert (PX : Permutation (x :: map fst R) (w :: ws)) by (rewrite <- HP; symmetry; apply (Permutation_map fst PP)).
  rewrite (pk_perm _ _ _ PP), (cost_perm _ _ PP).
  assert (HB : Forall (fun q => 0 <= snd q <= M) R).
  { apply Forall_forall. intros q Hq. rewrite Forall_forall in HF, HR. specialize (HF q Hq). specialize (HR q Hq). lia. }
  assert (HIN : exists x, In (x, M) P) by (exists x; apply (Permutation_in _ (Permutation_sym PP)); now left).
  assert (Hx : x = w \/ In w (map fst R)).
  { assert (In w (x :: map fst R)) by (apply (Permutation_in _ (Permutation_sym PX)); now left). destruct H; auto. }
  destruct Hx as [->|Hin].
  - exists M, R. apply Permutation_cons_inv in PX. repeat split; (assumption || lia).
  - apply in_map_iff in Hin. destruct Hin as ([w' l] & E & Hin). cbn in E. subst w'.
    apply in_split in Hin. destruct Hin as (R1 & R2 & ->).
    assert (PR : Permutation (R1 ++ (w, l) :: R2) ((w, l) :: R1 ++ R2)) by (symmetry; apply Permutation_middle).
    exists M, ((x, l) :: R1 ++ R2).
    pose proof (Permutation_Forall PR HB) as HB'. inversion_clear HB' as [|? ? Hl HB'']. cbn [snd] in Hl.
    assert (PS : Permutation (x :: map fst (R1 ++ R2)) ws).
    { apply (Permutation_cons_inv (a := w)). rewrite <- PX. rewrite perm_swap. apply perm_skip.
      rewrite PR. reflexivity. }
    assert (w <= x). { rewrite Forall_forall in Hw. apply Hw. apply (Permutation_in _ PS). now left. }
    split; [exact PS|]. split; [constructor; assumption|]. split; [lia|].
    rewrite !pk_cons, (pk_perm _ _ _ PR), !cost_cons, (cost_perm _ _ PR), pk_cons, cost_cons. cbn [fst snd].
    split; [lia|]. split; [|assumption]. assert (0 <= (x - w) * (M - l)) by (apply Z.mul_nonneg_nonneg; lia). lia.
Qed.

Lemma pk_divides K M R : 0 <= M <= K -> Forall (fun q => 0 <= snd q <= M) R -> exists d, pk K R = d * 2 ^ (K - M).
Proof.
  intros HM. induction 1 as [|q R Hq HF (d & IH)]; [exists 0; reflexivity|].
  rewrite pk_cons, IH. exists (2 ^ (M - snd q) + d).
  replace (K - snd q) with ((M - snd q) + (K - M)) by lia. rewrite pow2_add by lia. lia.
Qed.

Lemma merge_step K a b ws : 0 <= a <= b -> Forall (fun x => b <= x) ws ->
  forall m P, (forall q, In q P -> snd q <= Z.of_nat m) -> Permutation (map fst P) (a :: b :: ws) ->
  Forall (fun p => 0 <= snd p <= K) P -> pk K P <= 2 ^ K ->
  exists P', Permutation (map fst P') (a + b :: ws) /\ Forall (fun p => 0 <= snd p <= K) P' /\ pk K P' <= 2 ^ K /\
    cost P' + (a + b) <= cost P.
Proof.
  intros Hab Hws. induction m as [|m IH]; intros P Hm HP HK HB.
  - (* all lengths 0: two words cannot satisfy Kraft *)
    exfalso. destruct P as [|p [|q R]]; try (apply Permutation_length in HP; cbn in HP; lia).
    rewrite !pk_cons in HB. inversion_clear HK as [|? ? Hp HK']. inversion_clear HK' as [|? ? Hq HK''].
    assert (snd p <= 0) by (apply Hm; now left). assert (snd q <= 0) by (apply Hm; right; now left).
    replace (K - snd p) with K in HB by lia. replace (K - snd q) with K in HB by lia.
    pose proof (pow2_pos K ltac:(lia)). pose proof (pk_nonneg K R). lia.
  - assert (Hb : Forall (fun x => a <= x) (b :: ws)).
    { constructor; [lia|]. eapply Forall_impl; [|exact Hws]. cbn; intros; lia. }
    destruct (give_longest K a P (b :: ws) HP Hb HK) as (M & R & PR & HR & HMK & EK & EC & x & HxM).
    rewrite <- EK in HB. clear EK. apply Hm in HxM. cbn [snd] in HxM.
    assert (HRK : Forall (fun p => 0 <= snd p <= K) R) by (eapply Forall_impl; [|exact HR]; cbn; intros; lia).
    destruct (give_longest K b R ws PR Hws HRK) as (M2 & R2 & PR2 & HR2 & HM2 & EK2 & EC2 & y & HyM).
    assert (HMM : 0 <= M2 <= M) by (rewrite Forall_forall in HR; apply (HR _ HyM)).
    rewrite pk_cons, <- EK2 in HB. cbn [snd] in HB. rewrite pk_cons in HB. cbn [snd] in HB.
    rewrite cost_cons in EC, EC2. cbn [fst snd] in EC, EC2.
    assert (HR2K : Forall (fun p => 0 <= snd p <= K) R2) by (eapply Forall_impl; [|exact HR2]; cbn; intros; lia).
    pose proof (pk_nonneg K R2) as PN.
    destruct (Z.eq_dec M2 M) as [->|NE].
    + (* siblings *)
      destruct (Z.eq_dec M 0) as [->|NZ].
      { exfalso. rewrite Z.sub_0_r in HB. pose proof (pow2_pos K ltac:(lia)). lia. }
      exists ((a + b, M - 1) :: R2). cbn [map fst]. split; [now apply perm_skip|].
      split; [constructor; [cbn; lia|assumption]|]. rewrite pk_cons, cost_cons. cbn [fst snd].
      replace (K - (M - 1)) with (Z.succ (K - M)) by lia. rewrite Z.pow_succ_r by lia. lia.
    + (* a alone has the greatest length: it can be shortened *)
      assert (HMM1 : Forall (fun q => 0 <= snd q <= M - 1) ((b, M2) :: R2)).
      { constructor; [cbn; lia|]. eapply Forall_impl; [|exact HR2]. cbn; intros; lia. }
      assert (SH : pk K ((a, M - 1) :: (b, M2) :: R2) <= 2 ^ K).
      { rewrite pk_cons. cbn [snd].
        destruct (pk_divides K (M - 1) _ ltac:(lia) HMM1) as (d & Ed). rewrite Ed.
        rewrite pk_cons in Ed. cbn [snd] in Ed.
        assert (EK : 2 ^ K = 2 ^ (M - 1) * 2 ^ (K - (M - 1))) by (rewrite <- pow2_add by lia; f_equal; lia).
        pose proof (pow2_pos (K - M) ltac:(lia)). pose proof (pow2_pos (K - (M - 1)) ltac:(lia)).
        assert (d < 2 ^ (M - 1)). { apply (Z.mul_lt_mono_pos_r (2 ^ (K - (M - 1)))); lia. }
        rewrite EK. replace (2 ^ (K - (M - 1)) + d * 2 ^ (K - (M - 1))) with ((d + 1) * 2 ^ (K - (M - 1))) by lia.
        apply Z.mul_le_mono_nonneg_r; lia. }
      destruct (IH ((a, M - 1) :: (b, M2) :: R2)) as (P' & Q1 & Q2 & Q3 & Q4).
      * intros q [<-|Hq]; [cbn; lia|]. rewrite Forall_forall in HMM1. specialize (HMM1 _ Hq). lia.
      * cbn [map fst]. now do 2 apply perm_skip.
      * constructor; [cbn; lia|]. eapply Forall_impl; [|exact HMM1]. cbn; intros; lia.
      * exact SH.
      * exists P'. split; [assumption|]. split; [assumption|]. split; [assumption|].
        rewrite !cost_cons in Q4. cbn [fst snd] in Q4. lia.
Qed.

(** * Trees *)
Fixpoint tcost (t : tree) : Z := match t with Leaf _ _ => 0 | Node f l r => f + tcost l + tcost r end.
Definition qfreq (q : list tree) : Z := zsum (map freq q).
Definition qcost (q : list tree) : Z := zsum (map tcost q).

Lemma combine_optimal q t : combine q t -> Forall (fun u => 0 <= freq u) q -> qfreq q < 2 ^ 64 ->
  forall K P, Permutation (map fst P) (map freq q) -> Forall (fun p => 0 <= snd p <= K) P -> pk K P <= 2 ^ K ->
  tcost t <= qcost q + cost P.
Proof.
  induction 1 as [t|q l q1 r q2 t H1 H2 HC IH]; intros HF HQ K P HP HK HB.
  - destruct P as [|[w x] [|p P]]; try (apply Permutation_length in HP; discriminate).
    apply Permutation_length_1_inv in HP. inversion HP; subst w. unfold qcost, cost. cbn [map zsum fold_right fst snd].
    inversion_clear HF as [|? ? Hf _]. inversion_clear HK as [|? ? Hx _]. cbn [snd] in Hx.
    pose proof (Z.mul_nonneg_nonneg (freq t) x). lia.
  - destruct H1 as [P1 M1]. destruct H2 as [P2 M2].
    assert (PQ : Permutation q (l :: r :: q2)) by (rewrite P1; now apply perm_skip).
    pose proof (Permutation_Forall PQ HF) as HF'. inversion_clear HF' as [|? ? Hl HF1]. inversion_clear HF1 as [|? ? Hr HF2].
    assert (EF : qfreq q = freq l + (freq r + qfreq q2)) by (unfold qfreq; rewrite (zsum_perm _ _ (Permutation_map freq PQ)); reflexivity).
    assert (EC : qcost q = tcost l + (tcost r + qcost q2)) by (unfold qcost; rewrite (zsum_perm _ _ (Permutation_map tcost PQ)); reflexivity).
    assert (0 <= qfreq q2).
    { clear - HF2. unfold qfreq. induction HF2; cbn [map zsum fold_right]; [lia|]. unfold zsum in *. lia. }
    assert (EN : freq (become_intermediate l r) = freq l + freq r).
    { cbn [become_intermediate freq]. unfold u64, wrap. apply Z.mod_small. lia. }
    pose proof (Permutation_Forall P2 M1) as M1'. inversion_clear M1' as [|? ? M1l M1r].
    rewrite (Permutation_map freq PQ) in HP. cbn [map] in HP.
    destruct (merge_step K (freq l) (freq r) (map freq q2)) with (m := Z.to_nat K) (P := P) as (P' & Q1 & Q2 & Q3 & Q4);
      try assumption; try lia.
    { now rewrite Forall_map. }
    { intros p Hp. rewrite Forall_forall in HK. specialize (HK p Hp). lia. }
    specialize (IH ltac:(constructor; [lia|assumption])).
    assert (QF : qfreq (become_intermediate l r :: q2) = freq l + freq r + qfreq q2) by (unfold qfreq in *; cbn [map zsum fold_right]; unfold zsum in *; lia).
    specialize (IH ltac:(lia) K P'). cbn [map] in IH. rewrite EN in IH. specialize (IH Q1 Q2 Q3).
    assert (QC : qcost (become_intermediate l r :: q2) = freq (become_intermediate l r) + tcost l + tcost r + qcost q2) by reflexivity.
    lia.
Qed.

Lemma combine_cost q t : combine q t -> Forall (fun u => 0 <= freq u) q -> qfreq q < 2 ^ 64 -> freq t = qfreq q.
Proof.
  induction 1 as [t|q l q1 r q2 t H1 H2 HC IH]; intros HF HQ.
  - unfold qfreq. cbn [map zsum fold_right]. lia.
  - destruct H1 as [P1 M1]. destruct H2 as [P2 M2].
    assert (PQ : Permutation q (l :: r :: q2)) by (rewrite P1; now apply perm_skip).
    pose proof (Permutation_Forall PQ HF) as HF'. inversion_clear HF' as [|? ? Hl HF1]. inversion_clear HF1 as [|? ? Hr HF2].
    assert (EF : qfreq q = freq l + (freq r + qfreq q2)) by (unfold qfreq; rewrite (zsum_perm _ _ (Permutation_map freq PQ)); reflexivity).
    assert (0 <= qfreq q2).
    { clear - HF2. unfold qfreq. induction HF2; cbn [map zsum fold_right]; [lia|]. unfold zsum in *. lia. }
    assert (EN : freq (become_intermediate l r) = freq l + freq r).
    { cbn [become_intermediate freq]. unfold u64, wrap. apply Z.mod_small. lia. }
    assert (QF : qfreq (become_intermediate l r :: q2) = freq l + freq r + qfreq q2) by (unfold qfreq in *; cbn [map zsum fold_right]; unfold zsum in *; lia).
    rewrite IH; [lia| |lia]. constructor; [lia|assumption].
Qed.

(** Frequencies of inner nodes are the sums of their children. *)
Inductive weighted : tree -> Prop :=
| w_leaf s f : weighted (Leaf s f)
| w_node f l r : f = freq l + freq r -> weighted l -> weighted r -> weighted (Node f l r).
Lemma combine_weighted q t : combine q t -> Forall (fun u => 0 <= freq u) q -> qfreq q < 2 ^ 64 ->
  Forall weighted q -> weighted t.
Proof.
  induction 1 as [t|q l q1 r q2 t H1 H2 HC IH]; intros HF HQ HW.
  - now inversion HW.
  - destruct H1 as [P1 M1]. destruct H2 as [P2 M2].
    assert (PQ : Permutation q (l :: r :: q2)) by (rewrite P1; now apply perm_skip).
    pose proof (Permutation_Forall PQ HF) as HF'. inversion_clear HF' as [|? ? Hl HF1]. inversion_clear HF1 as [|? ? Hr HF2].
    pose proof (Permutation_Forall PQ HW) as HW'. inversion_clear HW' as [|? ? Wl HW1]. inversion_clear HW1 as [|? ? Wr HW2].
    assert (EF : qfreq q = freq l + (freq r + qfreq q2)) by (unfold qfreq; rewrite (zsum_perm _ _ (Permutation_map freq PQ)); reflexivity).
    assert (0 <= qfreq q2).
    { clear - HF2. unfold qfreq. induction HF2; cbn [map zsum fold_right]; [lia|]. unfold zsum in *. lia. }
    assert (EN : freq (become_intermediate l r) = freq l + freq r).
    { cbn [become_intermediate freq]. unfold u64, wrap. apply Z.mod_small. lia. }
    assert (QF : qfreq (become_intermediate l r :: q2) = freq l + freq r + qfreq q2) by (unfold qfreq in *; cbn [map zsum fold_right]; unfold zsum in *; lia).
    apply IH; [constructor; [lia|assumption]|lia|]. constructor; [|assumption]. constructor; assumption.
Qed.

(** Sum over leaves of frequency times depth. *)
Fixpoint dcost (d : Z) (t : tree) : Z :=
  match t with Leaf _ f => f * d | Node _ l r => dcost (d + 1) l + dcost (d + 1) r end.
Lemma dcost_tcost t : weighted t -> forall d, dcost d t = tcost t + d * freq t.
Proof.
  induction 1 as [s f|f l r E Wl IHl Wr IHr]; intros d; cbn [dcost tcost freq]; [lia|].
  rewrite IHl, IHr, E. lia.
Qed.

(** * Every queue of trees can be combined *)
Lemma pop_exists q : q <> [] -> exists t q', pops q t q'.
Proof.
  induction q as [|a q IH]; intros H; [contradiction|]. destruct q as [|b q].
  - exists a, []. split; [apply Permutation_refl|constructor].
  - destruct IH as (m & R & HP & HF); [discriminate|]. destruct (Z.le_ge_cases (freq a) (freq m)).
    + exists a, (b :: q). split; [apply Permutation_refl|]. eapply Permutation_Forall; [symmetry; exact HP|].
      constructor; [assumption|]. eapply Forall_impl; [|exact HF]. cbn; intros; lia.
    + exists m, (a :: R). split; [rewrite HP; apply perm_swap|]. constructor; assumption.
Qed.
Lemma combine_exists : forall n q, length q = S n -> exists t, combine q t.
Proof.
  induction n as [|n IH]; intros q Hn.
  - destruct q as [|t [|u q]]; try discriminate. exists t. constructor.
  - destruct (pop_exists q) as (l & q1 & P1); [intros ->; discriminate|].
    assert (L1 : length q1 = S n) by (destruct P1 as [PP _]; apply Permutation_length in PP; cbn in PP; lia).
    destruct (pop_exists q1) as (r & q2 & P2); [intros ->; discriminate|].
    destruct (IH (become_intermediate l r :: q2)) as (t & HT).
    { destruct P2 as [PP _]. apply Permutation_length in PP. cbn in *. lia. }
    exists t. econstructor; eassumption.
Qed.

(** * From texts to weights *)
Lemma sum_by_symbol (f : Z -> Z) D : NoDup D -> forall text, Forall (fun s => In s D) text ->
  zsum (map f text) = zsum (map (fun s => count text s * f s) D).
Proof.
  intros HN. induction text as [|x text IH]; intros HF.
  - cbn [map zsum fold_right]. symmetry. clear. induction D as [|s D IH]; [reflexivity|]. cbn [map zsum fold_right].
    unfold zsum in IH. rewrite IH. reflexivity.
  - inversion_clear HF as [|? ? Hx HF']. change (zsum (map f (x :: text))) with (f x + zsum (map f text)). rewrite IH by assumption. clear IH HF'.
    induction HN as [|s D HS HN IH]; [destruct Hx|].
    change (zsum (map ?g (s :: D))) with (g s + zsum (map g D)). cbn beta.
    assert (E : count (x :: text) s = count text s + if Z.eq_dec x s then 1 else 0).
    { unfold count. cbn [count_occ]. destruct (Z.eq_dec x s); lia. }
    rewrite E. destruct (Z.eq_dec x s) as [->|N].
    + assert (R : map (fun s0 => count (s :: text) s0 * f s0) D = map (fun s0 => count text s0 * f s0) D).
      { apply map_ext_in. intros y Hy. unfold count. cbn [count_occ]. destruct (Z.eq_dec s y); [subst; contradiction|reflexivity]. }
      rewrite R. lia.
    + destruct Hx as [->|Hx]; [contradiction|]. specialize (IH Hx). lia.
Qed.

Lemma encoded_bits_sum word text : Z.of_nat (encoded_bits word text) = zsum (map (fun s => Z.of_nat (length (word s))) text).
Proof.
  induction text as [|s text IH]; [reflexivity|]. cbn [encoded_bits map zsum fold_right]. unfold zsum in IH. lia.
Qed.

Lemma present_all text : Forall (fun b => 0 <= b < 256) text -> Forall (fun s => In s (present text)) text.
Proof. intros H. apply Forall_forall. intros s Hs. now apply present_in. Qed.

Lemma leaves_are_leaves text : Forall (fun u => exists s, u = Leaf s (count text s)) (leaves text).
Proof.
  unfold leaves. apply Forall_forall. intros u Hu. apply in_map_iff in Hu. destruct Hu as (s & <- & _). eauto.
Qed.

Lemma leaves_freq text : map freq (leaves text) = map (count text) (present text).
Proof.
  rewrite <- leaves_symbols, map_map. apply map_ext_in. intros u Hu.
  pose proof (leaves_are_leaves text) as L. rewrite Forall_forall in L. destruct (L u Hu) as (s & ->). reflexivity.
Qed.

Lemma leaves_total text : Forall (fun b => 0 <= b < 256) text -> qfreq (leaves text) = Z.of_nat (length text).
Proof.
  intros H. unfold qfreq. rewrite leaves_freq.
  pose proof (sum_by_symbol (fun _ => 1) (present text) (present_nodup text) text (present_all text H)) as E.
  rewrite (map_ext _ (fun s => count text s * 1)) by (intros; lia). rewrite <- E. clear.
  induction text as [|x t IH]; [reflexivity|]. cbn [map zsum fold_right length]. unfold zsum in IH. lia.
Qed.

Lemma dcost_depths text t : Forall (fun u => exists s, u = Leaf s (count text s)) (tree_leaves t) -> forall d,
  dcost d t = zsum (map (fun p => count text (fst p) * snd p) (depths d t)).
Proof.
  induction t as [s f|f l IHl r IHr]; intros HF d; cbn [tree_leaves depths dcost] in *.
  - inversion_clear HF as [|? ? (s' & E) _]. inversion E; subst. cbn [map zsum fold_right fst snd]. lia.
  - apply Forall_app in HF. destruct HF as [HF1 HF2]. rewrite map_app, zsum_app, IHl, IHr by assumption. reflexivity.
Qed.

Lemma leaves_cost text : qcost (leaves text) = 0.
Proof.
  unfold qcost. pose proof (leaves_are_leaves text) as LL. induction LL as [|u q (s & ->) LL IH]; [reflexivity|].
  cbn [map zsum fold_right tcost]. unfold zsum in IH. now rewrite IH.
Qed.

Lemma create_tree_optimal text t word : Forall (fun b => 0 <= b < 256) text -> Z.of_nat (length text) < 2 ^ 64 ->
  create_tree text t -> prefix_code (present text) word ->
  zsum (map (fun p => count text (fst p) * snd p) (depths 0 t)) <= Z.of_nat (encoded_bits word text).
Proof.
  intros HF HL HT HW.
  assert (HQ : Forall (fun u => 0 <= freq u) (leaves text)).
  { eapply Forall_impl; [|apply leaves_are_leaves]. cbn. intros u (s & ->). cbn. unfold count. lia. }
  assert (HQ2 : qfreq (leaves text) < 2 ^ 64) by (rewrite leaves_total by assumption; exact HL).
  rewrite <- dcost_depths.
  2:{ eapply Permutation_Forall; [|apply leaves_are_leaves]. rewrite <- (combine_leaves _ _ HT). now rewrite leaves_flat. }
  assert (WT : weighted t).
  { eapply combine_weighted; [exact HT|assumption|assumption|]. eapply Forall_impl; [|apply leaves_are_leaves]. cbn. intros u (s & ->). constructor. }
  rewrite (dcost_tcost t WT), Z.mul_0_l, Z.add_0_r.
  rewrite encoded_bits_sum, (sum_by_symbol _ (present text) (present_nodup text) text (present_all text HF)).
  set (K := fold_right Nat.max O (map (fun s => length (word s)) (present text))).
  assert (HK : forall s, In s (present text) -> (length (word s) <= K)%nat).
  { unfold K. generalize (present text). intros D. induction D as [|x D IH]; intros s Hs; [destruct Hs|].
    cbn [map fold_right]. destruct Hs as [->|Hs]; [lia|]. specialize (IH s Hs). lia. }
  clearbody K.
  set (P := map (fun s => (count text s, Z.of_nat (length (word s)))) (present text)).
  assert (EC : qcost (leaves text) = 0).
  { apply leaves_cost. }
  pose proof (combine_optimal _ _ HT HQ HQ2 (Z.of_nat K) P) as OPT. rewrite EC, Z.add_0_l in OPT.
  replace (zsum (map (fun s => count text s * Z.of_nat (length (word s))) (present text))) with (cost P).
  2:{ unfold cost, P. rewrite map_map. reflexivity. }
  apply OPT.
  - unfold P. rewrite map_map, leaves_freq. cbn [fst]. apply Permutation_refl.
  - unfold P. apply Forall_forall. intros p Hp. apply in_map_iff in Hp. destruct Hp as (s & <- & Hs). cbn [snd]. specialize (HK s Hs). lia.
  - replace (pk (Z.of_nat K) P) with (wkraft K (map word (present text))).
    2:{ unfold pk, wkraft, P. rewrite !map_map. reflexivity. }
    apply kraft_prefix_free.
    + pose proof (present_nodup text) as ND. clear - HW ND. revert HW. induction ND as [|s D Hs ND IH]; intros HW; [constructor|].
      cbn [map]. constructor.
      * apply IH. intros s1 s2 H1 H2. apply HW; now right.
      * apply Forall_forall. intros v Hv. apply in_map_iff in Hv. destruct Hv as (s' & <- & Hs').
        assert (s <> s') by (intros ->; contradiction).
        split; apply HW; try (now left); try (now right); auto.
    + apply Forall_forall. intros w Hw. apply in_map_iff in Hw. destruct Hw as (s & <- & Hs). auto.
Qed.

(** Without length limiting, code lengths are leaf depths. *)
Fixpoint height (t : tree) : Z := match t with Leaf _ _ => 0 | Node _ l r => 1 + Z.max (height l) (height r) end.
Lemma height_depths t : forall d, Forall (fun p => snd p <= d + height t) (depths d t).
Proof.
  induction t as [s f|f l IHl r IHr]; intros d; cbn [depths height].
  - constructor; [cbn; lia|constructor].
  - apply Forall_app. split.
    + eapply Forall_impl; [|apply IHl]. cbv beta. intros; lia.
    + eapply Forall_impl; [|apply IHr]. cbv beta. intros; lia.
Qed.

Lemma create_codes_lengths max chunk t : 1 <= max <= 15 -> Forall (fun b => 0 <= b < 256) chunk ->
  create_tree chunk t -> height t <= max -> (2 <= length (present chunk))%nat ->
  exists codes, create_codes max t = Ok codes /\
    map c_symbol codes = map c_symbol (visit 0 t []) /\ map c_length codes = map c_length (visit 0 t []) /\
    Permutation (visit 0 t []) (map mk_code (depths 0 t)) /\
    (forall p, In p (depths 0 t) -> c_length (mk_code p) = snd p).
Proof.
  intros Hm HF HT Hh H2. destruct (visit_codes chunk t HF HT) as (V1 & V2 & V3 & V4 & V5 & V6).
  pose proof (visit_perm t 0 []) as HP. rewrite app_nil_r in HP.
  pose proof (height_depths t 0) as HD. rewrite Z.add_0_l in HD.
  assert (HU : forall p, In p (depths 0 t) -> c_length (mk_code p) = snd p).
  { intros p Hp. pose proof (depths_bound 0 t) as DB. rewrite Forall_forall in DB, HD. specialize (DB p Hp). specialize (HD p Hp).
    cbn. apply u8_small. lia. }
  assert (HLE : Forall (fun c => c_length c <= max) (visit 0 t [])).
  { apply Forall_forall. intros c Hc. apply (Permutation_in _ HP) in Hc. apply in_map_iff in Hc. destruct Hc as (p & <- & Hp).
    rewrite HU by assumption. rewrite Forall_forall in HD. specialize (HD p Hp). lia. }
  unfold create_codes. set (codes := visit 0 t []) in *.
  assert (HM : (fold_right Z.max 0 (map c_length codes) >? max) = false).
  { rewrite Z.gtb_ltb. apply Z.ltb_ge. clear - HLE Hm. induction HLE; cbn [map fold_right]; lia. }
  rewrite HM. cbn [bind]. assert (L2 : (2 <= length codes)%nat) by lia. specialize (V5 L2).
  assert (V35 : lens_in 1 max codes).
  { apply Forall_forall. intros x Hx. rewrite Forall_forall in HLE, V5. specialize (HLE x Hx). specialize (V5 x Hx). lia. }
  destruct (canonical_ok max codes Hm L2 V2 V35) as (codes' & E & T1 & T2 & _).
  { rewrite V6 by assumption. lia. }
  exists codes'. auto.
Qed.
