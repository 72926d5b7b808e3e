(** Lemmas about the codes HuffmanEncoder builds: tree, length limiting, canonical form. *)
From Coq Require Import Permutation Sorting.Sorted.
From Verif Require Import Common Bits BitStream_Model BitStream_Spec BitStream_Proofs BitStream_Props Huffman_Model.

(** * Trees *)
Fixpoint tree_leaves (t : tree) : list tree :=
  match t with Leaf _ _ => [t] | Node _ l r => tree_leaves l ++ tree_leaves r end.
Fixpoint depths (d : Z) (t : tree) : list (Z * Z) :=
  match t with Leaf s _ => [(s, d)] | Node _ l r => depths (d + 1) l ++ depths (d + 1) r end.
Definition leaf_symbol (t : tree) : Z := match t with Leaf s _ => s | Node _ _ _ => 0 end.

Lemma depths_length d t : length (depths d t) = length (tree_leaves t).
Proof. revert d; induction t as [|f l IHl r IHr]; intros d; [reflexivity|]. cbn. now rewrite !app_length, IHl, IHr. Qed.
Lemma tree_leaves_pos t : (0 < length (tree_leaves t))%nat.
Proof. induction t; cbn; [lia|]. rewrite app_length. lia. Qed.
Lemma depths_symbols d t : map fst (depths d t) = map leaf_symbol (tree_leaves t).
Proof. revert d; induction t as [|f l IHl r IHr]; intros d; [reflexivity|]. cbn. now rewrite !map_app, IHl, IHr. Qed.

Lemma depths_bound d t : Forall (fun p => d <= snd p <= d + Z.of_nat (length (tree_leaves t)) - 1) (depths d t).
Proof.
  revert d; induction t as [s f|f l IHl r IHr]; intros d; cbn [depths tree_leaves].
  - constructor; [cbn; lia|constructor].
  - pose proof (tree_leaves_pos l). pose proof (tree_leaves_pos r). rewrite app_length.
    apply Forall_app. split; [eapply Forall_impl; [|apply IHl]|eapply Forall_impl; [|apply IHr]]; cbn; intros [s x]; cbn; lia.
Qed.

Lemma depths_pos f l r : Forall (fun p => 1 <= snd p) (depths 0 (Node f l r)).
Proof.
  cbn [depths]. apply Forall_app. split; (eapply Forall_impl; [|apply depths_bound]); cbn; intros [s x]; cbn; lia.
Qed.

Definition zsum (l : list Z) : Z := fold_right Z.add 0 l.
Lemma zsum_app a b : zsum (a ++ b) = zsum a + zsum b.
Proof. induction a as [|x a IH]; [reflexivity|]. cbn in *. unfold zsum in *. cbn. lia. Qed.
Lemma zsum_perm a b : Permutation a b -> zsum a = zsum b.
Proof. induction 1; unfold zsum in *; cbn in *; lia. Qed.

(** Kraft's equality for the depths of a tree. *)
Lemma depths_kraft M : forall t d, Forall (fun p => snd p <= M) (depths d t) -> 0 <= d ->
  zsum (map (fun p => 2 ^ (M - snd p)) (depths d t)) = 2 ^ (M - d).
Proof.
  induction t as [s f|f l IHl r IHr]; intros d HF Hd; cbn [depths] in *.
  - cbn. lia.
  - apply Forall_app in HF. destruct HF as [Hl Hr]. rewrite map_app, zsum_app, IHl, IHr by (assumption || lia).
    assert (d + 1 <= M).
    { pose proof (tree_leaves_pos l). rewrite <- (depths_length (d + 1)) in H.
      pose proof (depths_bound (d + 1) l) as B. destruct (depths (d + 1) l) as [|p ps]; [cbn in H; lia|].
      inversion Hl; inversion B; subst. lia. }
    replace (M - d) with (1 + (M - (d + 1))) by lia. rewrite pow2_add by lia. change (2 ^ 1) with 2. lia.
Qed.

Lemma combine_leaves q t : combine q t -> Permutation (flat_map tree_leaves q) (tree_leaves t).
Proof.
  induction 1 as [t|q l q1 r q2 t [P1 _] [P2 _] H IH]; [cbn; rewrite app_nil_r; reflexivity|].
  rewrite <- IH. cbn [flat_map become_intermediate tree_leaves].
  rewrite (Permutation_flat_map tree_leaves P1). cbn [flat_map].
  rewrite <- app_assoc. apply Permutation_app_head. rewrite (Permutation_flat_map tree_leaves P2). reflexivity.
Qed.

Lemma leaves_flat chunk : flat_map tree_leaves (leaves chunk) = leaves chunk.
Proof.
  unfold leaves. generalize (filter (fun s => 0 <? count chunk s) (map Z.of_nat (seq 0 256))).
  intros l. induction l as [|x l IH]; [reflexivity|]. cbn [map flat_map tree_leaves app]. now rewrite IH.
Qed.
Definition present (chunk : list Z) : list Z := filter (fun s => 0 <? count chunk s) (map Z.of_nat (seq 0 256)).
Lemma leaves_symbols chunk : map leaf_symbol (leaves chunk) = present chunk.
Proof. unfold leaves, present. rewrite map_map. cbn [leaf_symbol]. apply map_id. Qed.

Lemma filter_length_le' {A} (p : A -> bool) l : (length (filter p l) <= length l)%nat.
Proof. induction l as [|x l IH]; cbn; [lia|]. destruct (p x); cbn; lia. Qed.
Lemma present_gen (p : Z -> bool) n :
  NoDup (filter p (map Z.of_nat (seq 0 n))) /\
  (forall x, In x (filter p (map Z.of_nat (seq 0 n))) <-> 0 <= x < Z.of_nat n /\ p x = true) /\
  (length (filter p (map Z.of_nat (seq 0 n))) <= n)%nat.
Proof.
  split; [|split].
  - apply NoDup_filter. apply FinFun.Injective_map_NoDup; [intros a b; lia|apply seq_NoDup].
  - intros x. rewrite filter_In, in_map_iff. split.
    + intros ((m & <- & Hm) & Hp). apply in_seq in Hm. split; [lia|assumption].
    + intros (Hx & Hp). split; [|assumption]. exists (Z.to_nat x). split; [lia|]. apply in_seq. lia.
  - etransitivity; [apply filter_length_le'|]. now rewrite map_length, seq_length.
Qed.
Lemma present_nodup chunk : NoDup (present chunk).
Proof. exact (proj1 (present_gen (fun s => 0 <? count chunk s) 256)). Qed.
Lemma present_spec chunk x : In x (present chunk) <-> 0 <= x < 256 /\ (0 <? count chunk x) = true.
Proof. exact (proj1 (proj2 (present_gen (fun s => 0 <? count chunk s) 256)) x). Qed.
Lemma present_length chunk : (length (present chunk) <= 256)%nat.
Proof. exact (proj2 (proj2 (present_gen (fun s => 0 <? count chunk s) 256))). Qed.
Lemma present_in chunk s : Forall (fun b => 0 <= b < 256) chunk -> In s (present chunk) <-> In s chunk.
Proof.
  intros HF. rewrite present_spec, Z.ltb_lt. unfold count. split.
  - intros (_ & H). apply (count_occ_In Z.eq_dec). lia.
  - intros H. split; [rewrite Forall_forall in HF; auto|].
    apply (count_occ_In Z.eq_dec) in H. lia.
Qed.
Lemma present_byte chunk : Forall (fun b => 0 <= b < 256) (present chunk).
Proof. apply Forall_forall. intros x Hx. apply present_spec in Hx. tauto. Qed.
#[global] Opaque present.

(** * Sorting *)
Notation len_le := (fun x y => c_length x <= c_length y).
Notation len_sorted := (StronglySorted len_le).

Lemma insert_rev_perm c l : Permutation (insert_rev c l) (c :: l).
Proof.
  induction l as [|x l IH]; [reflexivity|]. cbn. destruct (code_lt c x); [|reflexivity].
  rewrite IH. apply perm_swap.
Qed.
Lemma code_lt_len x y : code_lt x y = true -> c_length x <= c_length y.
Proof. unfold code_lt. destruct (Z.eqb_spec (c_length x) (c_length y)); intros H; [lia|apply Z.ltb_lt in H; lia]. Qed.
Lemma code_lt_false x y : code_lt x y = false -> c_length y <= c_length x.
Proof. unfold code_lt. destruct (Z.eqb_spec (c_length x) (c_length y)); intros H; [lia|apply Z.ltb_ge in H; lia]. Qed.
Lemma insert_rev_sorted c l :
  StronglySorted (fun x y => c_length y <= c_length x) l ->
  StronglySorted (fun x y => c_length y <= c_length x) (insert_rev c l).
Proof.
  induction 1 as [|x l HS IH HF]; [repeat constructor|]. cbn. destruct (code_lt c x) eqn:E.
  - constructor; [assumption|]. rewrite Forall_forall in *. intros y Hy.
    apply (Permutation_in _ (insert_rev_perm c l)) in Hy. destruct Hy as [<-|Hy]; [now apply code_lt_len|auto].
  - apply code_lt_false in E. constructor; [constructor; assumption|]. constructor; [assumption|].
    eapply Forall_impl; [|exact HF]. cbn. intros; lia.
Qed.
Lemma sorted_app {A} (R : A -> A -> Prop) l1 l2 :
  StronglySorted R l1 -> StronglySorted R l2 -> (forall x y, In x l1 -> In y l2 -> R x y) -> StronglySorted R (l1 ++ l2).
Proof.
  induction 1 as [|x l HS IH HF]; intros H2 H; [assumption|]. cbn. constructor.
  - apply IH; [assumption|]. intros; apply H; [now right|assumption].
  - apply Forall_app. split; [assumption|]. apply Forall_forall. intros y Hy. apply H; [now left|assumption].
Qed.
Lemma sorted_rev {A} (R : A -> A -> Prop) l : StronglySorted R l -> StronglySorted (fun x y => R y x) (rev l).
Proof.
  induction 1 as [|x l HS IH HF]; [constructor|]. cbn. apply sorted_app; [assumption|repeat constructor|].
  intros a b Ha [<-|[]]. apply in_rev in Ha. rewrite Forall_forall in HF. auto.
Qed.
Lemma insert_code_perm c l : Permutation (insert_code c l) (c :: l).
Proof.
  unfold insert_code. rewrite <- Permutation_rev, insert_rev_perm. constructor. symmetry. apply Permutation_rev.
Qed.
Lemma insert_code_sorted c l : len_sorted l -> len_sorted (insert_code c l).
Proof.
  intros H. unfold insert_code.
  apply (sorted_rev (fun x y => c_length y <= c_length x)). apply insert_rev_sorted.
  apply (sorted_rev len_le). exact H.
Qed.

Definition mk_code (p : Z * Z) : code := {| c_symbol := fst p; c_code := 0; c_length := u8 (snd p) |}.
Lemma visit_perm t : forall d codes, Permutation (visit d t codes) (map mk_code (depths d t) ++ codes).
Proof.
  induction t as [s f|f l IHl r IHr]; intros d codes; cbn [visit depths map].
  - apply insert_code_perm.
  - rewrite IHl, IHr, map_app, <- app_assoc. reflexivity.
Qed.
Lemma visit_sorted t : forall d codes, len_sorted codes -> len_sorted (visit d t codes).
Proof.
  induction t as [s f|f l IHl r IHr]; intros d codes H; cbn [visit]; [now apply insert_code_sorted|auto].
Qed.

(** * Kraft sums of code lists *)
Definition kraft (M : Z) (codes : list code) : Z := zsum (map (fun c => 2 ^ (M - c_length c)) codes).
Lemma kraft_cons M c l : kraft M (c :: l) = 2 ^ (M - c_length c) + kraft M l.
Proof. reflexivity. Qed.
Lemma kraft_app M a b : kraft M (a ++ b) = kraft M a + kraft M b.
Proof. unfold kraft. now rewrite map_app, zsum_app. Qed.
Lemma kraft_rev M l : kraft M (rev l) = kraft M l.
Proof. unfold kraft. apply zsum_perm. apply Permutation_map. symmetry. apply Permutation_rev. Qed.
Lemma kraft_nonneg M l : 0 <= kraft M l.
Proof.
  induction l as [|c l IH]; [cbn; lia|]. rewrite kraft_cons.
  pose proof (Z.pow_nonneg 2 (M - c_length c)). lia.
Qed.
Lemma kraft_shift M M' l : M <= M' -> Forall (fun c => c_length c <= M) l -> kraft M' l = kraft M l * 2 ^ (M' - M).
Proof.
  intros HM. induction 1 as [|c l Hc HF IH]; [reflexivity|]. rewrite !kraft_cons, IH.
  replace (M' - c_length c) with ((M - c_length c) + (M' - M)) by lia. rewrite pow2_add by lia. lia.
Qed.

(** Codes of the traversal. *)
Lemma visit_codes chunk t : Forall (fun b => 0 <= b < 256) chunk -> create_tree chunk t ->
  let codes := visit 0 t [] in
  Permutation (map c_symbol codes) (present chunk) /\ len_sorted codes /\
  Forall (fun c => 0 <= c_length c < 256) codes /\
  (length codes = length (present chunk)) /\
  ((2 <= length codes)%nat -> Forall (fun c => 1 <= c_length c) codes) /\
  (forall M, Forall (fun c => c_length c <= M) codes -> kraft M codes = 2 ^ M).
Proof.
  intros HF HT. cbn zeta.
  pose proof (visit_perm t 0 []) as HP. rewrite app_nil_r in HP.
  pose proof (combine_leaves _ _ HT) as HL. rewrite leaves_flat in HL.
  assert (HS : Permutation (map c_symbol (visit 0 t [])) (present chunk)).
  { rewrite (Permutation_map c_symbol HP), map_map. cbn [mk_code c_symbol]. rewrite depths_symbols.
    rewrite <- leaves_symbols. apply Permutation_map. now symmetry. }
  assert (HN : length (visit 0 t []) = length (present chunk)).
  { apply Permutation_length in HS. now rewrite map_length in HS. }
  assert (Hlen : length (tree_leaves t) = length (present chunk)).
  { rewrite <- leaves_symbols, map_length. symmetry. now apply Permutation_length. }
  pose proof (present_length chunk) as H256.
  assert (HB : Forall (fun p => 0 <= snd p < 256) (depths 0 t)).
  { eapply Forall_impl; [|apply depths_bound]. cbn. intros [s x]; cbn. lia. }
  assert (HU : forall p, In p (depths 0 t) -> c_length (mk_code p) = snd p).
  { intros p Hp. rewrite Forall_forall in HB. cbn. apply u8_small. auto. }
  split; [assumption|]. split; [apply visit_sorted; constructor|].
  split; [|split; [assumption|split]].
  - apply Forall_forall. intros c Hc. apply (Permutation_in _ HP) in Hc. apply in_map_iff in Hc.
    destruct Hc as (p & <- & Hp). rewrite HU by assumption. rewrite Forall_forall in HB. auto.
  - intros H2. apply Forall_forall. intros c Hc. apply (Permutation_in _ HP) in Hc. apply in_map_iff in Hc.
    destruct Hc as (p & <- & Hp). rewrite HU by assumption.
    destruct t as [s f|f l r]; [cbn in Hlen; lia|].
    pose proof (depths_pos f l r) as D. rewrite Forall_forall in D. auto.
  - intros M HM. unfold kraft. rewrite (zsum_perm _ _ (Permutation_map _ HP)), map_map.
    rewrite (map_ext_in _ (fun p => 2 ^ (M - snd p))).
    2:{ intros p Hp. now rewrite HU. }
    rewrite depths_kraft; [f_equal; lia| |lia].
    apply Forall_forall. intros p Hp. rewrite Forall_forall in HM. rewrite <- HU by assumption.
    apply HM. apply (Permutation_in _ (Permutation_sym HP)). now apply in_map.
Qed.

(** * Length limiting *)
Lemma pow2_bound a b : 0 <= a <= b -> 1 <= 2 ^ a <= 2 ^ b.
Proof.
  intros H. split; [pose proof (pow2_pos a ltac:(lia)); lia|]. apply Z.pow_le_mono_r; lia.
Qed.
Lemma pow15 max : 0 <= max <= 15 -> 1 <= 2 ^ max <= 32768.
Proof. intros H. pose proof (pow2_bound max 15 H) as B. change (2 ^ 15) with 32768 in B. exact B. Qed.
Lemma u16_small v : 0 <= v < 65536 -> u16 v = v.
Proof. intros. apply Z.mod_small. change (2 ^ 16) with 65536. lia. Qed.

Lemma compute_kraft_ok max len : 0 <= max <= 15 -> 0 <= len <= max -> compute_kraft max len = Ok (2 ^ (max - len)).
Proof.
  intros Hm Hl. unfold compute_kraft. pose proof (pow15 (max - len) ltac:(lia)) as P.
  rewrite shl_ok by lia. cbn [bind]. rewrite Z.mul_1_l. rewrite (Z.mod_small _ (2 ^ 32)) by (change (2 ^ 32) with 4294967296; lia).
  rewrite u16_small by lia. reflexivity.
Qed.

Definition clip (max : Z) (c : code) : code := set_length c (Z.min (c_length c) max).
Lemma clip_ok max : 0 <= max <= 15 -> forall codes k0, Forall (fun c => 0 <= c_length c) codes -> 0 <= k0 ->
  k0 + kraft max (map (clip max) codes) < 65536 ->
  clip_lengths max codes k0 = Ok (map (clip max) codes, k0 + kraft max (map (clip max) codes)).
Proof.
  intros Hm. induction codes as [|c r IH]; intros k0 HF Hk Hlt.
  - cbn. do 2 f_equal. unfold kraft. cbn. lia.
  - inversion_clear HF as [|? ? Hc HF']. cbn [map] in *. rewrite kraft_cons in *.
    cbn [clip_lengths]. change (c_length (clip max c)) with (Z.min (c_length c) max) in *.
    rewrite compute_kraft_ok by lia. cbn [bind].
    pose proof (kraft_nonneg max (map (clip max) r)). pose proof (Z.pow_nonneg 2 (max - Z.min (c_length c) max) ltac:(lia)).
    rewrite u16_small by lia. rewrite IH by (assumption || lia). cbn [bind]. do 2 f_equal. lia.
Qed.

Lemma clip_kraft_bound max M codes : 0 <= max <= M -> Forall (fun c => 0 <= c_length c <= M) codes ->
  kraft max (map (clip max) codes) * 2 ^ (M - max) <= kraft M codes + Z.of_nat (length codes) * 2 ^ (M - max).
Proof.
  intros Hm. induction 1 as [|c r Hc HF IH]; [cbn; lia|].
  cbn [map length]. rewrite !kraft_cons. change (c_length (clip max c)) with (Z.min (c_length c) max).
  assert (2 ^ (max - Z.min (c_length c) max) * 2 ^ (M - max) <= 2 ^ (M - c_length c) + 2 ^ (M - max)).
  { pose proof (pow2_pos (M - max) ltac:(lia)). pose proof (pow2_pos (M - c_length c) ltac:(lia)).
    destruct (Z.le_ge_cases (c_length c) max).
    - rewrite Z.min_l by lia. rewrite <- pow2_add by lia.
      replace (max - c_length c + (M - max)) with (M - c_length c) by lia. lia.
    - rewrite Z.min_r by lia. rewrite Z.sub_diag. change (2 ^ 0) with 1. lia. }
  lia.
Qed.

Lemma lengthen_ok max : 0 <= max <= 15 -> forall fuel len k, 0 <= len <= max -> (Z.to_nat (max - len) <= fuel)%nat ->
  2 ^ (max - len) - 1 <= k < 65536 ->
  lengthen fuel max len k = Ok (max, k - 2 ^ (max - len) + 1).
Proof.
  intros Hm. induction fuel as [|fuel IH]; intros len k Hl Hf Hk; cbn [lengthen].
  - replace len with max by lia. rewrite Z.ltb_irrefl, Z.sub_diag. cbn. do 2 f_equal. lia.
  - destruct (Z.ltb_spec len max) as [Hlt|Hge].
    + rewrite (u8_small (len + 1)) by lia. rewrite compute_kraft_ok by lia. cbn [bind].
      assert (E : 2 ^ (max - len) = 2 * 2 ^ (max - (len + 1))).
      { replace (max - len) with (1 + (max - (len + 1))) by lia. rewrite pow2_add by lia. reflexivity. }
      pose proof (pow2_pos (max - (len + 1)) ltac:(lia)).
      rewrite u16_small by lia. rewrite IH by lia. do 2 f_equal. lia.
    + replace len with max by lia. rewrite Z.sub_diag. cbn. do 2 f_equal. lia.
Qed.

Notation len_desc := (StronglySorted (fun x y => c_length y <= c_length x)).
Notation lens_in lo hi := (Forall (fun c => lo <= c_length c <= hi)).

Lemma lengthen_all_ok max allowed : 1 <= max <= 15 -> forall rcodes base k,
  len_desc rcodes -> lens_in 1 max rcodes -> 0 <= base -> k = base + kraft max rcodes -> k < 65536 ->
  exists rcodes' k', lengthen_all max allowed rcodes k = Ok (rcodes', k') /\
    map c_symbol rcodes' = map c_symbol rcodes /\ len_desc rcodes' /\ lens_in 1 max rcodes' /\
    k' = base + kraft max rcodes' /\ k' <= k /\
    (k' <= allowed \/ Forall (fun c => c_length c = max) rcodes').
Proof.
  intros Hm. induction rcodes as [|c r IH]; intros base k HS HL Hb Hk Hlt.
  - exists [], k. split; [reflexivity|]. split; [reflexivity|]. split; [constructor|]. split; [constructor|].
    split; [assumption|]. split; [lia|right; constructor].
  - cbn [lengthen_all]. destruct (Z.gtb_spec k allowed) as [Hg|Hle].
    + inversion_clear HS as [|? ? HS' HF]. inversion_clear HL as [|? ? Hc HL'].
      rewrite kraft_cons in Hk. pose proof (kraft_nonneg max r). pose proof (pow2_pos (max - c_length c) ltac:(lia)).
      rewrite lengthen_ok by lia. cbn [bind].
      destruct (IH (base + 1) (k - 2 ^ (max - c_length c) + 1)) as (r' & k' & E & S1 & S2 & S3 & S4 & S5 & S6);
        [assumption|assumption|lia|lia|lia|].
      rewrite E. cbn [bind]. exists (set_length c max :: r'), k'. split; [reflexivity|].
      split; [cbn; now f_equal|]. split.
      { constructor; [assumption|]. eapply Forall_impl; [|exact S3]. cbn. intros; lia. }
      split; [constructor; [cbn; lia|assumption]|].
      split.
      { rewrite kraft_cons. cbn [set_length c_length]. rewrite Z.sub_diag. change (2 ^ 0) with 1. lia. }
      split; [lia|]. destruct S6 as [|S6]; [now left|right]. constructor; [reflexivity|assumption].
    + exists (c :: r), k. split; [reflexivity|]. split; [reflexivity|]. split; [assumption|]. split; [assumption|].
      split; [assumption|]. split; [lia|left; assumption].
Qed.

Lemma shorten_ok max : 1 <= max <= 15 -> forall fuel len k, 1 <= len <= max -> (Z.to_nat (len - 1) <= fuel)%nat ->
  2 ^ (max - len) <= k <= 2 ^ max ->
  exists len' k', shorten fuel max (2 ^ max - 1) len k = Ok (len', k') /\
    1 <= len' <= len /\ k' = k - 2 ^ (max - len) + 2 ^ (max - len') /\ k <= k' <= 2 ^ max /\
    2 ^ max - 1 < k' + 2 ^ (max - len') /\
    (forall lo, 2 ^ max - 1 < k + 2 ^ (max - lo) -> lo <= len -> 1 <= lo -> lo <= len').
Proof.
  intros Hm. pose proof (pow15 max ltac:(lia)) as PM.
  induction fuel as [|fuel IH]; intros len k Hl Hf Hk; cbn [shorten]; rewrite compute_kraft_ok by lia; cbn [bind];
    pose proof (pow2_bound (max - len) 14 ltac:(lia)) as PL; change (2 ^ 14) with 16384 in PL.
  - replace len with 1 in * by lia.
    assert (E : 2 ^ max = 2 * 2 ^ (max - 1)).
    { replace max with (1 + (max - 1)) at 1 by lia. now rewrite pow2_add by lia. }
    rewrite u16_small by lia. destruct (Z.leb_spec (k + 2 ^ (max - 1)) (2 ^ max - 1)); [lia|].
    exists 1, k. repeat split; try lia; intros; lia.
  - rewrite u16_small by lia.
    destruct (Z.leb_spec (k + 2 ^ (max - len)) (2 ^ max - 1)) as [Hle|Hgt].
    + destruct (Z.eq_dec len 1) as [->|N].
      { exfalso. assert (E : 2 ^ max = 2 * 2 ^ (max - 1)).
        { replace max with (1 + (max - 1)) at 1 by lia. now rewrite pow2_add by lia. } lia. }
      rewrite u8_small by lia.
      assert (E : 2 ^ (max - (len - 1)) = 2 * 2 ^ (max - len)).
      { replace (max - (len - 1)) with (1 + (max - len)) by lia. now rewrite pow2_add by lia. }
      destruct (IH (len - 1) (k + 2 ^ (max - len))) as (len' & k' & E' & L & K & K2 & K3 & K4); [lia|lia|lia|].
      exists len', k'. split; [exact E'|]. split; [lia|]. split; [lia|]. split; [lia|]. split; [lia|].
      intros lo H1 H2 H3. apply K4; [lia| |lia].
      destruct (Z.eq_dec lo len) as [->|]; [|lia]. exfalso. lia.
    + exists len, k. split; [reflexivity|]. repeat split; try lia; intros; lia.
Qed.

Lemma shorten_all_ok max : 1 <= max <= 15 -> forall codes base k lo,
  len_sorted codes -> lens_in 1 max codes -> 0 <= base -> k = base + kraft max codes -> k <= 2 ^ max ->
  1 <= lo -> Forall (fun c => lo <= c_length c) codes -> (2 ^ max - 1 < k + 2 ^ (max - lo) \/ lo = 1) ->
  exists codes', shorten_all max (2 ^ max - 1) codes k = Ok codes' /\
    map c_symbol codes' = map c_symbol codes /\ len_sorted codes' /\ lens_in lo max codes' /\
    base + kraft max codes' <= 2 ^ max.
Proof.
  intros Hm. induction codes as [|c r IH]; intros base k lo HS HL Hb Hk Hle Hlo HFlo Hor.
  - exists []. repeat split; [constructor|constructor|]. unfold kraft in *. cbn in *. lia.
  - inversion_clear HS as [|? ? HS' HF]. inversion_clear HL as [|? ? Hc HL']. inversion_clear HFlo as [|? ? Hclo HFlo'].
    rewrite kraft_cons in Hk. pose proof (kraft_nonneg max r).
    cbn [shorten_all].
    destruct (shorten_ok max Hm (Z.to_nat max) (c_length c) k) as (len' & k' & E & L & K1 & K2 & K3 & K4); [lia|lia|lia|].
    rewrite E. cbn [bind].
    destruct (IH (base + 2 ^ (max - len')) k' len') as (r' & E' & S1 & S2 & S3 & S4);
      [assumption|assumption|pose proof (Z.pow_nonneg 2 (max - len') ltac:(lia)); lia|lia|lia|lia| |left; lia|].
    { eapply Forall_impl; [|exact HF]. cbn. intros; lia. }
    rewrite E'. cbn [bind]. exists (set_length c len' :: r'). split; [reflexivity|].
    split; [cbn; now f_equal|].
    split. { constructor; [assumption|]. eapply Forall_impl; [|exact S3]. cbn. intros; lia. }
    assert (Hlo' : lo <= len').
    { destruct Hor as [Hor| ->]; [|lia]. apply K4; lia. }
    split. { constructor; [cbn; lia|]. eapply Forall_impl; [|exact S3]. cbn. intros; lia. }
    rewrite kraft_cons. cbn [set_length c_length]. lia.
Qed.

Lemma limit_ok max codes : 1 <= max <= 15 ->
  len_sorted codes -> Forall (fun c => 1 <= c_length c < 256) codes -> kraft 255 codes = 2 ^ 255 ->
  Z.of_nat (length codes) <= 256 -> Z.of_nat (length codes) <= 2 ^ max ->
  exists codes', limit_code_lengths max codes = Ok codes' /\
    map c_symbol codes' = map c_symbol codes /\ len_sorted codes' /\ lens_in 1 max codes' /\
    kraft max codes' <= 2 ^ max.
Proof.
  intros Hm HS HL HK Hn Hn2. unfold limit_code_lengths. pose proof (pow15 max ltac:(lia)) as PM.
  rewrite shl_ok by lia. cbn [bind]. rewrite Z.mul_1_l, (Z.mod_small _ (2 ^ 32)) by (change (2 ^ 32) with 4294967296; lia).
  rewrite u16_small by lia.
  assert (HB : kraft max (map (clip max) codes) <= 2 ^ max + 256).
  { pose proof (clip_kraft_bound max 255 codes ltac:(lia)) as B.
    assert (HF : Forall (fun c => 0 <= c_length c <= 255) codes).
    { eapply Forall_impl; [|exact HL]. cbn. intros; lia. }
    specialize (B HF). rewrite HK in B.
    replace (2 ^ 255) with (2 ^ max * 2 ^ (255 - max)) in B by (rewrite <- pow2_add by lia; f_equal; lia).
    pose proof (pow2_pos (255 - max) ltac:(lia)).
    apply (Z.mul_le_mono_pos_r _ _ (2 ^ (255 - max))); [assumption|].
    assert (Z.of_nat (length codes) * 2 ^ (255 - max) <= 256 * 2 ^ (255 - max)) by (apply Z.mul_le_mono_nonneg_r; lia).
    lia. }
  rewrite clip_ok; [|lia|eapply Forall_impl; [|exact HL]; cbn; intros; lia|lia|lia]. cbn [bind].
  set (cl := map (clip max) codes) in *.
  assert (HS1 : len_sorted cl).
  { unfold cl. clear - HS. induction HS as [|c r HS IH HF]; [constructor|]. cbn [map]. constructor; [assumption|].
    apply Forall_map. eapply Forall_impl; [|exact HF]. cbn. intros; lia. }
  assert (HL1 : lens_in 1 max cl).
  { unfold cl. apply Forall_map. eapply Forall_impl; [|exact HL]. cbn. intros; lia. }
  assert (HSy : map c_symbol cl = map c_symbol codes).
  { unfold cl. rewrite map_map. reflexivity. }
  assert (HLn : length cl = length codes) by (unfold cl; apply map_length).
  clearbody cl.
  destruct (lengthen_all_ok max (2 ^ max - 1) Hm (rev cl) 0 (0 + kraft max cl)) as (r2 & k2 & E & S1 & S2 & S3 & S4 & S5 & S6).
  - apply (sorted_rev len_le). assumption.
  - now apply Forall_rev.
  - lia.
  - now rewrite kraft_rev.
  - lia.
  - rewrite E. cbn [bind].
    assert (K2 : k2 <= 2 ^ max).
    { destruct S6 as [|S6]; [lia|].
      assert (KN : kraft max r2 = Z.of_nat (length r2)).
      { clear - S6. induction S6 as [|c r Hc HF IH]; [reflexivity|]. rewrite kraft_cons, Hc, IH, Z.sub_diag.
        cbn [length]. change (2 ^ 0) with 1. lia. }
      assert (length r2 = length codes).
      { rewrite <- HLn, <- (rev_length cl), <- (map_length c_symbol r2), <- (map_length c_symbol (rev cl)), S1. reflexivity. }
      lia. }
    destruct (shorten_all_ok max Hm (rev r2) 0 k2 1) as (codes' & E' & T1 & T2 & T3 & T4).
    + apply (sorted_rev (fun x y => c_length y <= c_length x)). assumption.
    + now apply Forall_rev.
    + lia.
    + rewrite kraft_rev. assumption.
    + assumption.
    + lia.
    + apply Forall_rev. eapply Forall_impl; [|exact S3]. cbn. intros; lia.
    + now right.
    + exists codes'. split; [exact E'|]. split; [|split; [assumption|split; [assumption|lia]]].
      rewrite T1, map_rev, S1, map_rev, rev_involutive. assumption.
Qed.

(** * Canonical form *)
Fixpoint canon (M acc : Z) (codes : list code) : Prop :=
  match codes with
  | [] => True
  | c :: r => c_code c * 2 ^ (M - c_length c) = acc /\ canon M (acc + 2 ^ (M - c_length c)) r
  end.

Lemma canon_shift M M' codes : 0 <= M <= M' -> forall acc, Forall (fun c => c_length c <= M) codes ->
  canon M' (acc * 2 ^ (M' - M)) codes -> canon M acc codes.
Proof.
  intros HM. induction codes as [|c r IH]; intros acc HF HC; [exact I|].
  inversion_clear HF as [|? ? Hc HF']. cbn [canon] in *. destruct HC as [H1 H2].
  pose proof (pow2_pos (M' - M) ltac:(lia)).
  assert (E : 2 ^ (M' - c_length c) = 2 ^ (M - c_length c) * 2 ^ (M' - M)) by (rewrite <- pow2_add by lia; f_equal; lia).
  rewrite E in *. split.
  - apply (Z.mul_cancel_r _ _ (2 ^ (M' - M))); [lia|]. lia.
  - apply IH; [assumption|]. rewrite Z.mul_add_distr_r. exact H2.
Qed.

Lemma canonical_from_ok M : 0 <= M <= 15 -> forall codes prev acc,
  0 <= c_code prev -> 0 <= c_length prev <= M -> c_code prev * 2 ^ (M - c_length prev) + 2 ^ (M - c_length prev) = acc ->
  StronglySorted len_le (prev :: codes) -> Forall (fun c => c_length c <= M) codes -> acc + kraft M codes <= 2 ^ M ->
  exists codes', canonical_from prev codes = Ok codes' /\ map c_symbol codes' = map c_symbol codes /\
    map c_length codes' = map c_length codes /\ canon M acc codes' /\ Forall (fun c => 0 <= c_code c) codes'.
Proof.
  intros HM. induction codes as [|c r IH]; intros prev acc Hp Hl Hacc HS HF HK.
  - exists []. repeat split. constructor.
  - inversion_clear HS as [|? ? HS' HF1]. inversion_clear HF1 as [|? ? H1 H2]. inversion_clear HF as [|? ? Hc HF'].
    cbn beta in H1. rewrite kraft_cons in HK. pose proof (kraft_nonneg M r). pose proof (pow2_pos (M - c_length c) ltac:(lia)).
    cbn [canonical_from].
    assert (PM := pow15 M HM).
    pose proof (pow2_pos (M - c_length prev) ltac:(lia)).
    assert (HPlt : c_code prev + 1 <= 2 ^ c_length prev).
    { apply (Z.mul_le_mono_pos_r _ _ (2 ^ (M - c_length prev))); [assumption|].
      rewrite <- pow2_add by lia. replace (c_length prev + (M - c_length prev)) with M by lia. lia. }
    pose proof (pow15 (c_length prev) ltac:(lia)).
    rewrite (u16_small (c_code prev + 1)) by lia.
    assert (HV : 0 <= (c_code prev + 1) * 2 ^ (c_length c - c_length prev) <= 32768).
    { pose proof (pow2_pos (c_length c - c_length prev) ltac:(lia)). split; [apply Z.mul_nonneg_nonneg; lia|].
      transitivity (2 ^ c_length prev * 2 ^ (c_length c - c_length prev)); [apply Z.mul_le_mono_nonneg_r; lia|].
      rewrite <- pow2_add by lia. replace (c_length prev + (c_length c - c_length prev)) with (c_length c) by lia.
      pose proof (pow15 (c_length c) ltac:(lia)). lia. }
    rewrite shl_ok by lia. cbn [bind].
    rewrite (Z.mod_small _ (2 ^ 32)) by (change (2 ^ 32) with 4294967296; lia). rewrite u16_small by lia.
    set (c' := {| c_symbol := c_symbol c; c_code := _; c_length := c_length c |}).
    assert (HEQ : c_code c' * 2 ^ (M - c_length c) = acc).
    { cbn [c_code c']. rewrite <- Z.mul_assoc, <- pow2_add by lia.
      replace (c_length c - c_length prev + (M - c_length c)) with (M - c_length prev) by lia. lia. }
    destruct (IH c' (acc + 2 ^ (M - c_length c))) as (r' & E & S1 & S2 & S3 & S4).
    + cbn; lia.
    + cbn; lia.
    + cbn [c_length c'] in *. lia.
    + inversion_clear HS' as [|? ? HSr HFr]. constructor; [assumption|]. exact HFr.
    + assumption.
    + lia.
    + rewrite E. cbn [bind]. exists (c' :: r'). split; [reflexivity|].
      split; [cbn; now f_equal|]. split; [cbn; now f_equal|]. split; [split; assumption|]. constructor; [cbn; lia|assumption].
Qed.

Lemma sorted_by_lengths a : forall b, map c_length a = map c_length b -> len_sorted b -> len_sorted a.
Proof.
  induction a as [|x a IH]; intros [|y b] E HS; try discriminate; [constructor|].
  cbn in E. inversion E as [[E1 E2]]. inversion_clear HS as [|? ? HS' HF]. constructor; [eapply IH; eassumption|].
  apply Forall_forall. intros z Hz. apply (in_map c_length) in Hz. rewrite E2 in Hz. apply in_map_iff in Hz.
  destruct Hz as (w & Ew & Hw). rewrite Forall_forall in HF. specialize (HF w Hw). cbn in HF. rewrite E1, <- Ew. assumption.
Qed.
Lemma kraft_by_lengths M a b : map c_length a = map c_length b -> kraft M a = kraft M b.
Proof.
  intros E. unfold kraft. rewrite <- (map_map c_length (fun l => 2 ^ (M - l))), <- (map_map c_length (fun l => 2 ^ (M - l)) b).
  now rewrite E.
Qed.
Lemma forall_by_lengths (P : Z -> Prop) a b : map c_length a = map c_length b ->
  Forall (fun c => P (c_length c)) b -> Forall (fun c => P (c_length c)) a.
Proof.
  intros E HF. apply Forall_map. rewrite E. now apply Forall_map.
Qed.

(** What the encoder guarantees about a code table. *)
Record codes_ok (max : Z) (chunk : list Z) (codes : list code) : Prop := {
  co_symbols : Permutation (map c_symbol codes) (present chunk);
  co_sorted : len_sorted codes;
  co_lengths : lens_in 1 max codes;
  co_kraft : kraft max codes <= 2 ^ max;
  co_canon : canon max 0 codes;
  co_nonneg : Forall (fun c => 0 <= c_code c) codes;
  co_nonempty : codes <> [];
}.

Lemma canonical_ok max codes : 1 <= max <= 15 -> (2 <= length codes)%nat ->
  len_sorted codes -> lens_in 1 max codes -> kraft max codes <= 2 ^ max ->
  exists codes', convert_to_canonical_form codes = Ok codes' /\ map c_symbol codes' = map c_symbol codes /\
    map c_length codes' = map c_length codes /\ canon max 0 codes' /\ Forall (fun c => 0 <= c_code c) codes'.
Proof.
  intros Hm H2 HS HL HK. destruct codes as [|c [|d r]]; cbn [length] in H2; try lia.
  unfold convert_to_canonical_form. set (c' := {| c_symbol := c_symbol c; c_code := 0; c_length := c_length c |}).
  inversion_clear HL as [|? ? Hc HL']. rewrite kraft_cons in HK.
  destruct (canonical_from_ok max ltac:(lia) (d :: r) c' (2 ^ (max - c_length c))) as (r' & E & S1 & S2 & S3 & S4).
  - cbn; lia.
  - cbn; lia.
  - cbn [c_code c_length c']. lia.
  - inversion_clear HS as [|? ? HSr HFr]. constructor; [assumption|exact HFr].
  - eapply Forall_impl; [|exact HL']. cbn. intros; lia.
  - lia.
  - rewrite E. cbn [bind]. exists (c' :: r'). split; [reflexivity|]. split; [cbn in *; now f_equal|].
    split; [cbn in *; now f_equal|]. split; [split; [reflexivity|exact S3]|]. constructor; [cbn; lia|assumption].
Qed.

Lemma fold_max_le l m : fold_right Z.max 0 l <= m -> Forall (fun x => x <= m) l.
Proof.
  induction l as [|x l IH]; cbn [fold_right]; intros H; [constructor|]. constructor; [lia|]. apply IH. lia.
Qed.

Lemma create_codes_ok max chunk t : 1 <= max <= 15 -> Forall (fun b => 0 <= b < 256) chunk ->
  create_tree chunk t -> Z.of_nat (length (present chunk)) <= 2 ^ max ->
  exists codes, create_codes max t = Ok codes /\ codes_ok max chunk codes.
Proof.
  intros Hm HF HT Hn. destruct (visit_codes chunk t HF HT) as (V1 & V2 & V3 & V4 & V5 & V6).
  pose proof (present_length chunk) as H256.
  unfold create_codes. set (codes := visit 0 t []) in *.
  assert (Hne : codes <> []).
  { intros E. apply (f_equal (@length code)) in E. rewrite V4 in E. rewrite <- leaves_symbols, map_length in E.
    pose proof (combine_leaves _ _ HT) as HL. rewrite leaves_flat in HL. apply Permutation_length in HL.
    pose proof (tree_leaves_pos t) as TP. rewrite <- HL, E in TP. apply Nat.lt_irrefl in TP. exact TP. }
  clearbody codes. clear HT.
  assert (PM := pow15 max ltac:(lia)).
  destruct (Z.gtb_spec (fold_right Z.max 0 (map c_length codes)) max) as [Hg|Hle].
  - assert (H2 : (2 <= length codes)%nat).
    { destruct codes as [|c [|d r]]; [contradiction| |cbn; lia]. exfalso.
      specialize (V6 255). rewrite kraft_cons in V6. inversion_clear V3 as [|? ? Hc _].
      cbn in Hg. assert (E : 2 ^ (255 - c_length c) + kraft 255 [] = 2 ^ 255) by (apply V6; constructor; [lia|constructor]).
      unfold kraft in E. cbn [map zsum fold_right] in E. rewrite Z.add_0_r in E. apply Z.pow_inj_r in E; lia. }
    specialize (V5 H2).
    assert (V35 : Forall (fun c => 1 <= c_length c < 256) codes).
    { apply Forall_forall. intros c Hc. rewrite Forall_forall in V3, V5. specialize (V3 c Hc). specialize (V5 c Hc). lia. }
    destruct (limit_ok max codes Hm V2 V35) as (codes1 & E1 & S1 & S2 & S3 & S4).
    + apply V6. eapply Forall_impl; [|exact V3]. cbn. intros; lia.
    + lia.
    + lia.
    + rewrite E1. cbn [bind].
      assert (HL1 : length codes1 = length codes) by (rewrite <- (map_length c_symbol codes1), S1; apply map_length).
      destruct (canonical_ok max codes1 Hm ltac:(lia) S2 S3 S4) as (codes' & E & T1 & T2 & T3 & T4).
      exists codes'. split; [exact E|]. constructor.
      * rewrite T1, S1. exact V1.
      * eapply sorted_by_lengths; eassumption.
      * apply (forall_by_lengths (fun l => 1 <= l <= max) _ _ T2). exact S3.
      * rewrite (kraft_by_lengths _ _ _ T2). exact S4.
      * exact T3.
      * exact T4.
      * intros ->. apply (f_equal (@length Z)) in T1. rewrite !map_length in T1. cbn in T1. lia.
  - cbn [bind]. apply fold_max_le in Hle. rewrite Forall_map in Hle. specialize (V6 max Hle).
    destruct codes as [|c [|d r]] eqn:EC; [contradiction| |].
    + unfold convert_to_canonical_form. eexists. split; [reflexivity|]. constructor.
      * exact V1.
      * repeat constructor.
      * constructor; [cbn; lia|constructor].
      * rewrite kraft_cons. cbn [c_length]. unfold kraft. cbn [map zsum fold_right].
        pose proof (pow2_bound (max - 1) max ltac:(lia)). lia.
      * cbn. auto.
      * constructor; [cbn; lia|constructor].
      * discriminate.
    + rewrite <- EC in *. assert (H2 : (2 <= length codes)%nat) by (rewrite EC; cbn; lia). specialize (V5 H2).
      assert (V35 : lens_in 1 max codes).
      { apply Forall_forall. intros x Hx. rewrite Forall_forall in Hle, V5. specialize (Hle x Hx). specialize (V5 x Hx). lia. }
      destruct (canonical_ok max codes Hm H2 V2 V35 ltac:(lia)) as (codes' & E & T1 & T2 & T3 & T4).
      exists codes'. split; [exact E|]. constructor.
      * rewrite T1. exact V1.
      * eapply sorted_by_lengths; eassumption.
      * apply (forall_by_lengths (fun l => 1 <= l <= max) _ _ T2). exact V35.
      * rewrite (kraft_by_lengths _ _ _ T2). lia.
      * exact T3.
      * exact T4.
      * intros ->. apply (f_equal (@length Z)) in T1. rewrite !map_length in T1. cbn in T1. lia.
Qed.

(** Each code is below 2^length, and codes occupy disjoint intervals. *)
Lemma canon_spec M : 0 <= M -> forall codes acc, 0 <= acc -> canon M acc codes -> Forall (fun c => 0 <= c_length c <= M) codes ->
  acc + kraft M codes <= 2 ^ M ->
  Forall (fun c => 0 <= c_code c < 2 ^ c_length c /\ acc <= c_code c * 2 ^ (M - c_length c)) codes.
Proof.
  intros HM. induction codes as [|c r IH]; intros acc Ha HC HF HK; [constructor|].
  destruct HC as [H1 H2]. inversion_clear HF as [|? ? Hc HF']. rewrite kraft_cons in HK. pose proof (kraft_nonneg M r).
  pose proof (pow2_pos (M - c_length c) ltac:(lia)).
  constructor.
  - split; [|lia]. split.
    + destruct (Z.lt_ge_cases (c_code c) 0) as [Hneg|]; [|assumption]. exfalso.
      assert (c_code c * 2 ^ (M - c_length c) < 0) by (apply Z.mul_neg_pos; assumption). lia.
    + apply (Z.mul_lt_mono_pos_r (2 ^ (M - c_length c))); [assumption|].
      rewrite <- pow2_add by lia. replace (c_length c + (M - c_length c)) with M by lia. lia.
  - eapply Forall_impl; [|apply (IH (acc + 2 ^ (M - c_length c)))]; try assumption; [|lia|lia].
    cbn. intros x [Hx1 Hx2]. split; [assumption|lia].
Qed.
