(** Properties C09-C13: the Huffman coder. *)
From Coq Require Import Permutation Sorting.Sorted.
From Verif Require Import Common Bits BitStream_Model BitStream_Spec Endian_Proofs BitStream_Proofs BitStream_Props
  Huffman_Model Huffman_Codes_Proofs Huffman_Proofs Huffman_Spec Huffman_Optimal_Proofs.

Lemma present_symbols text : Forall byte text -> Permutation (present text) (symbols_of text).
Proof.
  intros HF. apply NoDup_Permutation; [apply present_nodup|apply NoDup_nodup|].
  intros s. unfold symbols_of. rewrite nodup_In. now apply present_in.
Qed.
Lemma symbols_256 text : Forall byte text -> (length (symbols_of text) <= 256)%nat.
Proof. intros HF. rewrite <- (Permutation_length (present_symbols text HF)). apply present_length. Qed.
Lemma pow2_256 max : 8 <= max -> 256 <= 2 ^ max.
Proof. intros H. change 256 with (2 ^ 8). apply Z.pow_le_mono_r; lia. Qed.
Lemma Forall_chunk size k text : Forall byte text -> Forall byte (chunk size k text).
Proof. intros H. unfold chunk. now apply Forall_firstn, Forall_skipn. Qed.

(** * C09 *)

(** Any result the encoder can produce - however std::priority_queue orders equal frequencies - is a
    success whose bytes decode, on hosts of either endianness, to the input. *)
Theorem huffman_roundtrip : forall hb_enc hb_dec kb max input result,
  1 <= kb < 65536 -> 8 <= max <= 15 -> Forall byte input ->
  encode_string hb_enc kb max input result ->
  exists file, result = Ok (Some file) /\ decode_string hb_dec file = Ok (Some input).
Proof.
  intros hb hb' kb max input result Hkb Hm HF HE.
  apply (encode_decode hb hb' kb max input result); try assumption; [lia|].
  intros k. pose proof (present_length (firstn (Z.to_nat (kb * 1024)) (skipn (k * Z.to_nat (kb * 1024)) input))).
  pose proof (pow2_256 max ltac:(lia)). lia.
Qed.

(** Shorter limits work too as long as every chunk's distinct symbols fit in them. *)
Theorem huffman_roundtrip_any_limit : forall hb_enc hb_dec kb max input result,
  1 <= kb < 65536 -> 1 <= max <= 15 -> Forall byte input ->
  (forall k, Z.of_nat (length (symbols_of (chunk (Z.to_nat (kb * 1024)) k input))) <= 2 ^ max) ->
  encode_string hb_enc kb max input result ->
  exists file, result = Ok (Some file) /\ decode_string hb_dec file = Ok (Some input).
Proof.
  intros hb hb' kb max input result Hkb Hm HF HS HE.
  apply (encode_decode hb hb' kb max input result); try assumption.
  intros k. specialize (HS k).
  rewrite <- (Permutation_length (present_symbols _ (Forall_chunk _ k input HF))) in HS. exact HS.
Qed.

(** The encoder always produces some result (the tree construction cannot get stuck). *)
Lemma create_tree_exists text : Forall byte text -> text <> [] -> exists t, create_tree text t.
Proof.
  intros HF HN. unfold create_tree. apply (combine_exists (length (leaves text) - 1)).
  assert (length (leaves text) <> 0%nat); [|lia].
  rewrite <- (map_length leaf_symbol), leaves_symbols. destruct text as [|s text]; [contradiction|].
  assert (In s (present (s :: text))) by (apply present_in; [assumption|now left]).
  destruct (present (s :: text)); [contradiction|discriminate].
Qed.
Theorem huffman_encode_total : forall hb kb max input,
  1 <= kb < 65536 -> Forall byte input -> exists result, encode_string hb kb max input result.
Proof.
  intros hb kb max input Hkb HF. unfold encode_string. destruct (max >=? 16); [eauto|].
  assert (ES : u32 (Z.shiftl kb 10) = kb * 1024).
  { rewrite Z.shiftl_mul_pow2 by lia. change (2 ^ 10) with 1024. apply Z.mod_small. change (2 ^ 32) with 4294967296. lia. }
  rewrite ES. assert (Hs : (0 < Z.to_nat (kb * 1024))%nat) by lia. generalize dependent (Z.to_nat (kb * 1024)). intros size Hs.
  enough (exists body, encode_chunks size max input body) as (body & HB) by eauto.
  remember (length input) as n eqn:En. revert input HF En.
  induction n as [n IH] using lt_wf_ind. intros input HF En.
  destruct input as [|x input'] eqn:EI.
  - exists (Ok []). constructor. apply firstn_nil.
  - rewrite <- EI in *. assert (Hne : firstn size input <> []).
    { rewrite EI. destruct size; [lia|]. discriminate. }
    destruct (create_tree_exists (firstn size input)) as (t & HT); [now apply Forall_firstn|assumption|].
    destruct (IH (length (skipn size input))) with (input := skipn size input) as (rest & HR); try reflexivity.
    + rewrite skipn_length. rewrite EI in En |- *. cbn [length] in *. lia.
    + now apply Forall_skipn.
    + eexists. econstructor; eassumption.
Qed.

(** * C10 *)

(** The bits HuffmanEncoder::encode_symbols writes for a symbol. *)
Definition word_of (codes : list code) (s : Z) : list bool :=
  let c := code_of_symbol codes s in spec_bits (Z.to_nat (c_length c)) (c_code c).

Lemma prefix_number m n v w : is_prefix (spec_bits m v) (spec_bits n w) -> 0 <= v < 2 ^ Z.of_nat m -> 0 <= w < 2 ^ Z.of_nat n ->
  (m <= n)%nat /\ v * 2 ^ Z.of_nat (n - m) <= w < (v + 1) * 2 ^ Z.of_nat (n - m).
Proof.
  intros (u & E) Hv Hw. rewrite !spec_bits_eq in E.
  assert (L : n = (m + length u)%nat).
  { apply (f_equal (@length bool)) in E. rewrite app_length, !bits_msb_length in E. exact E. }
  split; [lia|]. replace (n - m)%nat with (length u) by lia. rewrite L, bits_msb_app in E.
  set (k := Z.of_nat (length u)) in *. pose proof (pow2_pos k ltac:(lia)).
  assert (EE : bits_msb m (Z.shiftr w k) = bits_msb m v).
  { apply (f_equal (firstn m)) in E. rewrite !firstn_app, !bits_msb_length, !Nat.sub_diag, !firstn_O, !app_nil_r in E.
    rewrite !firstn_all2 in E by (rewrite bits_msb_length; lia). exact E. }
  apply (f_equal bval) in EE. rewrite !bval_bits_msb, Z.shiftr_div_pow2 in EE by lia.
  rewrite (Z.mod_small v) in EE by lia. rewrite Z.mod_small in EE.
  - pose proof (Z.div_mod w (2 ^ k) ltac:(lia)). pose proof (Z.mod_pos_bound w (2 ^ k) ltac:(lia)). subst v. lia.
  - pose proof (div_pow_lt w k (Z.of_nat n) ltac:(lia) Hw). replace (Z.of_nat n - k) with (Z.of_nat m) in * by lia. lia.
Qed.

Lemma canon_disjoint M : 0 <= M -> forall codes acc, canon M acc codes -> Forall (fun c => 0 <= c_length c <= M) codes -> 
  ForallOrdPairs (fun c d => c_code c * 2 ^ (M - c_length c) + 2 ^ (M - c_length c) <= c_code d * 2 ^ (M - c_length d)) codes.
Proof.
  intros HM.
  assert (Low : forall codes acc, canon M acc codes -> Forall (fun d => acc <= c_code d * 2 ^ (M - c_length d)) codes).
  { induction codes as [|c r IH]; intros acc HC; [constructor|]. destruct HC as [H1 H2]. constructor; [lia|].
    eapply Forall_impl; [|apply (IH _ H2)]. cbn. intros d Hd. pose proof (Z.pow_nonneg 2 (M - c_length c)). lia. }
  induction codes as [|c r IH]; intros acc HC HF; [constructor|]. destruct HC as [H1 H2]. inversion_clear HF.
  constructor; [|eapply IH; eassumption].
  eapply Forall_impl; [|apply (Low _ _ H2)]. cbn. intros d Hd. lia.
Qed.

Lemma ordpairs_in {A} (R : A -> A -> Prop) l : ForallOrdPairs R l -> forall x y, In x l -> In y l -> x = y \/ R x y \/ R y x.
Proof. intros H x y Hx Hy. destruct (ForallOrdPairs_In H x y Hx Hy) as [|[|]]; auto. Qed.

Lemma codes_prefix_free max text codes : 1 <= max <= 15 -> codes_ok max text codes ->
  prefix_code (present text) (word_of codes).
Proof.
  intros Hm HC s1 s2 H1 H2 Hne HP.
  assert (HB : Forall (fun c => 0 <= c_length c <= max) codes).
  { eapply Forall_impl; [|exact (co_lengths _ _ _ HC)]. cbn. intros; lia. }
  pose proof (canon_disjoint max ltac:(lia) codes 0 (co_canon _ _ _ HC) HB) as HD.
  pose proof (canon_spec max ltac:(lia) codes 0 ltac:(lia) (co_canon _ _ _ HC) HB ltac:(pose proof (co_kraft _ _ _ HC); lia)) as HS.
  pose proof (co_symbols _ _ _ HC) as PS.
  destruct (code_of_symbol_in codes s1) as [I1 E1]; [apply (Permutation_in _ (Permutation_sym PS)); assumption|].
  destruct (code_of_symbol_in codes s2) as [I2 E2]; [apply (Permutation_in _ (Permutation_sym PS)); assumption|].
  unfold word_of in HP. set (c := code_of_symbol codes s1) in *. set (d := code_of_symbol codes s2) in *. clearbody c d.
  rewrite Forall_forall in HS, HB. destruct (HS c I1) as [Bc _]. destruct (HS d I2) as [Bd _].
  pose proof (HB c I1) as Lc. pose proof (HB d I2) as Ld.
  apply prefix_number in HP; [|rewrite Z2Nat.id by lia; assumption|rewrite Z2Nat.id by lia; assumption].
  destruct HP as [Hlen HP]. rewrite Nat2Z.inj_sub, !Z2Nat.id in HP by lia. assert (Hl : c_length c <= c_length d) by lia.
  pose proof (pow2_pos (max - c_length d) ltac:(lia)) as Q.
  assert (EP : 2 ^ (max - c_length c) = 2 ^ (c_length d - c_length c) * 2 ^ (max - c_length d)).
  { rewrite <- pow2_add by lia. f_equal. lia. }
  destruct HP as [HP1 HP2].
  apply (Z.mul_le_mono_nonneg_r _ _ (2 ^ (max - c_length d))) in HP1; [|lia].
  apply (Z.mul_lt_mono_pos_r (2 ^ (max - c_length d))) in HP2; [|lia].
  rewrite <- !Z.mul_assoc, <- EP in HP1, HP2. pose proof (pow2_pos (max - c_length c) ltac:(lia)).
  destruct (ordpairs_in _ _ HD c d I1 I2) as [->|[R|R]]; [congruence|lia|lia].
Qed.

Lemma chain_canonical codes p : chain (Some p) codes -> canonical_after (c_length p, c_code p) (map (fun c => (c_length c, c_code c)) codes).
Proof.
  revert p. induction codes as [|c r IH]; intros p HC; [exact I|]. destruct HC as ((F1 & F2 & F3) & _ & _ & HC).
  cbn [map canonical_after fst snd]. split; [lia|]. split; [now symmetry|]. now apply IH.
Qed.

(** For every chunk, every tree the queue may build and every limit able to hold its symbols: the
    code table has exactly the chunk's symbols, lengths between 1 and the limit, satisfies Kraft's
    inequality, numbers its codes canonically, and is a prefix code. *)
Theorem huffman_codes_prefix_code : forall max text t,
  1 <= max <= 15 -> Forall byte text -> Z.of_nat (length (symbols_of text)) <= 2 ^ max ->
  create_tree text t ->
  exists codes, create_codes max t = Ok codes /\
    Permutation (map c_symbol codes) (symbols_of text) /\
    Forall (fun c => 1 <= c_length c <= max /\ 0 <= c_code c < 2 ^ c_length c) codes /\
    fold_right Z.add 0 (map (fun c => 2 ^ (max - c_length c)) codes) <= 2 ^ max /\
    canonical_numbers (map (fun c => (c_length c, c_code c)) codes) /\
    prefix_code (symbols_of text) (word_of codes).
Proof.
  intros max text t Hm HF HS HT. pose proof (present_symbols text HF) as PS.
  destruct (create_codes_ok max text t Hm HF HT) as (codes & E & HC).
  { rewrite (Permutation_length PS). exact HS. }
  exists codes. split; [exact E|]. split; [now rewrite (co_symbols _ _ _ HC)|].
  destruct (codes_canon max text codes Hm HC) as (L1 & L2 & L3 & L4 & L5). cbn zeta in *.
  split. { eapply Forall_impl; [|exact L5]. cbn. intros; lia. }
  split; [exact (co_kraft _ _ _ HC)|]. split.
  - assert (CH : chain None codes).
    { apply (canon_chain max ltac:(lia) codes None 0); try reflexivity; try lia.
      - exact (co_sorted _ _ _ HC).
      - eapply Forall_impl; [|exact (co_lengths _ _ _ HC)]. cbn; intros; lia.
      - exact (co_canon _ _ _ HC).
      - pose proof (co_kraft _ _ _ HC). lia. }
    destruct codes as [|c r]; [exact I|]. destruct CH as (F & _ & _ & CH). cbn [map canonical_numbers].
    split; [exact F|]. now apply chain_canonical.
  - intros s1 s2 H1 H2. apply (codes_prefix_free max text codes Hm HC);
      apply (Permutation_in _ (Permutation_sym PS)); assumption.
Qed.

(** With the configurable range 8..15 every chunk's symbols fit. *)
Corollary huffman_codes_prefix_code_bytes : forall max text t,
  8 <= max <= 15 -> Forall byte text -> create_tree text t ->
  exists codes, create_codes max t = Ok codes /\
    Forall (fun c => 1 <= c_length c <= max) codes /\
    prefix_code (symbols_of text) (word_of codes) /\
    forall s, In s text -> exists c, In c codes /\ c_symbol c = s.
Proof.
  intros max text t Hm HF HT.
  destruct (huffman_codes_prefix_code max text t) as (codes & E & P & L & _ & _ & W); try assumption; [lia| |].
  { pose proof (symbols_256 text HF). pose proof (pow2_256 max ltac:(lia)). lia. }
  exists codes. split; [assumption|]. split; [eapply Forall_impl; [|exact L]; cbn; intros; lia|]. split; [assumption|].
  intros s Hs. apply (nodup_In Z.eq_dec) in Hs. apply (Permutation_in _ (Permutation_sym P)) in Hs.
  apply in_map_iff in Hs. destruct Hs as (c & E1 & Hc). eauto.
Qed.

(** * C13 *)

(** If the tree is no higher than the limit (so that no code is limited), no prefix code with
    non-empty words encodes the chunk in fewer bits. *)
Theorem huffman_optimal : forall max text t word,
  1 <= max <= 15 -> Forall byte text -> Z.of_nat (length text) < 2 ^ 64 ->
  create_tree text t -> height t <= max ->
  prefix_code (symbols_of text) word -> (forall s, In s text -> word s <> []) ->
  exists codes, create_codes max t = Ok codes /\
    (encoded_bits (word_of codes) text <= encoded_bits word text)%nat.
Proof.
  intros max text t word Hm HF HL HT Hh HW HN. pose proof (present_symbols text HF) as PS.
  assert (HW' : prefix_code (present text) word).
  { intros s1 s2 H1 H2. apply HW; apply (Permutation_in _ PS); assumption. }
  pose proof (create_tree_optimal text t word HF HL HT HW') as OPT.
  destruct (Nat.le_gt_cases 2 (length (present text))) as [H2|H1].
  - destruct (create_codes_lengths max text t Hm HF HT Hh H2) as (codes & E & ES & EL & PV & HU).
    exists codes. split; [exact E|].
    destruct (visit_codes text t HF HT) as (V1 & _).
    assert (PC : Permutation (map c_symbol codes) (present text)) by (rewrite ES; exact V1).
    assert (ND : NoDup (map c_symbol codes)) by (eapply Permutation_NoDup; [symmetry; exact PC|apply present_nodup]).
    apply Nat2Z.inj_le. eapply Z.le_trans; [|exact OPT]. rewrite encoded_bits_sum.
    rewrite (sum_by_symbol _ (map c_symbol codes) ND text).
    2:{ eapply Forall_impl; [|apply (present_all text HF)]. cbn. intros s Hs. apply (Permutation_in _ (Permutation_sym PC)). exact Hs. }
    assert (EW : forall c, In c codes -> code_of_symbol codes (c_symbol c) = c).
    { clear - ND. unfold code_of_symbol. induction codes as [|x r IH]; intros c Hc; [destruct Hc|]. cbn [find].
      cbn [map] in ND. inversion_clear ND as [|? ? Hx ND']. destruct Hc as [->|Hc]; [rewrite Z.eqb_refl; reflexivity|].
      destruct (Z.eqb_spec (c_symbol x) (c_symbol c)) as [Eq|_]; [exfalso; apply Hx; rewrite Eq; now apply in_map|].
      now apply IH. }
    assert (EQ : zsum (map (fun s => count text s * Z.of_nat (length (word_of codes s))) (map c_symbol codes)) =
            zsum (map (fun c => count text (c_symbol c) * Z.max 0 (c_length c)) codes)).
    { rewrite map_map. f_equal. apply map_ext_in. intros c Hc. unfold word_of. rewrite EW by assumption.
      rewrite spec_bits_eq, bits_msb_length. f_equal. lia. }
    rewrite EQ. clear EQ EW.
    assert (EQ : forall a b, map c_symbol a = map c_symbol b -> map c_length a = map c_length b ->
      zsum (map (fun c => count text (c_symbol c) * Z.max 0 (c_length c)) a) = zsum (map (fun c => count text (c_symbol c) * Z.max 0 (c_length c)) b)).
    { clear. induction a as [|x a IH]; intros [|y b] E1 E2; try discriminate; [reflexivity|]. cbn [map] in *.
      inversion E1. inversion E2. cbn [zsum fold_right]. unfold zsum in IH. rewrite (IH b) by assumption. congruence. }
    rewrite (EQ _ _ ES EL). rewrite (zsum_perm _ _ (Permutation_map _ PV)), map_map. cbn [mk_code c_symbol].
    apply Z.eq_le_incl. f_equal. apply map_ext_in. intros p Hp. f_equal.
    specialize (HU p Hp). cbn [mk_code c_length] in HU |- *. rewrite HU.
    pose proof (depths_bound 0 t) as DB. rewrite Forall_forall in DB. specialize (DB p Hp). lia.
  - destruct (create_codes_ok max text t Hm HF HT) as (codes & E & HC).
    { pose proof (pow15 max ltac:(lia)). lia. }
    exists codes. split; [exact E|].
    destruct (visit_codes text t HF HT) as (_ & _ & _ & V4 & _).
    (* at most one symbol: its code has one bit *)
    assert (HLen : forall s, (length (word_of codes s) <= 1)%nat).
    { intros s. destruct t as [x f|f l r].
      - unfold create_codes in E. cbn [visit insert_code rev app insert_rev map fold_right c_length] in E.
        change (u8 0) with 0 in E. change (Z.max 0 0) with 0 in E.
        destruct (Z.gtb_spec 0 max); [lia|]. cbn [bind convert_to_canonical_form] in E. inversion E; subst.
        unfold word_of, code_of_symbol. cbn [find c_symbol].
        destruct (x =? s); cbn [c_length c_code]; rewrite spec_bits_eq, bits_msb_length; cbn; lia.
      - exfalso. pose proof (Permutation_length (visit_perm (Node f l r) 0 [])) as PL.
        rewrite V4, app_nil_r, map_length, depths_length in PL. cbn [tree_leaves] in PL. rewrite app_length in PL.
        pose proof (tree_leaves_pos l). pose proof (tree_leaves_pos r). lia. }
    clear - HLen HN. induction text as [|s text IH]; [cbn; lia|]. cbn [encoded_bits].
    assert (word s <> []) by (apply HN; now left). destruct (word s); [contradiction|].
    specialize (HLen s). specialize (IH (fun x Hx => HN x (or_intror Hx))). cbn [length]. lia.
Qed.
(** * Running the encoder: one particular tie-breaking *)
Fixpoint pop_min (t : tree) (q : list tree) : tree * list tree :=
  match q with
  | [] => (t, [])
  | u :: r => let '(m, rest) := pop_min u r in if freq t <=? freq m then (t, q) else (m, t :: rest)
  end.
Fixpoint build (fuel : nat) (t : tree) (q : list tree) : tree :=
  match fuel, q with
  | S fuel', _ :: _ =>
      let '(l, q1) := pop_min t q in
      match q1 with
      | [] => l
      | u :: r => let '(x, q2) := pop_min u r in build fuel' (become_intermediate l x) q2
      end
  | _, _ => t
  end.
Lemma pop_min_pops q : forall t, pops (t :: q) (fst (pop_min t q)) (snd (pop_min t q)).
Proof.
  induction q as [|u r IH]; intros t; cbn [pop_min].
  - split; [apply Permutation_refl|constructor].
  - specialize (IH u). destruct (pop_min u r) as [m rest]. cbn [fst snd] in IH. destruct IH as [HP HF].
    destruct (Z.leb_spec (freq t) (freq m)); cbn [fst snd].
    + split; [apply Permutation_refl|]. eapply Permutation_Forall; [symmetry; exact HP|].
      constructor; [assumption|]. eapply Forall_impl; [|exact HF]. cbn; intros; lia.
    + split; [rewrite HP; apply perm_swap|]. constructor; [lia|assumption].
Qed.
Lemma build_combine : forall fuel t q, (length q <= fuel)%nat -> combine (t :: q) (build fuel t q).
Proof.
  induction fuel as [|fuel IH]; intros t q Hf.
  - destruct q; [|cbn in Hf; lia]. cbn [build]. constructor.
  - destruct q as [|u r]; cbn [build]; [constructor|].
    pose proof (pop_min_pops (u :: r) t) as P1. destruct (pop_min t (u :: r)) as [l q1]. cbn [fst snd] in P1.
    pose proof (Permutation_length (proj1 P1)) as L1. cbn [length] in L1, Hf.
    destruct q1 as [|v s]; [cbn in L1; lia|].
    pose proof (pop_min_pops s v) as P2. destruct (pop_min v s) as [x q2]. cbn [fst snd] in P2.
    pose proof (Permutation_length (proj1 P2)) as L2. cbn [length] in L1, L2.
    econstructor; [exact P1|exact P2|]. apply IH. lia.
Qed.
Definition some_tree (text : list Z) : tree :=
  match leaves text with [] => Leaf 0 0 | t :: q => build (length q) t q end.
Lemma some_tree_ok text : leaves text <> [] -> create_tree text (some_tree text).
Proof. unfold create_tree, some_tree. destruct (leaves text) as [|t q]; [contradiction|]. intros _. now apply build_combine. Qed.

(** One chunk. *)
Definition encode_small (hb : bool) (kb max : Z) (text : list Z) : res (option (list Z)) :=
  let! fs := encode_one max (some_tree text) text in
  let! (file, ok) := produce hb (encode_header kb max ++ fs) in Ok (if ok then Some file else None).
Lemma encode_small_ok hb kb max text : 1 <= kb < 65536 -> max < 16 -> text <> [] -> leaves text <> [] -> (length text <= 1024)%nat ->
  encode_string hb kb max text (encode_small hb kb max text).
Proof.
  intros Hkb Hm HN HL Hlen. unfold encode_string. destruct (Z.geb_spec max 16); [lia|].
  assert (ES : u32 (Z.shiftl kb 10) = kb * 1024).
  { rewrite Z.shiftl_mul_pow2 by lia. change (2 ^ 10) with 1024. apply Z.mod_small. change (2 ^ 32) with 4294967296. lia. }
  rewrite ES. assert (Hs : (length text <= Z.to_nat (kb * 1024))%nat) by lia. generalize dependent (Z.to_nat (kb * 1024)). intros size Hs.
  assert (E1 : firstn size text = text) by (apply firstn_all2; lia).
  assert (E2 : skipn size text = []) by (apply skipn_all2; lia).
  exists (let! fs := encode_one max (some_tree text) text in let! fs' := Ok [] in Ok (fs ++ fs')). split.
  - rewrite <- E1 at 2 3. apply chunks_more.
    + now rewrite E1.
    + rewrite E1. now apply some_tree_ok.
    + rewrite E2. constructor. apply firstn_nil.
  - unfold encode_small. destruct (encode_one max (some_tree text) text); [|reflexivity]. cbn [bind]. now rewrite app_nil_r.
Qed.

(** Concrete instances of the hypotheses above: "abracadabra" with the default configuration. *)
Definition abracadabra : list Z := [97; 98; 114; 97; 99; 97; 100; 97; 98; 114; 97].
Example huffman_roundtrip_example :
  exists file, encode_string false 256 11 abracadabra (Ok (Some file)) /\ (length file = 24)%nat /\
    decode_string true file = Ok (Some abracadabra).
Proof.
  pose proof (encode_small_ok false 256 11 abracadabra ltac:(lia) ltac:(lia) ltac:(discriminate)
    ltac:(vm_compute; discriminate) ltac:(cbn; lia)) as H.
  assert (HF : Forall byte abracadabra) by (repeat constructor; unfold byte; lia).
  assert (E : exists file, encode_small false 256 11 abracadabra = Ok (Some file) /\ (length file = 24)%nat)
    by (eexists; vm_compute; split; reflexivity).
  destruct E as (file & E & Hlen). rewrite E in H. exists file. split; [exact H|]. split; [exact Hlen|].
  destruct (huffman_roundtrip false true 256 11 abracadabra _ ltac:(lia) ltac:(lia) HF H) as (file' & E' & D).
  inversion E'; subst. exact D.
Qed.
(** Length limiting at work: Fibonacci frequencies give depth 5, limited to 3. *)
Definition skewed : list Z := repeat 1 1 ++ repeat 2 1 ++ repeat 3 2 ++ repeat 4 3 ++ repeat 5 5 ++ repeat 6 8.
Example huffman_limit_example :
  create_tree skewed (some_tree skewed) /\ height (some_tree skewed) = 5 /\
  (exists codes, create_codes 3 (some_tree skewed) = Ok codes /\ map c_length codes = [2; 3; 3; 3; 3; 3]).
Proof.
  split; [apply some_tree_ok; vm_compute; discriminate|]. split; [reflexivity|].
  eexists. split; vm_compute; reflexivity.
Qed.
Example huffman_optimal_example :
  exists codes, create_codes 11 (some_tree abracadabra) = Ok codes /\
    encoded_bits (word_of codes) abracadabra = 23%nat /\ height (some_tree abracadabra) <= 11.
Proof. eexists. vm_compute. split; [reflexivity|]. split; [reflexivity|discriminate]. Qed.

(** * C11 *)

Lemma spec_read_full n bits : (n <= length bits)%nat -> spec_read bits n = (spec_value (firstn n bits), Z.of_nat n).
Proof.
  intros H. unfold spec_read. rewrite firstn_length. replace (n - Nat.min n (length bits))%nat with 0%nat by lia.
  cbn [repeat]. rewrite app_nil_r. f_equal. lia.
Qed.
Lemma spec_read_short n bits : (length bits < n)%nat -> snd (spec_read bits n) = Z.of_nat (length bits).
Proof. intros H. unfold spec_read. cbn [snd]. rewrite firstn_length. lia. Qed.
Lemma spec_value_bound l : 0 <= spec_value l < 2 ^ Z.of_nat (length l).
Proof. rewrite spec_value_eq. apply bval_bounds. Qed.

Lemma any_byte hb r bits : reads r bits ->
  if (length bits <? 8)%nat then exists v r1, read_byte hb r = Ok (v, false, r1)
  else exists r1, read_byte hb r = Ok (spec_value (firstn 8 bits), true, r1) /\ reads r1 (skipn 8 bits) /\
    0 <= spec_value (firstn 8 bits) < 256.
Proof.
  intros H. unfold read_byte, s_bits_per_byte. destruct (reads_read hb r _ 8 8 H ltac:(lia) ltac:(lia)) as (r1 & E & R).
  rewrite E. cbn [bind]. change (Z.to_nat 8) with 8%nat in *. destruct (Nat.ltb_spec (length bits) 8).
  - rewrite spec_read_short by assumption. exists (fst (spec_read bits 8)), r1. f_equal. f_equal. f_equal. apply Z.eqb_neq. lia.
  - rewrite spec_read_full by assumption. exists r1. split; [reflexivity|]. split; [assumption|].
    pose proof (spec_value_bound (firstn 8 bits)) as B. rewrite firstn_length_le in B by assumption. exact B.
Qed.
Lemma any_word hb r bits : reads r bits ->
  if (length bits <? 16)%nat then exists v r1, read_word hb r = Ok (v, false, r1)
  else exists r1, read_word hb r = Ok (spec_value (firstn 16 bits), true, r1) /\ reads r1 (skipn 16 bits) /\
    0 <= spec_value (firstn 16 bits) < 65536.
Proof.
  intros H. unfold read_word, s_bits_per_word. destruct (reads_read hb r _ 16 16 H ltac:(lia) ltac:(lia)) as (r1 & E & R).
  rewrite E. cbn [bind]. change (Z.to_nat 16) with 16%nat in *. destruct (Nat.ltb_spec (length bits) 16).
  - rewrite spec_read_short by assumption. exists (fst (spec_read bits 16)), r1. f_equal. f_equal. f_equal. apply Z.eqb_neq. lia.
  - rewrite spec_read_full by assumption. exists r1. split; [reflexivity|]. split; [assumption|].
    pose proof (spec_value_bound (firstn 16 bits)) as B. rewrite firstn_length_le in B by assumption. exact B.
Qed.

Lemma decode_counts_any hb : forall n r bits, reads r bits ->
  exists o r1, decode_counts hb n r = Ok (o, r1) /\ o = take_words spec_value n bits /\
    (forall l, o = Some l -> reads r1 (skipn (16 * n) bits) /\ Forall (fun c => 0 <= c < 65536) l /\ length l = n).
Proof.
  induction n as [|n IH]; intros r bits HR; cbn [decode_counts take_words].
  - exists (Some []), r. split; [reflexivity|]. split; [reflexivity|]. intros l E. inversion E. rewrite Nat.mul_0_r. auto.
  - pose proof (any_word hb r bits HR) as W. destruct (length bits <? 16)%nat.
    + destruct W as (v & r1 & ->). cbn [bind negb]. exists None, r1. split; [reflexivity|]. split; [reflexivity|]. discriminate.
    + destruct W as (r1 & -> & R1 & B). cbn [bind negb]. destruct (IH r1 _ R1) as (o & r2 & -> & -> & HS). cbn [bind].
      eexists _, r2. split; [reflexivity|]. split; [reflexivity|]. intros l E.
      destruct (take_words spec_value n (skipn 16 bits)) as [l'|]; [|discriminate]. inversion E; subst.
      destruct (HS l' eq_refl) as (R2 & F2 & L2). rewrite skipn_add in R2.
      replace (16 * S n)%nat with (16 + 16 * n)%nat by lia. split; [assumption|]. split; [constructor; assumption|cbn; lia].
Qed.

Lemma canon_app L codes c acc : canon L acc (codes ++ [c]) <->
  canon L acc codes /\ c_code c * 2 ^ (L - c_length c) = acc + kraft L codes.
Proof.
  revert acc. induction codes as [|x r IH]; intros acc; cbn [app canon].
  - unfold kraft. cbn. rewrite Z.add_0_r. tauto.
  - rewrite IH, kraft_cons, Z.add_assoc. tauto.
Qed.

Lemma decode_length_any hb L len : 0 <= len <= L -> L <= 15 -> forall n codes r bits, reads r bits ->
  canon L 0 (rev codes) -> Forall (fun c => 0 <= c_length c <= len) codes ->
  Forall (fun c => 0 <= c_code c) codes ->
  kraft L codes + Z.of_nat n * 2 ^ (L - len) <= 2 ^ L ->
  exists o r1, decode_length hb n len codes r = Ok (o, r1) /\
    (forall codes', o = Some codes' -> (exists bits', reads r1 bits') /\ canon L 0 (rev codes') /\
       Forall (fun c => 0 <= c_length c <= len) codes' /\ Forall (fun c => 0 <= c_code c) codes' /\
       kraft L codes' = kraft L codes + Z.of_nat n * 2 ^ (L - len)).
Proof.
  intros Hlen HL. pose proof (pow2_pos (L - len) ltac:(lia)) as PP. pose proof (pow15 L ltac:(lia)) as P15.
  induction n as [|n IH]; intros codes r bits HR HC HF HN HK; cbn [decode_length].
  - exists (Some codes), r. split; [reflexivity|]. intros codes' E. inversion E; subst. split; [eauto|]. repeat split; try assumption. lia.
  - pose proof (any_byte hb r bits HR) as W. destruct (length bits <? 8)%nat.
    { destruct W as (v & r1 & ->). cbn [bind negb]. exists None, r1. split; [reflexivity|]. discriminate. }
    destruct W as (r1 & -> & R1 & B). cbn [bind negb].
    assert (V : exists v, match codes with
        | [] => Ok 0
        | last :: _ => let! v := shl 32 (c_code last + 1) (u8 (len - c_length last)) in Ok (u16 v)
        end = Ok v /\ v * 2 ^ (L - len) = kraft L codes /\ 0 <= v).
    { destruct codes as [|last codes]; [exists 0; split; [reflexivity|]; split; [reflexivity|lia]|].
      inversion_clear HF as [|? ? Hl HF']. inversion_clear HN as [|? ? Hn HN'].
      cbn [rev] in HC. apply canon_app in HC. destruct HC as [_ HC]. rewrite Z.add_0_l, kraft_rev in HC.
      rewrite u8_small by lia.
      assert (EV : (c_code last + 1) * 2 ^ (len - c_length last) * 2 ^ (L - len) = kraft L (last :: codes)).
      { rewrite kraft_cons, <- Z.mul_assoc, <- pow2_add by lia. replace (len - c_length last + (L - len)) with (L - c_length last) by lia. lia. }
      pose proof (pow2_pos (len - c_length last) ltac:(lia)) as PL.
      assert (0 <= (c_code last + 1) * 2 ^ (len - c_length last)) by (apply Z.mul_nonneg_nonneg; lia).
      assert ((c_code last + 1) * 2 ^ (len - c_length last) <= 2 ^ L).
      { apply Z.le_trans with ((c_code last + 1) * 2 ^ (len - c_length last) * 2 ^ (L - len)); [|lia].
        rewrite <- Z.mul_1_r at 1. apply Z.mul_le_mono_nonneg_l; lia. }
      rewrite shl_ok by lia. cbn [bind]. exists ((c_code last + 1) * 2 ^ (len - c_length last)).
      rewrite (Z.mod_small _ (2 ^ 32)) by (change (2 ^ 32) with 4294967296; lia).
      rewrite u16_small by lia. auto. }
    destruct V as (v & -> & EV & Hv). cbn [bind].
    destruct (length codes =? 256)%nat; [exists None, r1; split; [reflexivity|discriminate]|].
    destruct (IH ({| c_symbol := spec_value (firstn 8 bits); c_code := v; c_length := len |} :: codes) r1 _ R1) as (o & r2 & E & HS).
    + cbn [rev]. apply canon_app. split; [assumption|]. cbn [c_code c_length]. rewrite kraft_rev. lia.
    + constructor; [cbn; lia|assumption].
    + constructor; [cbn; lia|assumption].
    + rewrite kraft_cons. cbn [c_length]. lia.
    + exists o, r2. split; [exact E|]. intros codes' Ec. destruct (HS codes' Ec) as (S1 & S2 & S3 & S4 & S5).
      repeat split; try assumption. rewrite S5, kraft_cons. cbn [c_length]. lia.
Qed.

Lemma counts_kraft_nonneg L : forall counts len, Forall (fun c => 0 <= c < 65536) counts -> 0 <= counts_kraft L len counts.
Proof.
  induction counts as [|c r IH]; intros len HF; cbn [counts_kraft]; [lia|]. inversion_clear HF as [|? ? Hc HF'].
  specialize (IH (len + 1) HF'). pose proof (Z.pow_nonneg 2 (L - len) ltac:(lia)). pose proof (Z.mul_nonneg_nonneg c (2 ^ (L - len))). lia.
Qed.

Lemma decode_lengths_any hb L : L <= 15 -> forall counts len codes r bits, reads r bits ->
  0 <= len -> len + Z.of_nat (length counts) <= L + 1 ->
  Forall (fun c => 0 <= c < 65536) counts ->
  canon L 0 (rev codes) -> Forall (fun c => 0 <= c_length c <= Z.min len L) codes -> Forall (fun c => 0 <= c_code c) codes ->
  kraft L codes + counts_kraft L len counts <= 2 ^ L ->
  exists o r1, decode_lengths hb counts len codes r = Ok (o, r1) /\
    (forall codes', o = Some codes' -> (exists bits', reads r1 bits') /\ canon L 0 (rev codes') /\
       Forall (fun c => 0 <= c_length c <= L) codes' /\ kraft L codes' <= 2 ^ L).
Proof.
  intros HL. induction counts as [|c counts IH]; intros len codes r bits HR Hlen Hc HF HC HLen HN HK; cbn [decode_lengths].
  - exists (Some codes), r. split; [reflexivity|]. intros codes' E. inversion E; subst. cbn [length counts_kraft] in *.
    split; [eauto|]. split; [assumption|]. split; [|lia]. eapply Forall_impl; [|exact HLen]. cbv beta. intros; lia.
  - cbn [length counts_kraft] in *. inversion_clear HF as [|? ? Hcb HF'].
    pose proof (counts_kraft_nonneg L counts (len + 1) HF').
    assert (HLen' : Forall (fun c => 0 <= c_length c <= len) codes) by (eapply Forall_impl; [|exact HLen]; cbv beta; intros; lia).
    destruct (decode_length_any hb L len ltac:(lia) HL (Z.to_nat c) codes r bits HR HC HLen' HN) as (o & r1 & E & HS); [rewrite Z2Nat.id; lia|].
    rewrite E. cbn [bind]. destruct o as [codes'|]; [|exists None, r1; split; [reflexivity|discriminate]].
    destruct (HS codes' eq_refl) as ((bits' & R1) & S2 & S3 & S4 & S5). rewrite Z2Nat.id in S5 by lia.
    apply (IH (len + 1) codes' r1 bits'); try assumption; try lia.
    eapply Forall_impl; [|exact S3]. cbv beta. intros; lia.
Qed.

(** On any bits whatsoever, reading a code table whose announced counts satisfy Kraft's inequality
    (counting length-0 codes as well) stays inside the code array and the prefix table. *)
Theorem huffman_table_safe_partial : forall hb max tb r bits,
  1 <= max <= 15 -> length tb = Z.to_nat (2 ^ max) -> reads r bits ->
  (forall counts, announced_counts spec_value bits = Some counts ->
     counts_kraft (Z.of_nat (length counts) - 1) 0 counts <= 2 ^ (Z.of_nat (length counts) - 1)) ->
  exists o r1, decode_codes hb max tb r = Ok (o, r1) /\
    forall longest codes tb', o = Some (longest, codes, tb') ->
      length tb' = length tb /\ 0 <= longest <= max /\ exists bits', reads r1 bits'.
Proof.
  intros hb max tb r bits Hm HT HR HA. unfold decode_codes. pose proof (any_byte hb r bits HR) as W.
  unfold announced_counts in HA.
  destruct (length bits <? 8)%nat.
  { destruct W as (v & r1 & ->). cbn [bind negb]. exists None, r1. split; [reflexivity|]. discriminate. }
  destruct W as (r1 & -> & R1 & B). cbn [bind negb]. set (n := spec_value (firstn 8 bits)) in *. clearbody n.
  destruct (Z.eqb_spec n 0); [exists None, r1; split; [reflexivity|discriminate]|].
  destruct (Z.gtb_spec n (max + 1)); [exists None, r1; split; [reflexivity|discriminate]|]. cbn [orb].
  destruct (decode_counts_any hb (Z.to_nat n) r1 _ R1) as (o & r2 & E & Eo & HS). rewrite E. cbn [bind].
  destruct o as [counts|]; [|exists None, r2; split; [reflexivity|discriminate]].
  destruct (HS counts eq_refl) as (R2 & F2 & L2). specialize (HA counts (eq_sym Eo)). rewrite L2, Z2Nat.id in HA by lia.
  rewrite u8_small by lia.
  destruct (decode_lengths_any hb (n - 1) ltac:(lia) counts 0 [] r2 _ R2) as (o3 & r3 & E3 & HS3);
    [lia|lia|assumption|exact I|constructor|constructor|unfold kraft; cbn [map zsum fold_right]; lia|].
  rewrite E3. cbn [bind]. destruct o3 as [rcodes|]; [|exists None, r3; split; [reflexivity|discriminate]].
  destruct (HS3 rcodes eq_refl) as (RB & HC & HL & HK). pose proof (pow2_bound (n - 1) max ltac:(lia)). pose proof (pow15 max ltac:(lia)).
  destruct (convert_ok (n - 1) ltac:(lia) (rev rcodes) 0 tb) as (tb' & EC & LT & _); try assumption; try lia.
  { now apply Forall_rev. } { rewrite kraft_rev. lia. }
  rewrite EC. cbn [bind]. eexists _, r3. split; [reflexivity|]. intros longest codes tb'' E'. inversion E'; subst.
  split; [assumption|]. split; [lia|assumption].
Qed.

(** Reading symbols is safe while at least [max] bits per symbol remain: only the last codes of a
    file can run past its end. *)
Theorem huffman_symbols_safe_partial : forall hb longest max tb n r bits,
  1 <= longest <= max -> max <= 15 -> 2 ^ longest <= Z.of_nat (length tb) ->
  Forall (fun e => 0 <= snd e <= longest) tb ->
  reads r bits -> (n * Z.to_nat max <= length bits)%nat ->
  exists out r1, decode_symbols hb n longest tb r = Ok (out, r1) /\ length out = n /\ exists bits', reads r1 bits'.
Proof.
  intros hb longest max tb n r bits Hl Hm HT HE. revert r bits.
  induction n as [|n IH]; intros r bits HR Hb; cbn [decode_symbols].
  - exists [], r. split; [reflexivity|]. split; [reflexivity|eauto].
  - destruct (reads_peek hb r bits longest HR ltac:(lia)) as (r1 & E & R1 & P1). rewrite E. cbn [bind].
    rewrite spec_read_full in * by lia. cbn [fst snd] in *. destruct (Z.eqb_spec (Z.of_nat (Z.to_nat longest)) 0); [lia|].
    pose proof (spec_value_bound (firstn (Z.to_nat longest) bits)) as B. rewrite firstn_length_le, Z2Nat.id in B by lia.
    destruct (Z.ltb_spec (spec_value (firstn (Z.to_nat longest) bits)) (Z.of_nat (length tb))); [|lia].
    assert (HI : In (nth (Z.to_nat (spec_value (firstn (Z.to_nat longest) bits))) tb (0, 0)) tb) by (apply nth_In; lia).
    rewrite Forall_forall in HE. specialize (HE _ HI).
    destruct (nth (Z.to_nat (spec_value (firstn (Z.to_nat longest) bits))) tb (0, 0)) as [sym len]. cbn [snd] in HE.
    pose proof (reads_discard r1 bits len R1 ltac:(lia)) as R2.
    destruct (IH _ _ R2) as (out & r3 & E3 & L3 & B3). { rewrite skipn_length. lia. }
    rewrite E3. cbn [bind]. exists (sym :: out), r3. split; [reflexivity|]. split; [cbn; lia|assumption].
Qed.

(** The header never causes harm. *)
Theorem huffman_header_safe : forall hb file, Forall byte file ->
  exists o r1, decode_header hb (open_reader hb file) = Ok (o, r1) /\
    forall size max, o = Some (size, max) -> 1024 <= size < 2 ^ 26 /\ 1 <= max <= 15.
Proof.
  intros hb file HF.
  destruct (open_reader_ok hb file HF) as (I0 & R0 & _).
  destruct (is_good (r_in (open_reader hb file))) eqn:G.
  - set (r := open_reader hb file) in *. assert (HR : reads r (rbits r)) by (split; [assumption|split; [assumption|reflexivity]]).
    clearbody r. clear R0. set (bits := rbits r) in *. clearbody bits. unfold decode_header.
    pose proof (any_byte hb r bits HR) as W. destruct (length bits <? 8)%nat.
    { destruct W as (v & r1 & ->). cbn [bind negb]. exists None, r1. split; [reflexivity|discriminate]. }
    destruct W as (r1 & -> & R1 & _). cbn [bind negb].
    destruct (_ =? 1); cbn [negb]; [|exists None, r1; split; [reflexivity|discriminate]].
    pose proof (any_word hb r1 _ R1) as W. destruct (length (skipn 8 bits) <? 16)%nat.
    { destruct W as (v & r2 & ->). cbn [bind negb]. exists None, r2. split; [reflexivity|discriminate]. }
    destruct W as (r2 & -> & R2 & B2). cbn [bind negb]. set (kb := spec_value (firstn 16 (skipn 8 bits))) in *. clearbody kb.
    destruct (Z.eqb_spec kb 0); [exists None, r2; split; [reflexivity|discriminate]|].
    pose proof (any_byte hb r2 _ R2) as W. destruct (length (skipn 16 (skipn 8 bits)) <? 8)%nat.
    { destruct W as (v & r3 & ->). cbn [bind negb]. exists None, r3. split; [reflexivity|discriminate]. }
    destruct W as (r3 & -> & R3 & B3). cbn [bind negb]. set (m := spec_value (firstn 8 (skipn 16 (skipn 8 bits)))) in *. clearbody m.
    destruct (Z.eqb_spec m 0); [exists None, r3; split; [reflexivity|discriminate]|].
    destruct (Z.geb_spec m 16); [exists None, r3; split; [reflexivity|discriminate]|]. cbn [orb].
    eexists _, r3. split; [reflexivity|]. intros size max E.
    assert (E' : size = u32 (Z.shiftl kb 10) /\ max = m) by (split; congruence). destruct E' as [-> ->].
    rewrite Z.shiftl_mul_pow2 by lia. change (2 ^ 10) with 1024. unfold u32, wrap.
    rewrite Z.mod_small by (change (2 ^ 32) with 4294967296; lia). change (2 ^ 26) with 67108864. lia.
  - destruct (open_reader_ok hb file HF) as (_ & _ & P0).
    set (r := open_reader hb file) in *. clearbody r.
    assert (EB : rbits r = []). { unfold rbits, stream_bits. rewrite G, P0. reflexivity. }
    destruct (reader_step_ok hb r (OpRead 8 8) 0 I0) as (r1 & E & _); [apply (ri_pos _ I0)|cbn [op_legal]; unfold api_width; repeat split; lia|].
    rewrite EB in E. cbn [reader_step] in E. unfold decode_header, read_byte, s_bits_per_byte.
    inv_bind E. destruct a as [[v n] q]. inversion E; subst. cbn [bind].
    exists None, r1. split; [reflexivity|discriminate].
Qed.

(** Hypotheses of [huffman_table_safe_partial] on real bits: the table of "abracadabra". *)
Example huffman_table_safe_example :
  exists file, encode_small false 1 11 abracadabra = Ok (Some file) /\
    announced_counts spec_value (skipn 32 (file_payload file)) = Some [0; 1; 1; 1; 2] /\
    counts_kraft 4 0 [0; 1; 1; 1; 2] <= 2 ^ 4.
Proof. eexists. vm_compute. split; [reflexivity|]. split; [reflexivity|discriminate]. Qed.

(** Three codes of length one: the third is written past the end of the two-entry prefix table. *)
Definition oversubscribed_file : list Z := [208; 1; 0; 1; 1; 2; 0; 0; 0; 3; 97; 98; 99].
Theorem huffman_oversubscribed_refuted : forall hb,
  Forall byte oversubscribed_file /\ decode_string hb oversubscribed_file = UB.
Proof. intros hb. split; [unfold oversubscribed_file, byte; repeat constructor; lia|]. destruct hb; vm_compute; reflexivity. Qed.

(** A file cut inside its last code (here a one-bit remainder of the two-bit code of 'b'): the number
    of buffered bits underflows and the next peek shifts by more than the width. *)
Definition truncated_file : list Z := [215; 1; 0; 1; 2; 3; 0; 0; 0; 1; 0; 2; 97; 98; 99; 128].
Theorem huffman_truncated_refuted : forall hb,
  Forall byte truncated_file /\ decode_string hb truncated_file = UB.
Proof. intros hb. split; [unfold truncated_file, byte; repeat constructor; lia|]. destruct hb; vm_compute; reflexivity. Qed.

(** * C12 *)

(** A chunk size of zero: every input is "successfully" encoded to the same bytes, which do not
    decode.  (The logger's file sink then deletes the log it believes compressed.) *)
Theorem huffman_zero_chunk_refuted : forall hb hb' max, 0 <= max <= 15 ->
  exists file, (forall input, encode_string hb 0 max input (Ok (Some file))) /\
    (forall input result, encode_string hb 0 max input result -> result = Ok (Some file)) /\
    decode_string hb' file = Ok None.
Proof.
  intros hb hb' max Hm.
  assert (HH : Forall (fun f => field_ok f /\ f_size f <= 16) (encode_header 0 max)).
  { unfold encode_header. change (Z.shiftr (u32 (Z.shiftl 0 10)) 10) with 0.
    unfold field_ok, byte_field, word_field, api_width, s_bits_per_byte, s_bits_per_word; cbn [f_width f_size f_value].
    rewrite (u8_small 1), (u8_small max), (u16_small 0) by lia. change (2 ^ 8) with 256. change (2 ^ 16) with 65536.
    repeat constructor; cbn; lia. }
  destruct (bitstream_file_layout hb (encode_header 0 max)) as (file & EP & FH).
  { eapply Forall_impl; [|exact HH]. cbn. tauto. } { now apply small_fields_no_full. }
  exists file. unfold encode_string. destruct (Z.geb_spec max 16); [lia|]. change (Z.to_nat (u32 (Z.shiftl 0 10))) with 0%nat.
  split; [|split].
  - intros input. exists (Ok []). split; [constructor; reflexivity|]. cbn [bind]. rewrite app_nil_r, EP. reflexivity.
  - intros input result (body & HB & ->). inversion HB as [? Hd Hb|? ? ? Hne]; subst; [|exfalso; apply Hne; reflexivity]. cbn [bind]. rewrite app_nil_r, EP. reflexivity.
  - destruct (reads_file hb' file _ FH) as [HR _]. unfold encode_header in HR. change (Z.shiftr (u32 (Z.shiftl 0 10)) 10) with 0 in HR.
    unfold byte_field, word_field in HR. rewrite (u8_small 1), (u8_small max), (u16_small 0) in HR by lia.
    cbn [payload_of flat_map f_size f_value] in HR. unfold s_bits_per_byte, s_bits_per_word in HR.
    change (Z.to_nat 8) with 8%nat in HR. change (Z.to_nat 16) with 16%nat in HR. unfold decode_string, decode_header.
    destruct (reads_byte hb' _ _ _ HR ltac:(lia)) as (r1 & E1 & R1). rewrite E1. cbn [bind negb Z.eqb Pos.eqb].
    destruct (reads_word hb' _ _ _ R1 ltac:(lia)) as (r2 & E2 & R2). rewrite E2. reflexivity.
Qed.

(** Limits too short for the symbols: success is reported for bytes that decode to something else,
    fail to decode, or make the decoder write out of bounds. *)
Theorem huffman_short_limit_refuted :
  (exists file, encode_string false 1 0 [97] (Ok (Some file)) /\ decode_string false file = Ok None) /\
  (exists file, encode_string false 1 1 [97; 98; 99] (Ok (Some file)) /\ decode_string false file = UB).
Proof.
  split.
  - eexists. split.
    + pose proof (encode_small_ok false 1 0 [97] ltac:(lia) ltac:(lia) ltac:(discriminate) ltac:(vm_compute; discriminate) ltac:(cbn; lia)) as H.
      let v := eval vm_compute in (encode_small false 1 0 [97]) in change (encode_small false 1 0 [97]) with v in H. exact H.
    + vm_compute. reflexivity.
  - eexists. split.
    + pose proof (encode_small_ok false 1 1 [97; 98; 99] ltac:(lia) ltac:(lia) ltac:(discriminate) ltac:(vm_compute; discriminate) ltac:(cbn; lia)) as H.
      let v := eval vm_compute in (encode_small false 1 1 [97; 98; 99]) in change (encode_small false 1 1 [97; 98; 99]) with v in H. exact H.
    + vm_compute. reflexivity.
Qed.

(** For every configuration outside those corners success does mean decodable; and limits of 16 and
    above are refused. *)
Theorem huffman_success_decodable_partial : forall hb hb' kb max input file,
  1 <= kb < 65536 -> 1 <= max -> Forall byte input ->
  (forall k, Z.of_nat (length (symbols_of (chunk (Z.to_nat (kb * 1024)) k input))) <= 2 ^ max) ->
  encode_string hb kb max input (Ok (Some file)) ->
  max <= 15 /\ decode_string hb' file = Ok (Some input).
Proof.
  intros hb hb' kb max input file Hkb Hm HF HS HE.
  assert (max <= 15). { unfold encode_string in HE. destruct (Z.geb_spec max 16); [discriminate HE|lia]. }
  split; [assumption|].
  destruct (huffman_roundtrip_any_limit hb hb' kb max input _ Hkb ltac:(lia) HF HS HE) as (file' & E & D).
  inversion E; subst. exact D.
Qed.
Print Assumptions huffman_roundtrip.
Print Assumptions huffman_codes_prefix_code.
Print Assumptions huffman_optimal.
Print Assumptions huffman_table_safe_partial.
