(** Property C63: styled output. *)
From Verif Require Import Common Format_Model Styler_Model Styler_Spec.

(** ** The terminal *)
Definition number_text (n : Z) : list Z := value_or (to_chars 64 n 10 []) [].
Definition digit (c : Z) : bool := (48 <=? c) && (c <=? 57).
Definition digits_value (cur : Z) (ds : list Z) : Z := fold_left (fun a c => a * 10 + (c - 48)) ds cur.
Lemma receive_app bytes : forall st t r, receive st t (bytes ++ r) = let '(st', t') := receive st t bytes in receive st' t' r.
Proof.
  induction bytes as [|c bytes IH]; intros st t r; [reflexivity|]. cbn [app receive]. destruct st as [| |b cur].
  - destruct (c =? 27); apply IH. - destruct (c =? 91); apply IH.
  - destruct ((48 <=? c) && (c <=? 57)); [apply IH|]. destruct (c =? 59); [apply IH|]. destruct (c =? 109); [apply IH|].
    destruct (c =? 65); [apply IH|]. destruct (c =? 66); [apply IH|]. destruct (c =? 67); [apply IH|]. destruct (c =? 68); apply IH.
Qed.
Lemma receive_digits ds : forall b cur t r, forallb digit ds = true -> receive (Parameters b cur) t (ds ++ r) = receive (Parameters b (digits_value cur ds)) t r.
Proof.
  induction ds as [|c ds IH]; intros b cur t r H; [reflexivity|]. cbn [forallb] in H. apply andb_prop in H. destruct H as (H1 & H2). unfold digit in H1. cbn [app receive]. rewrite H1. rewrite IH by assumption. reflexivity.
Qed.
Definition bytes_upto : list Z := map Z.of_nat (seq 0 256).
Lemma in_bytes_upto n : 0 <= n < 256 -> In n bytes_upto.
Proof. intros H. unfold bytes_upto. apply in_map_iff. exists (Z.to_nat n). split; [lia|]. apply in_seq. lia. Qed.
Lemma number_text_digits n : 0 <= n < 256 -> forallb digit (number_text n) = true /\ digits_value 0 (number_text n) = n.
Proof.
  intros H. assert (G : forallb (fun n => forallb digit (number_text n) && (digits_value 0 (number_text n) =? n)) bytes_upto = true) by (vm_compute; reflexivity).
  rewrite forallb_forall in G. specialize (G n (in_bytes_upto n H)). apply andb_prop in G. destruct G as (G1 & G2). apply Z.eqb_eq in G2. auto.
Qed.
Lemma small_digits n : 0 <= n <= 7 -> forallb digit (number_text n) = true /\ forall k, digits_value k (number_text n) = k * 10 + n.
Proof.
  intros H. assert (E : n = 0 \/ n = 1 \/ n = 2 \/ n = 3 \/ n = 4 \/ n = 5 \/ n = 6 \/ n = 7) by lia.
  destruct E as [-> |[-> |[-> |[-> |[-> |[-> |[-> | ->]]]]]]]; (split; [reflexivity|]; intros k; cbn; lia).
Qed.
(** The parameters of a style and of a color, and their bytes. *)
Definition color_parameters (c : color) : list Z :=
  if m_color c <=? 7 then [(match m_plane c with Foreground => 30 | Background => 40 end) + m_color c]
  else [match m_plane c with Foreground => 38 | Background => 48 end; 5; m_color c].
Definition color_bytes (c : color) : list Z :=
  (if m_color c <=? 7 then match m_plane c with Foreground => [51] | Background => [52] end
   else match m_plane c with Foreground => [51; 56; 59; 53; 59] | Background => [52; 56; 59; 53; 59] end) ++ number_text (m_color c).
(** An item: bytes that leave the terminal after all its parameters. *)
Definition item (bytes : list Z) (ps : list Z) : Prop := ps <> [] /\ forall b t r, receive (Parameters b 0) t (bytes ++ r) = receive (Parameters (b ++ removelast ps) (last ps 0)) t r.
Lemma style_item s : item (number_text (style_number s)) [style_number s].
Proof.
  split; [discriminate|]. intros b t r. assert (H : 0 <= style_number s < 256) by (destruct s; cbn; lia). apply number_text_digits in H. destruct H as (H1 & H2). rewrite receive_digits, H2 by assumption. cbn [removelast last]. now rewrite app_nil_r.
Qed.
Lemma color_item c : 0 <= m_color c < 256 -> item (color_bytes c) (color_parameters c).
Proof.
  intros H. unfold item, color_bytes, color_parameters. destruct (Z.leb_spec (m_color c) 7) as [L|L].
  - split; [discriminate|]. intros b t r. destruct (small_digits (m_color c) ltac:(lia)) as (H1 & H2). rewrite <- app_assoc. cbn [removelast last]. rewrite app_nil_r.
    destruct (m_plane c); cbn [app receive]; change ((48 <=? 51) && (51 <=? 57)) with true; change ((48 <=? 52) && (52 <=? 57)) with true; cbn iota; rewrite receive_digits, H2 by assumption; reflexivity.
  - split; [discriminate|]. intros b t r. destruct (number_text_digits (m_color c) H) as (H1 & H2). rewrite <- app_assoc. cbn [removelast last].
    assert (G : forall x y r', 48 <= x <= 57 -> 48 <= y <= 57 -> receive (Parameters b 0) t (x :: y :: 59 :: 53 :: 59 :: r') = receive (Parameters ((b ++ [(x - 48) * 10 + (y - 48)]) ++ [5]) 0) t r').
    { intros x y r' Hx Hy. assert (F : forall z b' k r'', 48 <= z <= 57 -> receive (Parameters b' k) t (z :: r'') = receive (Parameters b' (k * 10 + (z - 48))) t r'').
      { intros z b' k r'' Hz. cbn [receive]. destruct (Z.leb_spec 48 z); [|lia]. destruct (Z.leb_spec z 57); [|lia]. reflexivity. }
      assert (S : forall b' k r'', receive (Parameters b' k) t (59 :: r'') = receive (Parameters (b' ++ [k]) 0) t r'') by reflexivity.
      rewrite (F x), (F y), S, (F 53), S by lia. reflexivity. }
    destruct (m_plane c); cbn [app]; rewrite G by lia; rewrite receive_digits, H2 by assumption; rewrite <- app_assoc; reflexivity.
Qed.
(** Items with semicolons between. *)
Fixpoint items_bytes (first : bool) (l : list (list Z)) : list Z :=
  match l with [] => [] | i :: r => (if first then [] else [59]) ++ i ++ items_bytes false r end.
Lemma receive_rest items pss : Forall2 item items pss -> forall b cur t r, receive (Parameters b cur) t (items_bytes false items ++ 109 :: r) = receive Ground (with_attr t (sgr (b ++ cur :: concat pss) (attr t))) r.
Proof.
  induction 1 as [|i ps items pss (HN & HI) HF IH]; intros b cur t r; [reflexivity|].
  cbn [items_bytes]. rewrite <- !app_assoc. cbn [app receive]. change ((48 <=? 59) && (59 <=? 57)) with false. change (59 =? 59) with true. cbn iota. rewrite HI, IH. cbn [concat].
  rewrite (@app_removelast_last Z ps 0 HN) at 3. f_equal. f_equal. f_equal. rewrite <- !app_assoc. reflexivity.
Qed.
Lemma receive_items items pss t r : Forall2 item items pss -> items <> [] -> receive Ground t ([27; 91] ++ items_bytes true items ++ 109 :: r) = receive Ground (with_attr t (sgr (concat pss) (attr t))) r.
Proof.
  intros HF HN. destruct HF as [|i ps items pss (HP & HI) HF]; [congruence|]. cbn [items_bytes app]. change (receive Ground t (27 :: 91 :: (i ++ items_bytes false items) ++ 109 :: r)) with (receive (Parameters [] 0) t ((i ++ items_bytes false items) ++ 109 :: r)).
  rewrite <- app_assoc, HI, (receive_rest _ _ HF). cbn [concat app]. rewrite (@app_removelast_last Z ps 0 HP) at 3. now rewrite <- app_assoc.
Qed.
(** What the parameters do. *)
Lemma sgr_style s r a : sgr (style_number s :: r) a = sgr r (styled s a).
Proof. now destruct s. Qed.
Lemma sgr_color c r a : 0 <= m_color c < 256 -> sgr (color_parameters c ++ r) a = sgr r (colored c a).
Proof.
  intros H. unfold color_parameters, colored. destruct (Z.leb_spec (m_color c) 7) as [L|L].
  - assert (E : m_color c = 0 \/ m_color c = 1 \/ m_color c = 2 \/ m_color c = 3 \/ m_color c = 4 \/ m_color c = 5 \/ m_color c = 6 \/ m_color c = 7) by lia.
    destruct (m_plane c); (destruct E as [-> |[-> |[-> |[-> |[-> |[-> |[-> | ->]]]]]]]; reflexivity).
  - destruct (m_plane c); reflexivity.
Qed.
Lemma sgr_all styles colors a : Forall (fun c => 0 <= m_color c < 256) colors ->
  sgr (concat (map (fun s => [style_number s]) styles ++ map color_parameters colors)) a = fold_left (fun a c => colored c a) colors (fold_left (fun a s => styled s a) styles a).
Proof.
  intros HC. revert a. induction styles as [|s styles IH]; intros a.
  - cbn [map app fold_left]. revert a. induction HC as [|c colors H HC IH]; intros a; [reflexivity|]. cbn [map concat fold_left]. rewrite sgr_color by assumption. apply IH.
  - cbn [map app concat fold_left]. rewrite sgr_style. apply IH.
Qed.

(** ** Streams *)
Definition grown (o : ostream) (bytes : list Z) : ostream := Ostream (m_bytes o ++ bytes) 10 0 (m_fillchar o).
Lemma grown_grown o a b : grown (grown o a) b = grown o (a ++ b).
Proof. unfold grown. cbn. now rewrite app_assoc. Qed.
Lemma grown_nil o : plain_stream o -> grown o [] = o.
Proof. intros (H1 & H2). destruct o as [b s w f]. cbn in *. subst. unfold grown. cbn. now rewrite app_nil_r. Qed.
Lemma grown_plain o b : plain_stream (grown o b).
Proof. now split. Qed.
Lemma insert_plain o text : plain_stream o -> insert_text o text = grown o text.
Proof. intros (H1 & H2). unfold insert_text, grown. rewrite H1, H2. reflexivity. Qed.
Lemma insert_number_plain o n : plain_stream o -> insert_number o n = grown o (number_text n).
Proof. intros H. unfold insert_number. rewrite insert_plain by assumption. now rewrite (proj1 H). Qed.
Lemma stream_color_grown o b c : stream_color (grown o b) c = grown o (b ++ color_bytes c).
Proof.
  unfold stream_color, color_bytes. destruct (m_color c <=? 7); rewrite insert_plain by apply grown_plain; rewrite insert_number_plain by apply grown_plain; rewrite !grown_grown; now rewrite <- ?app_assoc.
Qed.
Lemma stream_styles_grown o styles : forall b first, stream_styles (grown o b) first styles = (grown o (b ++ items_bytes first (map (fun s => number_text (style_number s)) styles)), first && match styles with [] => true | _ => false end).
Proof.
  induction styles as [|s styles IH]; intros b first; cbn [stream_styles map items_bytes]; [now rewrite app_nil_r, andb_true_r|].
  unfold stream_style. destruct first; [|rewrite insert_plain by apply grown_plain; rewrite grown_grown]; rewrite insert_number_plain by apply grown_plain; rewrite grown_grown, IH; cbn [andb app]; rewrite <- ?app_assoc; reflexivity.
Qed.
Lemma stream_colors_grown o colors : forall b first, stream_colors (grown o b) first colors = (grown o (b ++ items_bytes first (map color_bytes colors)), first && match colors with [] => true | _ => false end).
Proof.
  induction colors as [|c colors IH]; intros b first; cbn [stream_colors map items_bytes]; [now rewrite app_nil_r, andb_true_r|].
  destruct first; [|rewrite insert_plain by apply grown_plain; rewrite grown_grown]; rewrite stream_color_grown, IH; cbn [andb app]; rewrite <- ?app_assoc; reflexivity.
Qed.
Lemma items_bytes_app first a b : items_bytes first (a ++ b) = items_bytes first a ++ items_bytes (first && match a with [] => true | _ => false end) b.
Proof.
  revert first. induction a as [|i a IH]; intros first; cbn [app items_bytes]; [now rewrite andb_true_r|]. rewrite IH, andb_false_r. cbn [andb]. now rewrite <- !app_assoc.
Qed.
Definition all_items (styles : list style) (colors : list color) : list (list Z) := map (fun s => number_text (style_number s)) styles ++ map color_bytes colors.
Lemma apply_grown o styles colors : plain_stream o -> apply_styles_and_colors o styles colors = grown o ([27; 91] ++ items_bytes true (all_items styles colors) ++ [109]).
Proof.
  intros H. unfold apply_styles_and_colors. rewrite insert_plain by assumption. rewrite stream_styles_grown, stream_colors_grown, insert_plain by apply grown_plain. rewrite grown_grown. f_equal.
  unfold all_items. rewrite items_bytes_app. rewrite <- !app_assoc. do 3 f_equal. now destruct styles.
Qed.
Definition cursor_bytes (c : cursor) : list Z := [27; 91] ++ number_text (m_distance c) ++ [direction_letter (m_direction c)].
Lemma apply_cursors_grown cursors : forall o b, apply_cursors (grown o b) cursors = grown o (b ++ concat (map cursor_bytes cursors)).
Proof.
  unfold apply_cursors. induction cursors as [|c cursors IH]; intros o b; cbn [fold_left map concat]; [now rewrite app_nil_r|].
  unfold stream_cursor. rewrite insert_plain by apply grown_plain. rewrite insert_number_plain by apply grown_plain. rewrite insert_plain by apply grown_plain. rewrite !grown_grown, IH. unfold cursor_bytes. now rewrite <- !app_assoc.
Qed.
Lemma receive_cursors cursors : Forall (fun c => 0 < m_distance c < 256) cursors -> forall t r, receive Ground t (concat (map cursor_bytes cursors) ++ r) = receive Ground (fold_left (fun t c => moved c t) cursors t) r.
Proof.
  induction 1 as [|c cursors H HF IH]; intros t r; [reflexivity|]. cbn [map concat fold_left]. unfold cursor_bytes at 1. rewrite <- !app_assoc.
  change (receive Ground t ([27; 91] ++ number_text (m_distance c) ++ [direction_letter (m_direction c)] ++ concat (map cursor_bytes cursors) ++ r)) with
    (receive (Parameters [] 0) t (number_text (m_distance c) ++ direction_letter (m_direction c) :: concat (map cursor_bytes cursors) ++ r)).
  destruct (number_text_digits (m_distance c) ltac:(lia)) as (H1 & H2). rewrite receive_digits, H2 by assumption. unfold moved. destruct (m_direction c); cbn [direction_letter receive]; apply IH.
Qed.

(** ** One styler *)
Definition styles_of (ms : list modifier) : list style := m_styles (make_styler ms).
Definition colors_of (ms : list modifier) : list color := m_colors (make_styler ms).
Definition cursors_of (ms : list modifier) : list cursor := m_cursors (make_styler ms).
Lemma fold_styles ms : forall a, fold_left (fun a m => match m with MStyle s => styled s a | _ => a end) ms a = fold_left (fun a s => styled s a) (styles_of ms) a.
Proof. unfold styles_of. induction ms as [|m ms IH]; intros a; [reflexivity|]. destruct m; cbn [make_styler m_styles fold_left]; apply IH. Qed.
Lemma fold_colors ms : forall a, fold_left (fun a m => match m with MColor c => colored c a | _ => a end) ms a = fold_left (fun a c => colored c a) (colors_of ms) a.
Proof. unfold colors_of. induction ms as [|m ms IH]; intros a; [reflexivity|]. destruct m; cbn [make_styler m_colors fold_left]; apply IH. Qed.
Lemma fold_cursors ms : forall t, fold_left (fun t m => match m with MCursor c => moved c t | _ => t end) ms t = fold_left (fun t c => moved c t) (cursors_of ms) t.
Proof. unfold cursors_of. induction ms as [|m ms IH]; intros a; [reflexivity|]. destruct m; cbn [make_styler m_cursors fold_left]; apply IH. Qed.
Lemma colors_ok ms : Forall modifier_ok ms -> Forall (fun c => 0 <= m_color c < 256) (colors_of ms).
Proof. unfold colors_of. induction 1 as [|m ms H HF IH]; [constructor|]. destruct m; cbn [make_styler m_colors]; auto. Qed.
Lemma cursors_ok ms : Forall modifier_ok ms -> Forall (fun c => 0 < m_distance c < 256) (cursors_of ms).
Proof. unfold cursors_of. induction 1 as [|m ms H HF IH]; [constructor|]. destruct m; cbn [make_styler m_cursors]; auto. Qed.
Lemma make_styler_proxy ms : m_proxy (make_styler ms) = None.
Proof. induction ms as [|m ms IH]; [reflexivity|]. destruct m; exact IH. Qed.
Lemma has_attributes_stacks ms : has_attributes ms = negb (match styles_of ms, colors_of ms with [], [] => true | _, _ => false end).
Proof.
  unfold styles_of, colors_of, has_attributes. induction ms as [|m ms IH]; [reflexivity|]. destruct m; cbn [existsb make_styler m_styles m_colors orb negb]; [reflexivity| |exact IH]. now destruct (m_styles (make_styler ms)).
Qed.
Lemma items_ok styles colors : Forall (fun c => 0 <= m_color c < 256) colors -> Forall2 item (all_items styles colors) (map (fun s => [style_number s]) styles ++ map color_parameters colors).
Proof.
  intros H. unfold all_items. apply Forall2_app.
  - induction styles as [|s styles IH]; cbn [map]; constructor; [apply style_item|exact IH].
  - induction H; cbn [map]; constructor; [now apply color_item|assumption].
Qed.
Lemma set_same w s o : set_stream w s o s = o.
Proof. unfold set_stream. destruct s; cbn [stream_eq]; [reflexivity|reflexivity|]. now rewrite Nat.eqb_refl. Qed.
Lemma set_other w s o s' : s' <> s -> set_stream w s o s' = w s'.
Proof. intros H. unfold set_stream. destruct s' as [| |a], s as [| |b]; cbn [stream_eq]; try reflexivity; try congruence. destruct (Nat.eqb_spec a b); [congruence|reflexivity]. Qed.

(** The bytes a styler adds. *)
Definition styler_bytes (ms : list modifier) : list Z :=
  (if has_attributes ms then [27; 91] ++ items_bytes true (all_items (styles_of ms) (colors_of ms)) ++ [109] else []) ++ concat (map cursor_bytes (cursors_of ms)).
Lemma styler_streamed w s ms w' x : is_terminal s = true -> plain_stream (w s) -> stream_styler w s (make_styler ms) = (w', x) ->
  w' s = grown (w s) (styler_bytes ms) /\ (forall s', s' <> s -> w' s' = w s') /\ x = Styler [] [] [] (Some (s, has_attributes ms)).
Proof.
  intros HT HP E. unfold stream_styler in E. rewrite HT, make_styler_proxy in E. cbn [end_proxy] in E. fold (styles_of ms) (colors_of ms) (cursors_of ms) in E. rewrite <- has_attributes_stacks in E.
  assert (E1 : w' = set_stream w s (apply_cursors (if has_attributes ms then apply_styles_and_colors (w s) (styles_of ms) (colors_of ms) else w s) (cursors_of ms))) by congruence.
  split; [|split; [|congruence]].
  - rewrite E1, set_same. unfold styler_bytes. destruct (has_attributes ms).
    + rewrite apply_grown by assumption. now rewrite apply_cursors_grown.
    + rewrite <- (grown_nil (w s) HP) at 1. now rewrite apply_cursors_grown.
  - intros s' HN. rewrite E1. now apply set_other.
Qed.
Lemma receive_styler ms t r : Forall modifier_ok ms -> receive Ground t (styler_bytes ms ++ r) = receive Ground (asked ms t) r.
Proof.
  intros HF. unfold styler_bytes, asked. rewrite fold_styles, fold_colors, fold_cursors. pose proof (colors_ok ms HF) as HC. pose proof (cursors_ok ms HF) as HM.
  rewrite <- app_assoc. destruct (has_attributes ms) eqn:E.
  - rewrite <- !app_assoc. cbn [app]. change (27 :: 91 :: ?x) with ([27; 91] ++ x). rewrite (receive_items _ _ t (concat (map cursor_bytes (cursors_of ms)) ++ r) (items_ok (styles_of ms) (colors_of ms) HC)).
    + rewrite sgr_all by assumption. now rewrite receive_cursors.
    + rewrite has_attributes_stacks in E. unfold all_items. destruct (styles_of ms); [|discriminate]. destruct (colors_of ms); [discriminate|discriminate].
  - cbn [app]. rewrite receive_cursors by assumption. rewrite has_attributes_stacks in E. apply negb_false_iff in E. destruct (styles_of ms); [|discriminate]. destruct (colors_of ms); [|discriminate]. now destruct t.
Qed.
Lemma receive_text text : forall t r, no_escape text -> receive Ground t (text ++ r) = receive Ground (then_text text t) r.
Proof.
  induction text as [|c text IH]; intros t r H.
  - unfold then_text, shown_with. cbn [map app]. rewrite app_nil_r. now destruct t.
  - cbn [app receive]. destruct (Z.eqb_spec c 27) as [->|HN]; [exfalso; apply H; now left|]. rewrite IH by (intros HI; apply H; now right). unfold then_text, show, shown_with. cbn [attr down right_ cells map]. now rewrite <- app_assoc.
Qed.
Lemma asked_attributes ms t : has_attributes ms = false -> attr (asked ms t) = attr t.
Proof.
  intros E. unfold asked. rewrite fold_styles, fold_colors, fold_cursors. rewrite has_attributes_stacks in E. apply negb_false_iff in E. destruct (styles_of ms); [|discriminate]. destruct (colors_of ms); [|discriminate]. cbn [fold_left].
  assert (G : forall cs u, attr (fold_left (fun t c => moved c t) cs u) = attr u). { induction cs as [|c cs IH]; intros u; [reflexivity|]. cbn [fold_left]. rewrite IH. unfold moved. now destruct (m_direction c). } now rewrite G.
Qed.
Lemma asked_cells ms t : cells (asked ms t) = cells t.
Proof.
  unfold asked. rewrite fold_cursors. assert (G : forall cs u, cells (fold_left (fun t c => moved c t) cs u) = cells u). { induction cs as [|c cs IH]; intros u; [reflexivity|]. cbn [fold_left]. rewrite IH. unfold moved. now destruct (m_direction c). } now rewrite G.
Qed.

(** Streaming a styler to standard output or standard error makes a terminal do what the modifiers ask, and nothing else. *)
Theorem styler_applied : forall w s ms w' x, is_terminal s = true -> plain_stream (w s) -> Forall modifier_ok ms -> stream_styler w s (make_styler ms) = (w', x) ->
  exists bytes, added (w s) (w' s) bytes /\ plain_stream (w' s) /\ (forall s', s' <> s -> w' s' = w s') /\ forall t, receive Ground t bytes = (Ground, asked ms t).
Proof.
  intros w s ms w' x HT HP HF E. destruct (styler_streamed w s ms w' x HT HP E) as (E1 & E2 & _). exists (styler_bytes ms). split; [unfold added; rewrite E1; reflexivity|]. split; [rewrite E1; apply grown_plain|]. split; [exact E2|].
  intros t. rewrite <- (app_nil_r (styler_bytes ms)). rewrite receive_styler by assumption. reflexivity.
Qed.
Lemma scope_bytes w s ms text : is_terminal s = true -> plain_stream (w s) ->
  styler_scope w s ms text s = grown (w s) (styler_bytes ms ++ text ++ if has_attributes ms then [27; 91; 48; 109] else []) /\ (forall s', s' <> s -> styler_scope w s ms text s' = w s').
Proof.
  intros HT HP. unfold styler_scope. destruct (stream_styler w s (make_styler ms)) as (w' & x) eqn:E. destruct (styler_streamed w s ms w' x HT HP E) as (E1 & E2 & ->).
  unfold destroy_styler. cbn [m_proxy end_proxy]. rewrite E1, insert_plain by apply grown_plain. rewrite grown_grown. destruct (has_attributes ms).
  - split; [|intros s' HN; rewrite !set_other by assumption; auto]. rewrite !set_same. rewrite insert_plain by apply grown_plain. rewrite grown_grown. now rewrite <- app_assoc.
  - split; [|intros s' HN; rewrite !set_other by assumption; auto]. rewrite set_same. now rewrite app_nil_r.
Qed.
(** Streaming a styler and a text and ending the styler's life shows the text with the attributes asked for; afterwards the
    terminal is back to normal if it was normal before. *)
Theorem styler_scoped : forall w s ms text, is_terminal s = true -> plain_stream (w s) -> Forall modifier_ok ms -> no_escape text ->
  let w' := styler_scope w s ms text in
  (forall s', s' <> s -> w' s' = w s') /\ plain_stream (w' s) /\ exists bytes, added (w s) (w' s) bytes /\
  forall t, attr t = normal -> receive Ground t bytes = (Ground, Terminal normal (down (asked ms t)) (right_ (asked ms t)) (cells t ++ shown_with text (attr (asked ms t)))).
Proof.
  intros w s ms text HT HP HF HE w'. destruct (scope_bytes w s ms text HT HP) as (E1 & E2). split; [exact E2|]. unfold w'. rewrite E1. split; [apply grown_plain|]. eexists. split; [reflexivity|]. intros t HA.
  rewrite receive_styler by assumption. rewrite receive_text by assumption. rewrite <- (asked_cells ms t). unfold then_text. destruct (has_attributes ms) eqn:EA; [reflexivity|]. cbn [receive]. rewrite <- HA, <- (asked_attributes ms t EA). reflexivity.
Qed.
(** On any other stream nothing is written and the styler keeps its modifiers. *)
Theorem other_streams_plain : forall w n ms, stream_styler w (Other n) (make_styler ms) = (w, Styler (styles_of ms) (colors_of ms) (cursors_of ms) (Some (Other n, false))) /\
  destroy_styler w (snd (stream_styler w (Other n) (make_styler ms))) = w.
Proof. intros w n ms. unfold stream_styler. cbn [is_terminal]. rewrite make_styler_proxy. split; reflexivity. Qed.
(** A later color of a plane replaces an earlier one; movement of at least 1. *)
Theorem last_color_wins : forall ms c t, let a := attr (asked (ms ++ [MColor c]) t) in match m_plane c with Foreground => fore a = Some (m_color c) | Background => back a = Some (m_color c) end.
Proof.
  intros ms c t. unfold asked. rewrite !fold_left_app. cbn [fold_left].
  assert (G : forall l u, attr (fold_left (fun t m => match m with MCursor c => moved c t | _ => t end) l u) = attr u). { induction l as [|m l IH]; intros u; [reflexivity|]. cbn [fold_left]. rewrite IH. destruct m as [| |k]; [reflexivity..|]. unfold moved. now destruct (m_direction k). }
  rewrite G. cbn [with_attr attr]. unfold colored. now destruct (m_plane c).
Qed.
Theorem cursor_moves : forall d distance, 0 <= distance < 256 -> modifier_ok (MCursor (make_cursor d distance)) /\ m_distance (make_cursor d distance) = Z.max 1 distance /\ m_direction (make_cursor d distance) = d.
Proof. intros d n H. unfold make_cursor. cbn [modifier_ok m_distance m_direction]. destruct (Z.gtb_spec n 0); repeat split; lia. Qed.

(** ** The console sink *)
Theorem console_line : forall w l header message, plain_stream (w (level_stream l)) -> no_escape header -> no_escape message ->
  let w' := console_log w l header message in
  (forall s', s' <> level_stream l -> w' s' = w s') /\ plain_stream (w' (level_stream l)) /\ exists bytes, added (w (level_stream l)) (w' (level_stream l)) bytes /\
  forall t, attr t = normal -> receive Ground t bytes = (Ground, Terminal normal (down t) (right_ t) (cells t ++ shown_with header (level_attributes l) ++ shown_with ([58; 32] ++ message ++ [10]) normal)).
Proof.
  intros w l header message HP HH HM. assert (ES : level_stream l = console_stream l) by (now destruct l). rewrite ES in *. clear ES. set (s := console_stream l) in *. assert (HT : is_terminal s = true) by (now destruct l).
  assert (HF : Forall modifier_ok (console_modifiers l)). { destruct l; repeat apply Forall_cons; try apply Forall_nil; cbn [modifier_ok m_color]; try exact I; lia. }
  assert (EW : console_log w l header message = set_stream (styler_scope w s (console_modifiers l) header) s (insert_text (insert_text (insert_text (styler_scope w s (console_modifiers l) header s) [58; 32]) message) [10])).
  { unfold console_log, styler_scope. fold s. now destruct (stream_styler w s (make_styler (console_modifiers l))). }
  cbv zeta. rewrite EW. destruct (scope_bytes w s (console_modifiers l) header HT HP) as (E1 & E2). rewrite E1. rewrite !insert_plain by (apply grown_plain || (rewrite ?insert_plain by apply grown_plain; apply grown_plain)). rewrite !grown_grown.
  split; [intros s' HN; rewrite set_other by assumption; auto|]. rewrite set_same. split; [apply grown_plain|]. eexists. split; [reflexivity|]. intros t HA.
  rewrite <- !app_assoc. rewrite receive_styler by assumption. rewrite receive_text by assumption. assert (EA : has_attributes (console_modifiers l) = true) by (now destruct l). rewrite EA.
  change (receive Ground ?u ([27; 91; 48; 109] ++ ?r)) with (receive Ground (with_attr u normal) r). change ([58; 32] ++ message ++ [10]) with (58 :: 32 :: message ++ [10]).
  assert (HN : no_escape (58 :: 32 :: message ++ [10])). { intros [G|[G|G]]; [discriminate G|discriminate G|]. apply in_app_or in G. destruct G as [G|[G|[]]]; [now apply HM|discriminate G]. }
  rewrite <- (app_nil_r (58 :: 32 :: message ++ [10])). cbn [app]. change (58 :: 32 :: (message ++ [10]) ++ []) with ((58 :: 32 :: message ++ [10]) ++ []). rewrite receive_text by assumption. cbn [receive]. f_equal.
  destruct t as [a d r cs]. cbn [attr] in HA. subst a. unfold then_text. cbn [with_attr attr down right_ cells]. rewrite app_nil_r. destruct l; cbn [asked console_modifiers fold_left attr with_attr down right_ cells level_attributes styled colored m_plane m_color]; now rewrite <- app_assoc.
Qed.

(** ** What is false *)
(** A styler does not restore what was before it: when an inner styler ends, the text of the outer one is shown without any
    attribute, although the outer styler still lives. *)
Theorem nested_refuted : forall w s outer inner text rest, is_terminal s = true -> plain_stream (w s) -> Forall modifier_ok outer -> Forall modifier_ok inner -> no_escape text -> no_escape rest ->
  has_attributes inner = true ->
  let w1 := fst (stream_styler w s (make_styler outer)) in
  let w2 := styler_scope w1 s inner text in
  exists bytes, added (w s) (insert_text (w2 s) rest) bytes /\ forall t, exists t', receive Ground t bytes = (Ground, t') /\ cells t' = cells t ++ shown_with text (attr (asked inner (asked outer t))) ++ shown_with rest normal.
Proof.
  intros w s outer inner text rest HT HP HO HI HE HR HA w1 w2. destruct (stream_styler w s (make_styler outer)) as (w1' & x) eqn:E. destruct (styler_streamed w s outer w1' x HT HP E) as (E1 & _ & _). cbn [fst] in w1. subst w1.
  assert (HP1 : plain_stream (w1' s)) by (rewrite E1; apply grown_plain). destruct (scope_bytes w1' s inner text HT HP1) as (E2 & _). unfold w2. rewrite E2, HA, E1, grown_grown. rewrite insert_plain by apply grown_plain. rewrite grown_grown.
  eexists. split; [reflexivity|]. intros t. rewrite <- !app_assoc. rewrite !receive_styler by assumption. rewrite receive_text by assumption.
  change (receive Ground ?u ([27; 91; 48; 109] ++ ?r)) with (receive Ground (with_attr u normal) r). rewrite <- (app_nil_r rest). rewrite receive_text by assumption. eexists. split; [reflexivity|]. rewrite app_nil_r.
  cbn [then_text with_attr cells attr]. rewrite !asked_cells. now rewrite <- app_assoc.
Qed.
(** Streaming the same styler a second time does not style but ends the styling. *)
Theorem restream_refuted : forall w s ms, is_terminal s = true -> plain_stream (w s) -> has_attributes ms = true ->
  let '(w1, x1) := stream_styler w s (make_styler ms) in
  let '(w2, _) := stream_styler w1 s x1 in
  exists bytes, added (w1 s) (w2 s) bytes /\ forall t, receive Ground t bytes = (Ground, with_attr t normal).
Proof.
  intros w s ms HT HP HA. destruct (stream_styler w s (make_styler ms)) as (w1 & x1) eqn:E. destruct (styler_streamed w s ms w1 x1 HT HP E) as (E1 & _ & ->). unfold stream_styler. rewrite HT, HA. cbn [m_styles m_colors m_cursors m_proxy negb apply_cursors fold_left end_proxy].
  exists [27; 91; 48; 109]. rewrite !set_same. split; [|intros t; reflexivity]. unfold added. rewrite E1, insert_plain by apply grown_plain. reflexivity.
Qed.
(** A stream that shows numbers in hexadecimal garbles colors: the color is not set and a part of the sequence is shown. *)
Theorem hexadecimal_refuted : forall w s n, is_terminal s = true -> m_base (w s) = 16 -> m_width (w s) = 0%nat -> 160 <= n < 256 ->
  exists bytes, added (w s) (fst (stream_styler w s (make_styler [MColor (Color n Foreground)])) s) bytes /\
  forall t, exists t', receive Ground t bytes = (Ground, t') /\ attr t' = attr t /\ length (cells t') = S (S (length (cells t))).
Proof.
  intros w s n HT HB HW HN. unfold stream_styler. rewrite HT. cbn [make_styler m_styles m_colors m_cursors m_proxy negb end_proxy fst apply_cursors fold_left]. rewrite set_same.
  unfold apply_styles_and_colors. cbn [stream_styles stream_colors]. unfold stream_color. cbn [m_color m_plane]. destruct (Z.leb_spec n 7); [lia|].
  unfold insert_number, insert_text, added. cbn [m_bytes m_base m_width m_fillchar Nat.sub repeat app]. rewrite HB, HW. cbn [Nat.sub repeat app].
  assert (G : forallb (fun n => (n <? 160) || match value_or (to_chars 64 n 16 []) [] with [a; b] => negb (digit a) && negb (a =? 59) && negb (a =? 109) && negb (a =? 65) && negb (a =? 66) && negb (a =? 67) && negb (a =? 68) && negb (b =? 27) | _ => false end) bytes_upto = true) by (vm_compute; reflexivity).
  rewrite forallb_forall in G. specialize (G n (in_bytes_upto n ltac:(lia))). destruct (Z.ltb_spec n 160); [lia|]. cbn [orb] in G. destruct (value_or (to_chars 64 n 16 []) []) as [|a [|b [|]]]; try discriminate G.
  repeat (apply andb_prop in G; let H := fresh "N" in destruct G as (G & H); apply negb_true_iff in H). apply negb_true_iff in G. unfold digit in G.
  exists ([27; 91; 51; 56; 59; 53; 59] ++ [a; b; 109]). split; [rewrite <- !app_assoc; reflexivity|]. intros t. eexists. split.
  - change (receive Ground t ([27; 91; 51; 56; 59; 53; 59] ++ [a; b; 109])) with (receive (Parameters [38; 5] 0) t [a; b; 109]). cbn [receive]. rewrite G, N, N0, N1, N2, N3, N4, N5. change (109 =? 27) with false. cbn iota. reflexivity.
  - cbn [show attr cells]. split; [reflexivity|]. rewrite !app_length. cbn [length]. lia.
Qed.
(** The console sink passes escape sequences in messages on to the terminal: a message can change all later lines. *)
Theorem console_escape_refuted : forall w l header, plain_stream (w (level_stream l)) -> no_escape header -> exists message bytes,
  added (w (level_stream l)) (console_log w l header message (level_stream l)) bytes /\ forall t, attr t = normal -> exists t', receive Ground t bytes = (Ground, t') /\ attr t' = set_fore normal 1.
Proof.
  intros w l header HP HH. assert (ES : level_stream l = console_stream l) by (now destruct l). rewrite ES in *. clear ES. set (s := console_stream l) in *. assert (HT : is_terminal s = true) by (now destruct l). exists [27; 91; 51; 49; 109].
  assert (HF : Forall modifier_ok (console_modifiers l)). { destruct l; repeat apply Forall_cons; try apply Forall_nil; cbn [modifier_ok m_color]; try exact I; lia. }
  assert (EW : forall m, console_log w l header m = set_stream (styler_scope w s (console_modifiers l) header) s (insert_text (insert_text (insert_text (styler_scope w s (console_modifiers l) header s) [58; 32]) m) [10])).
  { intros m. unfold console_log, styler_scope. fold s. now destruct (stream_styler w s (make_styler (console_modifiers l))). }
  rewrite EW, set_same. destruct (scope_bytes w s (console_modifiers l) header HT HP) as (E1 & E2). rewrite E1. rewrite !insert_plain by (apply grown_plain || (rewrite ?insert_plain by apply grown_plain; apply grown_plain)). rewrite !grown_grown.
  eexists. split; [reflexivity|]. intros t HA. rewrite <- !app_assoc. rewrite receive_styler by assumption. rewrite receive_text by assumption. assert (EA : has_attributes (console_modifiers l) = true) by (now destruct l). rewrite EA.
  change (receive Ground ?u ([27; 91; 48; 109] ++ ?r)) with (receive Ground (with_attr u normal) r). eexists. split; [reflexivity|]. reflexivity.
Qed.

(** ** Examples *)
Definition blank : world := fun _ => Ostream [] 10 0 32.
Definition clear : terminal := Terminal normal 0 0 [].
(** Bold red "hi" *)
Example styler_run : m_bytes (styler_scope blank Cout [MStyle SBold; MColor (Color 1 Foreground); MColor (Color 200 Background); MCursor (make_cursor Up 0)] [104; 105] Cout) =
  [27; 91; 49; 59; 51; 49; 59; 52; 56; 59; 53; 59; 50; 48; 48; 109; 27; 91; 49; 65; 104; 105; 27; 91; 48; 109].
Proof. vm_compute. reflexivity. Qed.
Example styler_hypotheses : is_terminal Cout = true /\ plain_stream (blank Cout) /\ Forall modifier_ok [MStyle SBold; MColor (Color 200 Background); MCursor (make_cursor Up 0)] /\ no_escape [104; 105] /\ has_attributes [MStyle SBold] = true.
Proof. split; [reflexivity|]. split; [split; reflexivity|]. split; [repeat apply Forall_cons; try apply Forall_nil; cbn; try exact I; lia|]. split; [intros [H|[H|[]]]; discriminate H|reflexivity]. Qed.
Example console_run : snd (receive Ground clear (m_bytes (console_log blank LError [91; 93] [120] Cerr))) =
  Terminal normal 0 0 [(91, level_attributes LError); (93, level_attributes LError); (58, normal); (32, normal); (120, normal); (10, normal)].
Proof. vm_compute. reflexivity. Qed.
