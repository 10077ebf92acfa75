(** * Colors never change the layout (C81) *)
From Verif Require Import Base L_Base M_Style M_Fit M_Wrap M_TblFit M_Text M_Fitter M_View M_Render M_Area S_Layout Demo.
Set Implicit Arguments.
Open Scope nat_scope.

(** ** Formatting uses only the indentation mode and the margins *)

Section Formatting.
  Context (u : unicode) (k k' : MadSkin) (I : indent_mode k = indent_mode k').
  Lemma visible_composite_length_shape kind cs : visible_composite_length u k kind cs = visible_composite_length u k' kind cs.
  Proof using I. unfold visible_composite_length. rewrite I. reflexivity. Qed.
  Lemma fc_from_shape c : fc_from u k c = fc_from u k' c.
  Proof using I. unfold fc_from. rewrite visible_composite_length_shape. reflexivity. Qed.
  Lemma line_from_shape l : line_from u k l = line_from u k' l.
  Proof using I. destruct l; cbn [line_from]; rewrite ?fc_from_shape; try reflexivity. f_equal. apply map_ext, fc_from_shape. Qed.
  Lemma wrap_tokens_shape w : forall ts dst, wrap_tokens u k w ts dst = wrap_tokens u k' w ts dst.
  Proof using I.
    induction ts as [|t ts IH]; intros dst; cbn [wrap_tokens]; [reflexivity|]. unfold follow_up_composite. rewrite I. destruct (_ <? _); [destruct (negb _)|];
    try (destruct (to_compound t); cbn [bind]; [|reflexivity..]); rewrite ?IH; reflexivity.
  Qed.
  Lemma hard_wrap_composite_shape fc w : hard_wrap_composite u k fc w = hard_wrap_composite u k' fc w.
  Proof using I.
    assert (C : composite_kind_widths k (fc_kind fc) = composite_kind_widths k' (fc_kind fc)) by (unfold composite_kind_widths; rewrite I; reflexivity).
    assert (F : forall c, follow_up_composite k c = follow_up_composite k' c) by (intros c; unfold follow_up_composite; rewrite I; reflexivity).
    unfold hard_wrap_composite. rewrite C. destruct (w <? 3); [reflexivity|]. destruct (_ <=? w); [reflexivity|].
    destruct (composite_kind_widths k' (fc_kind fc)) as (a & b). cbv zeta. destruct (clean_cut _ _ _ _ _) as [(x & y)|]; [rewrite F; reflexivity|].
    destruct (csub w a); cbn [bind]; [|reflexivity..]. rewrite wrap_tokens_shape. reflexivity.
  Qed.
  Lemma wrap_cells_shape ws : forall ics cells to_add, wrap_cells u k ws cells to_add ics = wrap_cells u k' ws cells to_add ics.
  Proof using I.
    induction ics as [|ic r IH]; intros cells to_add; cbn [wrap_cells]; [reflexivity|]. destruct (_ <=? _); [apply IH|].
    destruct (idx cells ic); cbn [bind]; [|reflexivity..]. destruct (idx ws ic); cbn [bind]; [|reflexivity..]. destruct (_ <? _); [|apply IH].
    rewrite hard_wrap_composite_shape. destruct (hard_wrap_composite _ _ _ _) as [[[|x y]|]| |]; cbn [bind]; try reflexivity.
    destruct (idx _ ic); cbn [bind]; [apply IH|reflexivity..].
  Qed.
  Lemma wrap_rows_shape ws nb start : forall n lines h, wrap_rows u k ws nb start n lines h = wrap_rows u k' ws nb start n lines h.
  Proof using I.
    induction n as [|n IH]; intros lines h; cbn [wrap_rows]; [reflexivity|]. destruct (idx lines _) as [[]| |]; cbn [bind]; try apply IH; try reflexivity.
    rewrite wrap_cells_shape. destruct (wrap_cells _ _ _ _ _ _) as [(c & t)| |]; cbn [bind]; try reflexivity.
    destruct (insert_rows _ _ _ _ _ _) as [(l & h')| |]; cbn [bind]; [apply IH|reflexivity..].
  Qed.
  Lemma fix_columns_shape t lines w : fix_columns u k t lines w = fix_columns u k' t lines w.
  Proof using I.
    unfold fix_columns. destruct (_ || _)%bool; [reflexivity|]. destruct (tf_new _ _) as [o| |]; cbn [bind]; [|reflexivity..].
    match goal with |- bind ?m _ = bind ?m _ => destruct m as [(((l & n) & ws) & rm)| |]; cbn [bind]; [|reflexivity..] end.
    rewrite wrap_rows_shape. reflexivity.
  Qed.
  Lemma fix_all_tables_shape lines w : fix_all_tables u k lines w = fix_all_tables u k' lines w.
  Proof using I.
    unfold fix_all_tables. generalize (Ret lines : outcome (list FmtLine)). induction (rev (find_tables lines)) as [|t l IH]; intros o; cbn [fold_left]; [reflexivity|].
    rewrite IH. f_equal. destruct o; cbn [bind]; [apply fix_columns_shape|reflexivity..].
  Qed.
  Lemma fill_width_shape fc w a : fill_width u fc w a k = fill_width u fc w a k'.
  Proof using I.
    unfold fill_width, fit_width, fit. destruct (_ <=? _); [reflexivity|]. destruct (w =? 0); [reflexivity|]. destruct (w =? 1); [reflexivity|].
    match goal with |- bind (bind ?m _) _ = _ => destruct m as [(cs & e)| |]; cbn [bind]; [|reflexivity..] end.
    match goal with |- bind (bind ?m _) _ = _ => destruct m as [(cs' & e')| |]; cbn [bind]; [|reflexivity..] end.
    assert (R : forall c, recompute_width u k c = recompute_width u k' c) by (intros c; unfold recompute_width; rewrite visible_composite_length_shape; reflexivity).
    destruct (e' =? 0); [rewrite R; reflexivity|]. destruct (excesses _ _) as (el & er).
    match goal with |- bind (bind ?m _) _ = _ => destruct m as [c1| |]; cbn [bind]; [|reflexivity..] end.
    match goal with |- bind (bind ?m _) _ = _ => destruct m as [c2| |]; cbn [bind]; [|reflexivity..] end. rewrite R. reflexivity.
  Qed.
End Formatting.

Definition rel_out {A} (R : A -> A -> Prop) (o o' : outcome A) : Prop :=
  match o, o' with Ret a, Ret b => R a b | Panic, Panic => True | OutOfFuel, OutOfFuel => True | _, _ => False end.
Lemma line_style_shape k k' kind : same_shape k k' -> rel_out same_line (line_style k kind) (line_style k' kind).
Proof.
  intros H. unfold line_style. destruct kind; try apply (sh_paragraph H); try apply (sh_code_block H).
  destruct (_ <=? _); [|apply (sh_paragraph H)]. unfold csub. destruct (_ <=? _); cbn [bind]; [|exact I].
  unfold idx. generalize (level - 1). pose proof (sh_headers H) as F. revert F. generalize (headers k) (headers k'). intros a b F.
  induction F as [|x y a b X F IH]; intros [|n]; cbn; auto.
Qed.
Lemma margins_shape l l' w : same_line l l' -> margins_in l w = margins_in l' w.
Proof. intros (_ & A & B). unfold margins_in. rewrite A, B. reflexivity. Qed.
Lemma hard_wrap_lines_shape u k k' w : same_shape k k' -> forall lines, hard_wrap_lines u k lines w = hard_wrap_lines u k' lines w.
Proof.
  intros H. induction lines as [|l r IH]; cbn [hard_wrap_lines]; [reflexivity|]. rewrite IH. destruct l; try reflexivity.
  pose proof (line_style_shape (fc_kind fc) H) as L. destruct (line_style k (fc_kind fc)), (line_style k' (fc_kind fc)); cbn in L; try contradiction; cbn [bind]; try reflexivity.
  rewrite (margins_shape (Some w) L). destruct (margins_in _ _) as (lm & rm). destruct (_ <=? _); [reflexivity|].
  destruct (csub w lm) as [w0| |]; cbn [bind]; try reflexivity. destruct (csub w0 rm) as [w1| |]; cbn [bind]; try reflexivity.
  rewrite (@hard_wrap_composite_shape u k k' (sh_indent H)). reflexivity.
Qed.
(** The formatted text is the same *)
Theorem C81_formatted : forall u k k' usize_max text width, same_shape k k' -> from_text u k usize_max text width = from_text u k' usize_max text width.
Proof.
  intros u k k' um text width H. unfold from_text. rewrite (map_ext _ _ (@line_from_shape u k k' (sh_indent H))), (@fix_all_tables_shape u k k' (sh_indent H)).
  destruct (fix_all_tables _ _ _ _); cbn [bind]; try reflexivity. destruct width; [|reflexivity]. destruct (_ <=? _); [|reflexivity]. rewrite (hard_wrap_lines_shape u n H). reflexivity.
Qed.
Print Assumptions C81_formatted.

(** ** Rendering *)

Definition same_layout (a b : list cmd) : Prop := flat_map bare a = flat_map bare b.
Lemma layout_rel o o' : rel_out same_layout o o' -> layout o = layout o'.
Proof. destruct o, o'; cbn; intros H; try contradiction; congruence. Qed.
Lemma sl_app a a' b b' : same_layout a a' -> same_layout b b' -> same_layout (a ++ b) (a' ++ b').
Proof. unfold same_layout. intros A B. rewrite !flat_map_app, A, B. reflexivity. Qed.
Lemma sl_refl a : same_layout a a.
Proof. reflexivity. Qed.
Lemma sl_styled cs cs' s : same_layout [Styled cs s] [Styled cs' s].
Proof. reflexivity. Qed.
Lemma sl_sc s s' : same_char s s' -> same_layout (sc_queue s) (sc_queue s').
Proof. intros (_ & E). unfold sc_queue. rewrite E. reflexivity. Qed.
Lemma sl_repeat_char cs cs' c n : same_layout (cs_repeat_char cs c n) (cs_repeat_char cs' c n).
Proof. unfold cs_repeat_char. destruct (0 <? n); reflexivity. Qed.
Lemma sl_repeat_space cs cs' n : same_layout (cs_repeat_space cs n) (cs_repeat_space cs' n).
Proof. unfold cs_repeat_space, cs_repeat_string. destruct (0 <? n); reflexivity. Qed.
Lemma sl_repeat a a' n : same_layout a a' -> same_layout (concat (repeat a n)) (concat (repeat a' n)).
Proof. intros H. induction n; cbn [repeat concat]; [reflexivity|apply sl_app; assumption]. Qed.
Lemma rel_bind {A B} (R : A -> A -> Prop) (S : B -> B -> Prop) m m' f f' : rel_out R m m' -> (forall a a', R a a' -> rel_out S (f a) (f' a')) -> rel_out S (bind m f) (bind m' f').
Proof. destruct m, m'; cbn; intros H F; try contradiction; auto. Qed.

Section Rendering.
  Context (special special' : Special) (k k' : MadSkin) (H : same_shape k k') (HS : same_specials special special').
  Lemma mark_shape kind : same_layout (composite_mark k kind) (composite_mark k' kind).
  Proof using H.
    unfold composite_mark, cs_queue. rewrite (sh_indent H). destruct kind; destruct (indent_mode k'); cbn [app]; try reflexivity;
      repeat (apply sl_app || apply sl_repeat || apply sl_styled || apply sl_sc || apply (sh_bullet H) || apply (sh_quote_mark H) || apply sl_refl).
  Qed.
  Lemma compounds_shape ls ls' cs : same_layout (flat_map (compound_out special k ls) cs) (flat_map (compound_out special' k' ls') cs).
  Proof using HS.
    induction cs as [|c cs IH]; [reflexivity|]. cbn [flat_map]. apply sl_app; [|exact IH]. unfold compound_out. pose proof (HS c) as X.
    destruct (special c), (special' c); try contradiction; [apply sl_sc, X|reflexivity].
  Qed.
  Lemma write_fmt_composite_shape fc w r m : rel_out same_layout (write_fmt_composite special k fc w r m) (write_fmt_composite special' k' fc w r m).
  Proof using H HS.
    unfold write_fmt_composite. eapply rel_bind; [apply line_style_shape, H|]. intros l l' L.
    replace (mark_overflow k' (fc_kind fc)) with (mark_overflow k (fc_kind fc)) by (unfold mark_overflow; rewrite (sh_indent H); reflexivity).
    destruct (mark_overflow k (fc_kind fc)) as [[]| |]; cbn [bind rel_out]; auto. rewrite (margins_shape w L). destruct L as (A & _).
    destruct (if m then _ else _) as (lm & rm). destruct (fc_completions fc) as (lpi & rpi). rewrite A. destruct (optional_completions _ _ _) as (lpo & rpo).
    cbn [rel_out]. unfold ls_repeat_space. apply sl_app; [apply sl_repeat_char|]. apply sl_app; [apply sl_repeat_space|]. apply sl_app; [apply mark_shape|].
    apply sl_app; [apply compounds_shape|]. apply sl_app; [apply sl_repeat_space|]. destruct r; [apply sl_repeat_char|reflexivity].
  Qed.
  Lemma write_cells_shape : forall cells, rel_out same_layout (write_cells special k cells) (write_cells special' k' cells).
  Proof using H HS.
    induction cells as [|c r IH]; [reflexivity|]. cbn [write_cells]. eapply rel_bind; [apply write_fmt_composite_shape|]. intros a a' A.
    eapply rel_bind; [exact IH|]. intros b b' B. cbn [rel_out]. rewrite (sh_border H). apply sl_app; [reflexivity|]. apply sl_app; assumption.
  Qed.
  Lemma rule_cells_shape p : forall ws b, same_layout (rule_cells k p b ws) (rule_cells k' p b ws).
  Proof using H.
    induction ws as [|w r IH]; intros b; cbn [rule_cells]; [reflexivity|]. rewrite (sh_border H). apply sl_app; [destruct b; reflexivity|]. apply sl_app; [apply sl_repeat_char|apply IH].
  Qed.
  Lemma write_fmt_line_shape line w r : rel_out same_layout (write_fmt_line special k line w r) (write_fmt_line special' k' line w r).
  Proof using H HS.
    assert (C : forall n, same_layout (if r then ls_repeat_space (paragraph k) n else []) (if r then ls_repeat_space (paragraph k') n else [])) by (intros n; destruct r; [apply sl_repeat_char|reflexivity]).
    destruct line as [fc|cells|rule|]; cbn [write_fmt_line]; rewrite <- ?(sh_border H), <- ?(proj1 (sh_table H)).
    - apply write_fmt_composite_shape.
    - destruct (optional_completions _ _ _) as (lpo & rpo). eapply rel_bind; [apply write_cells_shape|]. intros a a' A. cbn [rel_out].
      apply sl_app; [apply sl_repeat_char|]. apply sl_app; [exact A|]. apply sl_app; [reflexivity|apply C].
    - destruct (optional_completions _ _ _) as (lpo & rpo). cbn [rel_out]. apply sl_app; [apply sl_repeat_char|]. apply sl_app; [reflexivity|]. apply sl_app; [apply rule_cells_shape|].
      apply sl_app; [reflexivity|apply C].
    - cbn [rel_out]. destruct w; [|reflexivity]. unfold sc_repeated. rewrite (proj1 (sh_horizontal_rule H)). reflexivity.
  Qed.
  Lemma display_lines_shape w : forall lines, rel_out same_layout (display_lines special k lines w) (display_lines special' k' lines w).
  Proof using H HS.
    induction lines as [|l r IH]; [reflexivity|]. cbn [display_lines]. eapply rel_bind; [apply write_fmt_line_shape|]. intros a a' A. eapply rel_bind; [exact IH|]. intros b b' B.
    cbn [rel_out]. apply sl_app; [exact A|]. apply (@sl_app [_] [_]); [reflexivity|exact B].
  Qed.
  Lemma filling_shape f cs cs' : forall fuel len, rel_out same_layout (filling_loop (Styled cs) f fuel len) (filling_loop (Styled cs') f fuel len).
  Proof using.
    induction fuel as [|fuel IH]; intros [|len]; cbn [filling_loop]; try reflexivity; try exact I.
    destruct (byte_prefix _ _); cbn [bind]; [|exact I..]. destruct (csub _ _); cbn [bind]; [|exact I..].
    eapply rel_bind; [apply IH|]. intros x y X. apply (@sl_app [_] [_]); [reflexivity|exact X].
  Qed.
  Lemma rows_shape a w sb s b : forall rows ls lines j,
    rel_out same_layout (tv_write_rows (render_line special k) (mkTV a ls k s b) w sb lines j rows) (tv_write_rows (render_line special' k') (mkTV a ls k' s b) w sb lines j rows).
  Proof using H HS.
    induction rows as [|rows IH]; intros ls lines j; [reflexivity|]. cbn [tv_write_rows tv_area tv_skin]. destruct (add16 _ _) as [y| |]; cbn [bind]; [|exact I..].
    apply (@rel_bind _ _ (fun p q => same_layout (fst p) (fst q) /\ snd p = snd q)).
    - destruct lines as [|l rest].
      + eapply rel_bind; [apply filling_shape|]. intros x x' X. cbn. auto.
      + eapply rel_bind; [apply write_fmt_line_shape|]. intros x x' X. cbn. auto.
    - intros (c & r) (c' & r') (C & E). cbn [fst snd] in C, E. subst r'. eapply rel_bind; [apply IH|]. intros x x' X. cbn [rel_out].
      apply (@sl_app [_] [_]); [reflexivity|]. apply sl_app; [exact C|]. apply sl_app; [|exact X]. destruct sb as [(p & q)|]; [|reflexivity].
      destruct (_ && _)%bool; apply sl_sc; [apply (sh_thumb H)|apply (sh_track H)].
  Qed.
  Lemma view_shape a ls s b : rel_out same_layout (tv_write_on (render_line special k) (mkTV a ls k s b)) (tv_write_on (render_line special' k') (mkTV a ls k' s b)).
  Proof using H HS.
    unfold tv_write_on. change (tv_scrollbar (mkTV a ls k' s b)) with (tv_scrollbar (mkTV a ls k s b)). destruct (tv_scrollbar _) as [sb| |]; cbn [bind]; [|exact I..].
    cbn [tv_area tv_lines scroll]. destruct (if match sb with Some _ => true | None => false end then _ else _) as [w| |]; cbn [bind]; [|exact I..]. apply rows_shape.
  Qed.
End Rendering.

(** A line drawn *)
Theorem C81_line : forall special special' k k' line w r, same_shape k k' -> same_specials special special' ->
  layout (write_fmt_line special k line w r) = layout (write_fmt_line special' k' line w r).
Proof. intros. apply layout_rel, write_fmt_line_shape; assumption. Qed.
Print Assumptions C81_line.
(** A text printed in a terminal *)
Theorem C81_printed : forall u special special' k k' usize_max text size, same_shape k k' -> same_specials special special' ->
  layout (print_text u special k usize_max text size) = layout (print_text u special' k' usize_max text size).
Proof.
  intros u special special' k k' um text size H HS. unfold print_text, term_text. destruct (terminal_size size) as (w & h). rewrite (C81_formatted u um text _ H).
  destruct (from_text _ _ _ _ _); cbn [bind]; try reflexivity. apply layout_rel, display_lines_shape; assumption.
Qed.
Print Assumptions C81_printed.
(** A text drawn in an area, without or with a scrollbar *)
Theorem C81_area : forall u special special' k k' usize_max text a, same_shape k k' -> same_specials special special' ->
  layout (write_in_area_on u special k usize_max text a) = layout (write_in_area_on u special' k' usize_max text a)
  /\ forall scroll, layout (mad_write_on u special k usize_max text a scroll) = layout (mad_write_on u special' k' usize_max text a scroll).
Proof.
  intros u special special' k k' um text a H HS. unfold write_in_area_on, mad_write_on, area_text.
  destruct (subN _ _); cbn [bind]; try (split; reflexivity). rewrite (C81_formatted u um text _ H). destruct (from_text _ _ _ _ _); cbn [bind]; try (split; reflexivity).
  split; [|intros scroll]; apply layout_rel, view_shape; assumption.
Qed.
Print Assumptions C81_area.
(** A snippet, as is or filling a width *)
Theorem C81_inline : forall u special special' k k' c, same_shape k k' -> same_specials special special' ->
  layout (write_composite u special k c) = layout (write_composite u special' k' c)
  /\ forall w al, layout (write_composite_fill u special k c w al) = layout (write_composite_fill u special' k' c w al).
Proof.
  intros u special special' k k' c H HS. unfold write_composite, write_composite_fill, display_inline. rewrite (@fc_from_shape u k k' (sh_indent H)). split.
  - apply layout_rel, write_fmt_composite_shape; assumption.
  - intros w al. rewrite (@fill_width_shape u k k' (sh_indent H)). destruct (fill_width _ _ _ _ _); cbn [bind]; try reflexivity. apply layout_rel, write_fmt_composite_shape; assumption.
Qed.
Print Assumptions C81_inline.

(** ** The setters of colors keep the shape *)

Lemma same_line_refl l : same_line l l.
Proof. repeat split. Qed.
Lemma Forall2_map_r {A} (R : A -> A -> Prop) f l : (forall x, R x (f x)) -> Forall2 R l (map f l).
Proof. intros H. induction l; constructor; auto. Qed.
Lemma same_line_trans a b c : same_line a b -> same_line b c -> same_line a c.
Proof. intros (A & B & C) (D & E & F). repeat split; congruence. Qed.
Lemma same_char_trans a b c : same_char a b -> same_char b c -> same_char a c.
Proof. intros (A & B) (C & D). split; congruence. Qed.
Lemma Forall2_same_line_trans : forall a b c, Forall2 same_line a b -> Forall2 same_line b c -> Forall2 same_line a c.
Proof.
  intros a b c F. revert c. induction F as [|x y a b X F IH]; intros c G; inversion G; subst; constructor; auto. eapply same_line_trans; eassumption.
Qed.
Lemma same_shape_trans a b c : same_shape a b -> same_shape b c -> same_shape a c.
Proof.
  intros A B. destruct A, B. constructor; try (eapply same_line_trans; eassumption); try (eapply same_char_trans; eassumption); try congruence. eapply Forall2_same_line_trans; eassumption.
Qed.
Lemma same_shape_refl k : same_shape k k.
Proof. constructor; try (repeat split; reflexivity). induction (headers k); constructor; auto. apply same_line_refl. Qed.
(** Whatever the changes of colors made on a skin, by the functions changing a whole skin, the layout doesn't change *)
Theorem C81_recolored : forall k k', recolored k k' -> chars_ok k -> same_shape k k' /\ chars_ok k'.
Proof.
  assert (F : forall s c, char_ok s -> same_char s (sc_set_fg s c)) by (intros s c E; split; [reflexivity|exact E]).
  assert (B : forall s c, char_ok s -> same_char s (sc_set_bg s c)) by (intros s c E; split; [reflexivity|exact E]).
  assert (C : forall s, same_char s s) by (split; reflexivity).
  assert (R : forall l, Forall2 same_line l l) by (induction l; constructor; [apply same_line_refl|assumption]).
  intros k k' H. induction H as [k|k k' c H IH|k k' c H IH|k k' c H IH|k k' mix H IH]; intros K; [split; [apply same_shape_refl|exact K]|..];
    destruct (IH K) as (S & K'); pose proof K' as (K1 & K2 & K3 & K4 & K5); (split; [eapply same_shape_trans; [exact S|]; constructor|]);
    cbn [paragraph code_block headers table bullet quote_mark horizontal_rule scrollbar track thumb table_border_chars indent_mode
         skin_set_fg skin_set_bg skin_set_global_bg skin_blend_with sb_set_bg];
    auto; try (repeat split; (reflexivity || assumption)); apply Forall2_map_r; intros x; repeat split.
Qed.
Print Assumptions C81_recolored.
(** The copy kept by a styled char always has its char *)
Theorem C81_chars : forall cs c ops, char_ok (sc_run (sc_new cs c) ops).
Proof.
  intros cs c ops. unfold sc_run. assert (G : char_ok (sc_new cs c)) by reflexivity. revert G. generalize (sc_new cs c).
  induction ops as [|o ops IH]; intros s G; [exact G|]. apply IH. destruct o; try reflexivity. exact G.
Qed.
Print Assumptions C81_chars.

From Verif Require P_Render.
(** A text with all kinds of lines is laid out the same way with the default skin, with this skin all in red, and without style *)
Example C81_example :
  let red := skin_set_bg (skin_set_fg skin_default (AnsiValue 9)) (AnsiValue 88) in
  let print k := print_text demo P_Render.no_special k 1000 P_Render.small_text (Some (14, 30)%N) in
  chars_ok skin_default /\ recolored skin_default red
  /\ print skin_default <> print red /\ layout (print skin_default) = layout (print red)
  /\ match layout (print red) with Ret out => length out = 90 | _ => False end.
Proof.
  cbv zeta. split; [repeat split|]. split; [apply rc_bg, rc_fg, rc_none|]. split; [vm_compute; discriminate|]. split; [|vm_compute; reflexivity].
  apply C81_printed; [|intros c; exact I]. apply C81_recolored; [apply rc_bg, rc_fg, rc_none|repeat split].
Qed.
(** The alignment of the titles is a part of the shape: [no_style] has another one *)
Example C81_other_shape : ~ same_shape skin_default skin_no_style
  /\ let print k := print_text demo P_Render.no_special k 1000 P_Render.small_text (Some (14, 30)%N) in layout (print skin_default) <> layout (print skin_no_style).
Proof. split; [|vm_compute; discriminate]. intros H. pose proof (sh_headers H) as F. inversion F as [|? ? ? ? (X & _)]. discriminate X. Qed.
