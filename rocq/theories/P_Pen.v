(** * No color is left behind (C80) *)
From Verif Require Import Base L_Base M_Style M_Fit M_Wrap M_TblFit M_Text M_Fitter M_View M_Render M_Area M_Rect S_Pen Demo.
From Verif Require M_Input M_List.
Set Implicit Arguments.
Open Scope nat_scope.

Lemma inked_app p a b : inked p (a ++ b) = inked p a ++ inked (pen_after p a) b.
Proof. revert p. induction a as [|[] a IH]; intros p; cbn [app inked pen_after]; rewrite ?IH, <- ?app_assoc; reflexivity. Qed.
Lemma pen_after_app p a b : pen_after p (a ++ b) = pen_after (pen_after p a) b.
Proof. revert p. induction a as [|[] a IH]; intros p; cbn [app pen_after]; rewrite ?IH; reflexivity. Qed.
Lemma given_app a b : given (a ++ b) = given a ++ given b.
Proof. induction a as [|[] a IH]; cbn [app given]; rewrite ?IH, <- ?app_assoc; reflexivity. Qed.
Lemma faithful_nil : faithful [].
Proof. split; reflexivity. Qed.
Lemma faithful_app a b : faithful a -> faithful b -> faithful (a ++ b).
Proof. intros (A1 & A2) (B1 & B2). split; [rewrite inked_app, A2, A1, B1, given_app, map_app|rewrite pen_after_app, A2]; auto. Qed.
Lemma faithful_cons c b : faithful [c] -> faithful b -> faithful (c :: b).
Proof. apply (@faithful_app [c]). Qed.
Lemma worn_out_pen0 cs : worn_out pen0 cs = pen0.
Proof. unfold worn_out. destruct (N.eqb (attrs cs) 0); [|reflexivity]. destruct (fg cs), (bg cs), (underline cs); reflexivity. Qed.
Lemma faithful_styled cs s : faithful [Styled cs s].
Proof. split; cbn [inked given pen_after]; rewrite ?worn_out_pen0, ?app_nil_r, ?map_map; reflexivity. Qed.
Lemma faithful_print s : faithful [Print s].
Proof. split; cbn [inked given pen_after]; rewrite ?app_nil_r, ?map_map; reflexivity. Qed.
Lemma faithful_move x y : faithful [MoveTo x y].
Proof. split; reflexivity. Qed.
Lemma faithful_concat l : Forall faithful l -> faithful (concat l).
Proof. induction 1; [apply faithful_nil|apply faithful_app; assumption]. Qed.
Lemma faithful_repeat a n : faithful a -> faithful (concat (repeat a n)).
Proof. intros H. apply faithful_concat, Forall_forall. intros x X. apply repeat_spec in X. subst x. exact H. Qed.
Lemma faithful_flat_map {A} (f : A -> list cmd) l : (forall x, faithful (f x)) -> faithful (flat_map f l).
Proof. intros H. induction l; [apply faithful_nil|apply faithful_app; auto]. Qed.
Lemma faithful_if (b : bool) x y : faithful x -> faithful y -> faithful (if b then x else y).
Proof. destruct b; auto. Qed.
Ltac easy_faithful := repeat first
  [ apply faithful_nil | apply faithful_app | apply faithful_styled | apply faithful_print | apply faithful_move
  | apply faithful_repeat | apply faithful_if | assumption | apply faithful_cons ].
Ltac inv1 H := let x := fresh "x" in let E := fresh "E" in let K := fresh "K" in destruct (bind_Ret_inv _ _ H) as (x & E & K); clear H; cbv beta in K; rename K into H.
Lemma Ret_inj {A} (a b : A) : Ret a = Ret b -> a = b.
Proof. congruence. Qed.
Lemma filling_loop_faithful pr f : (forall s, faithful [pr s]) -> forall fuel len out, filling_loop pr f fuel len = Ret out -> faithful out.
Proof.
  intros P. induction fuel as [|fuel IH]; intros [|len] out H; cbn [filling_loop] in H; try discriminate H; try (injection H as <-; apply faithful_nil).
  inv1 H. inv1 H. inv1 H. injection H as <-. apply faithful_cons; [apply P|eauto].
Qed.

Lemma sc_faithful s : faithful (sc_queue s).
Proof. apply faithful_styled. Qed.
Lemma styled_filling f cs n out : filling_queue_styled f cs n = Ret out -> faithful out.
Proof. apply filling_loop_faithful. intros s. apply faithful_styled. Qed.
Lemma unstyled_filling f n out : filling_queue_unstyled f n = Ret out -> faithful out.
Proof. apply filling_loop_faithful. intros s. apply faithful_print. Qed.
Lemma repeat_char_faithful cs c n : faithful (cs_repeat_char cs c n).
Proof. unfold cs_repeat_char. easy_faithful. Qed.
Lemma repeat_string_faithful cs s n : faithful (cs_repeat_string cs s n).
Proof. unfold cs_repeat_string. easy_faithful. Qed.

(** ** Formatted things *)

Lemma mark_faithful k kind : faithful (composite_mark k kind).
Proof. unfold composite_mark, cs_queue, sc_queue. destruct kind; destruct (indent_mode k); easy_faithful. Qed.
Lemma composite_faithful special k fc w r m out : write_fmt_composite special k fc w r m = Ret out -> faithful out.
Proof.
  unfold write_fmt_composite. intros H. inv1 H. apply bind_Ret_inv in H as ([] & _ & H). destruct (if m then margins_in x w else (0, 0)) as (lm & rm). destruct (fc_completions fc) as (lpi & rpi).
  destruct (optional_completions _ _ _) as (lpo & rpo). injection H as <-. unfold ls_repeat_space, cs_repeat_space.
  apply faithful_app; [apply repeat_char_faithful|]. apply faithful_app; [apply repeat_string_faithful|]. apply faithful_app; [apply mark_faithful|].
  apply faithful_app; [|apply faithful_app; [apply repeat_string_faithful|]].
  - apply faithful_flat_map. intros c. unfold compound_out. destruct (special c); [apply sc_faithful|apply faithful_styled].
  - apply faithful_if; [apply repeat_char_faithful|apply faithful_nil].
Qed.
Lemma cells_faithful special k : forall cells out, write_cells special k cells = Ret out -> faithful out.
Proof.
  induction cells as [|c r IH]; intros out H; cbn [write_cells] in H; [injection H as <-; apply faithful_nil|].
  inv1 H. inv1 H. injection H as <-. apply faithful_cons; [apply faithful_styled|]. apply faithful_app; [eapply composite_faithful; eassumption|auto].
Qed.
Lemma rule_cells_faithful k p : forall ws b, faithful (rule_cells k p b ws).
Proof.
  induction ws as [|w r IH]; intros b; cbn [rule_cells]; [apply faithful_nil|]. apply faithful_app; [destruct b; easy_faithful|].
  apply faithful_app; [apply repeat_char_faithful|auto].
Qed.
(** A line *)
Theorem C80_line special k line width r out : write_fmt_line special k line width r = Ret out -> faithful out.
Proof.
  destruct line as [fc|cells|rule|]; cbn [write_fmt_line]; intros H.
  - eapply composite_faithful, H.
  - destruct (optional_completions _ _ _) as (lpo & rpo). inv1 H. injection H as <-.
    apply faithful_app; [apply repeat_char_faithful|]. apply faithful_app; [eapply cells_faithful; eassumption|].
    apply faithful_cons; [apply faithful_styled|]. apply faithful_if; [apply repeat_char_faithful|apply faithful_nil].
  - destruct (optional_completions _ _ _) as (lpo & rpo). injection H as <-.
    apply faithful_app; [apply repeat_char_faithful|]. apply faithful_cons; [apply faithful_styled|]. apply faithful_app; [apply rule_cells_faithful|].
    apply faithful_cons; [apply faithful_styled|]. apply faithful_if; [apply repeat_char_faithful|apply faithful_nil].
  - injection H as <-. destruct width; [apply faithful_styled|apply faithful_nil].
Qed.
Lemma lines_faithful special k w : forall lines out, display_lines special k lines w = Ret out -> faithful out.
Proof.
  induction lines as [|l r IH]; intros out H; cbn [display_lines] in H; [injection H as <-; apply faithful_nil|].
  inv1 H. inv1 H. injection H as <-. apply faithful_app; [eapply C80_line; eassumption|]. apply faithful_cons; [apply faithful_print|auto].
Qed.
(** A text printed in a terminal, whatever its source, the skin and the size of the terminal *)
Theorem C80_text u special k usize_max text size out : print_text u special k usize_max text size = Ret out -> faithful out.
Proof. unfold print_text, display_text. intros H. inv1 H. eapply lines_faithful, H. Qed.
(** A snippet, printed as is or filling a width *)
Theorem C80_inline u special k c out : write_composite u special k c = Ret out \/ (exists w al, write_composite_fill u special k c w al = Ret out) -> faithful out.
Proof.
  unfold write_composite, write_composite_fill, display_inline. intros [H|(w & al & H)]; [eapply composite_faithful, H|]. inv1 H. eapply composite_faithful, H.
Qed.

(** ** Views *)

Lemma rows_faithful {A} (render : A -> nat -> outcome (list cmd)) v w sb : (forall l n out, render l n = Ret out -> faithful out) ->
  forall rows lines j out, tv_write_rows render v w sb lines j rows = Ret out -> faithful out.
Proof.
  intros R. induction rows as [|rows IH]; intros lines j out H; cbn [tv_write_rows] in H; [injection H as <-; apply faithful_nil|].
  inv1 H. inv1 H. destruct x0 as (content & rest). inv1 H. injection H as <-.
  apply faithful_cons; [apply faithful_move|]. apply faithful_app.
  - destruct lines as [|l ls]; inv1 E0; injection E0 as -> _; [eapply styled_filling; eassumption|eapply R; eassumption].
  - apply faithful_app; [|eapply IH; eassumption]. destruct sb as [(a & b)|]; [|apply faithful_nil]. destruct (_ && _); apply sc_faithful.
Qed.
Lemma view_faithful {A} (render : A -> nat -> outcome (list cmd)) v out : (forall l n out, render l n = Ret out -> faithful out) ->
  tv_write_on render v = Ret out -> faithful out.
Proof. unfold tv_write_on. intros R H. inv1 H. inv1 H. eapply rows_faithful; [exact R|exact H]. Qed.
Theorem C80_text_view special k (v : TextView FmtLine) out : tv_write_on (render_line special k) v = Ret out -> faithful out.
Proof. apply view_faithful. intros l n o H. eapply C80_line, H. Qed.
Theorem C80_mad_view special k (v : MadView FmtLine) out : mv_write_on (render_line special k) v = Ret out -> faithful out.
Proof. unfold mv_write_on. intros H. inv1 H. eapply C80_text_view, H. Qed.
(** A text drawn in an area, with or without scrollbar *)
Theorem C80_area u special k usize_max text a out :
  write_in_area_on u special k usize_max text a = Ret out \/ (exists scroll, mad_write_on u special k usize_max text a scroll = Ret out) -> faithful out.
Proof. unfold write_in_area_on, mad_write_on. intros [H|(s & H)]; inv1 H; eapply C80_text_view, H. Qed.

(** ** Rectangles, crop writers *)

Lemma rect_rows_faithful r : forall fuel y out, rect_rows r fuel y = Ret out -> faithful out.
Proof.
  induction fuel as [|fuel IH]; intros y out H; cbn [rect_rows] in H; inv1 H; inv1 H; (destruct (y <? x0)%N; [|injection H as <-; apply faithful_nil]); [discriminate H|].
  inv1 H. inv1 H. inv1 H. injection H as <-. apply faithful_cons; [apply faithful_move|]. apply faithful_cons; [apply faithful_styled|].
  apply faithful_app; [|apply faithful_cons; [apply faithful_styled|eauto]].
  destruct (r_fill r); [destruct (2 <? a_width (r_area r))%N; [eapply styled_filling; eassumption|injection E1 as <-; apply faithful_nil]|].
  inv1 E1. inv1 E1. injection E1 as <-. apply faithful_move.
Qed.
Theorem C80_rect r out : rect_draw r = Ret out -> faithful out.
Proof.
  unfold rect_draw. intros H. inv1 H. inv1 H. inv1 H. inv1 H. apply Ret_inj in H. subst out.
  assert (B : forall cs w a b c, faithful (border_row cs w a b c)) by (intros; unfold border_row, cs_queue; easy_faithful).
  apply faithful_cons; [apply faithful_move|]. apply faithful_app; [apply B|]. apply faithful_app; [eapply rect_rows_faithful; eassumption|].
  apply faithful_cons; [apply faithful_move|apply B].
Qed.
Definition sets_color (o : cw_op) : Prop := match o with CwFg _ | CwBg _ => True | _ => False end.
(** All calls on a crop writer but those which are there to set a color *)
Theorem C80_crop_writer u : forall ops w w', cw_run u w ops = Ret w' -> (forall o, In o ops -> ~ sets_color o) -> faithful (written w) -> faithful (written w').
Proof.
  assert (F : forall w a l, faithful (written w) -> faithful l -> faithful (written (cw_emit w a l))) by (intros; apply faithful_app; assumption).
  induction ops as [|o ops IH]; intros w w' H N W; cbn [cw_run] in H; [injection H as <-; exact W|].
  inv1 H. apply (IH x w' H); [intros o' O; apply N; right; exact O|]. clear IH H. assert (NO : ~ sets_color o) by (apply N; left; reflexivity).
  assert (US : forall s y, cw_queue_unstyled_str u w s = Ret y -> faithful (written y)).
  { intros s y H. unfold cw_queue_unstyled_str in H. destruct (is_full w); [injection H as <-; exact W|]. inv1 H. destruct x0. inv1 H. injection H as <-. apply F; [exact W|apply faithful_print]. }
  assert (RP : forall cs f n y, cw_repeat w cs f n = Ret y -> faithful (written y)).
  { intros cs f n y H. unfold cw_repeat in H. inv1 H. inv1 H. injection H as <-. apply F; [exact W|eapply styled_filling; eassumption]. }
  assert (RU : forall f n y, cw_repeat_unstyled w f n = Ret y -> faithful (written y)).
  { intros f n y H. unfold cw_repeat_unstyled in H. inv1 H. inv1 H. injection H as <-. apply F; [exact W|eapply unstyled_filling; eassumption]. }
  destruct o; cbn [cw_apply] in E; try (exfalso; apply NO; exact I).
  - eapply US, E.
  - unfold cw_queue_str in E. destruct (is_full w); [injection E as <-; exact W|]. inv1 E. destruct x0. inv1 E. injection E as <-. apply F; [exact W|apply faithful_styled].
  - unfold cw_queue_char in E. destruct (_ <? _); [|injection E as <-; exact W]. inv1 E. injection E as <-. apply F; [exact W|apply faithful_styled].
  - unfold cw_queue_unstyled_char in E. destruct (N.eqb c c_tab); [eapply US, E|]. destruct (_ <? _); [|injection E as <-; exact W]. inv1 E. injection E as <-. apply F; [exact W|apply faithful_print].
  - unfold cw_queue_unstyled_g_string in E. destruct (is_full w); [injection E as <-; exact W|]. inv1 E. destruct x0. injection E as <-. apply F; [exact W|apply faithful_print].
  - unfold cw_queue_g_string in E. destruct (is_full w); [injection E as <-; exact W|]. inv1 E. destruct x0. injection E as <-. apply F; [exact W|apply faithful_styled].
  - eapply RP, E.
  - eapply RU, E.
  - eapply RP, E.
  - eapply RP, E.
  - eapply RU, E.
Qed.
(** Those write nothing: they just change the color, if the style has one *)
Theorem C80_colors u w cs :
  (exists w', cw_apply u w (CwFg cs) = Ret w' /\ allowed w' = allowed w /\ forall p, inked p (written w') = inked p (written w)
     /\ pen_after p (written w') = let q := pen_after p (written w) in mkPen (match fg cs with Some c => c | None => p_fg q end) (p_bg q) (p_attrs q))
  /\ exists w', cw_apply u w (CwBg cs) = Ret w' /\ allowed w' = allowed w /\ forall p, inked p (written w') = inked p (written w)
     /\ pen_after p (written w') = let q := pen_after p (written w) in mkPen (p_fg q) (match bg cs with Some c => c | None => p_bg q end) (p_attrs q).
Proof.
  split; (eexists; split; [reflexivity|]; split; [reflexivity|]); intros p; cbn [cw_emit written]; rewrite inked_app, pen_after_app;
    generalize (pen_after p (written w)); intros q; [unfold cs_queue_fg; destruct (fg cs)|unfold cs_queue_bg; destruct (bg cs)];
    (split; [cbn; apply app_nil_r|destruct q; reflexivity]).
Qed.

(** ** Input fields *)

Lemma bar_faithful (sb : option (N * N)) (f : N -> N -> bool) s t : faithful (match sb with Some (a, b) => if f a b then sc_queue s else sc_queue t | None => [] end).
Proof. destruct sb as [(a & b)|]; [destruct (f a b); apply sc_faithful|apply faithful_nil]. Qed.
Lemma draw_chars_faithful u f normal sel n w skip j : forall chars i sk d out d' p,
  M_Input.draw_chars u f normal sel n w skip j chars i sk d = Ret (out, d', p) -> faithful out.
Proof.
  induction chars as [|c r IH]; intros i sk d out d' p H; cbn [M_Input.draw_chars] in H; [injection H as <- _ _; apply faithful_nil|].
  destruct (sk <? skip); [eapply IH, H|]. destruct (_ && _).
  - destruct (sel i); [inv1 H|]; injection H as <- _ _; apply faithful_styled.
  - inv1 H. destruct x as (o & q). assert (O : faithful o) by (destruct (sel i); [inv1 E|]; injection E as <- _; apply faithful_styled).
    destruct (_ <=? _); [injection H as <- _ _; exact O|]. inv1 H. destruct x as ((rest & d2) & q2). injection H as <- _ _. apply faithful_app; [exact O|eapply IH; eassumption].
Qed.
Lemma draw_line_faithful u f normal w j y chars out p : M_Input.draw_line u f normal w j y chars = Ret (out, p) -> faithful out.
Proof.
  unfold M_Input.draw_line. intros H. inv1 H. destruct x as ((o & d) & q). inv1 H. destruct x as ((o2 & d2) & q2). injection H as <- _.
  apply faithful_app; [apply faithful_if; [apply faithful_styled|apply faithful_nil]|]. apply faithful_app; [eapply draw_chars_faithful; eassumption|].
  apply faithful_app; [|apply faithful_repeat, faithful_styled].
  match type of E0 with (if ?b then _ else _) = _ => destruct b end; [inv1 E0; injection E0 as <- _ _; apply faithful_styled|injection E0 as <- _ _; apply faithful_nil].
Qed.
Lemma draw_rows_faithful u f normal sbs w sb : forall rows lines y j out p, M_Input.draw_rows u f normal sbs w sb lines y j rows = Ret (out, p) -> faithful out.
Proof.
  induction rows as [|rows IH]; intros lines y j out p H; cbn [M_Input.draw_rows] in H; [injection H as <- _; apply faithful_nil|].
  inv1 H. inv1 H. destruct x0 as (o & q). inv1 H. destruct x0 as (rest & q2). injection H as <- _.
  apply faithful_cons; [apply faithful_move|]. apply faithful_app.
  - destruct lines as [|l ls]; [inv1 E0; injection E0 as -> _; eapply styled_filling; eassumption|eapply draw_line_faithful; eassumption].
  - apply faithful_app; [apply (bar_faithful sb (fun a b => (a <=? x) && (x <=? b))%N)|eapply IH; eassumption].
Qed.
(** An input field; it gives the terminal its default background first *)
Theorem C80_input u f out p : M_Input.display_on u f = Ret (out, p) -> faithful out.
Proof.
  unfold M_Input.display_on. intros H. inv1 H. inv1 H. inv1 H. destruct x1 as (o & q). injection H as <- _.
  apply faithful_cons; [split; reflexivity|]. eapply draw_rows_faithful; eassumption.
Qed.

(** ** List views *)

(** The look of a separator of the selected row *)
Definition over_selection {T} (v : M_List.ListView T) : pen := worn_over (mkPen Reset (M_List.selection_background v) 0) (ls_cs (table (M_List.lv_skin v))).
(** All is written with its style, but the separators of the selected row *)
Definition faithful_but {T} (v : M_List.ListView T) (out : list cmd) : Prop :=
  Forall2 (fun i g => fst i = fst g /\ (snd i = worn (snd g)
      \/ M_List.selection v <> None /\ g = (Some M_List.c_vbar, Some (ls_cs (table (M_List.lv_skin v)))) /\ snd i = over_selection v)) (inked pen0 out) (given out)
  /\ pen_after pen0 out = pen0.
Lemma faithful_faithful_but {T} (v : M_List.ListView T) out : faithful out -> faithful_but v out.
Proof. intros (A & B). split; [|exact B]. rewrite A. clear. induction (given out) as [|g l IH]; constructor; auto. Qed.
Lemma faithful_but_app {T} (v : M_List.ListView T) a b : faithful_but v a -> faithful_but v b -> faithful_but v (a ++ b).
Proof. intros (A1 & A2) (B1 & B2). split; [rewrite inked_app, A2, given_app; apply Forall2_app; assumption|rewrite pen_after_app, A2; exact B2]. Qed.
Lemma faithful_join sep l : faithful sep -> Forall faithful l -> faithful (M_List.join sep l).
Proof.
  intros S. induction 1 as [|x l X L IH]; cbn [M_List.join]; [apply faithful_nil|]. apply faithful_app; [exact X|]. destruct l; [apply faithful_nil|apply faithful_app; assumption].
Qed.
Lemma map_out_Forall {A B} (f : A -> outcome B) (P : B -> Prop) : (forall a b, f a = Ret b -> P b) -> forall l r, M_List.map_out f l = Ret r -> Forall P r.
Proof.
  intros F. induction l as [|a l IH]; intros r H; cbn [M_List.map_out] in H; [injection H as <-; constructor|]. inv1 H. inv1 H. injection H as <-. constructor; eauto.
Qed.
(** the separator before a cell, in the selected row *)
Lemma selected_cell {T} (v : M_List.ListView T) cs s : M_List.selection v <> None -> bg cs = Some (M_List.selection_background v) ->
  faithful_but v (([SetBg (M_List.selection_background v)] ++ sc_queue (sc_new (ls_cs (table (M_List.lv_skin v))) M_List.c_vbar)) ++ [Styled cs s]).
Proof.
  intros S B. set (t := ls_cs (table (M_List.lv_skin v))). set (b := M_List.selection_background v) in *. split.
  - cbn [app sc_queue sc_new fst snd sc_cache inked given map]. constructor; [split; [reflexivity|right; repeat split; assumption]|].
    rewrite !app_nil_r. set (p := worn_out _ t). replace (worn_over p cs) with (worn_over pen0 cs).
    { clear. induction s; constructor; auto. }
    unfold worn_over. destruct (cs_has_attr cs AReset); [reflexivity|]. rewrite B. unfold p, worn_out. cbn [p_fg p_bg p_attrs]. destruct (N.eqb (attrs t) 0); [|reflexivity].
    cbn [p_fg p_attrs pen0]. destruct (fg t), (underline t); reflexivity.
  - cbn [app sc_queue sc_new fst snd sc_cache pen_after]. unfold worn_out at 1. destruct (N.eqb (attrs cs) 0); [|reflexivity]. rewrite B.
    cbn [p_fg p_bg p_attrs]. unfold worn_out. cbn [p_fg p_bg p_attrs]. destruct (N.eqb (attrs t) 0); cbn [p_fg p_attrs pen0]; destruct (fg cs), (underline cs), (fg t), (underline t); reflexivity.
Qed.
Lemma counted sp s w cs : exists t, write_counted_str sp s w cs = [Styled cs t].
Proof. unfold write_counted_str. destruct (_ <=? _); [eexists; reflexivity|]. destruct (completions_for sp w). eexists. reflexivity. Qed.
Lemma selected_cells {T A} (v : M_List.ListView T) (f : A -> list cmd) : M_List.selection v <> None ->
  (forall c, exists cs s, f c = [Styled cs s] /\ bg cs = Some (M_List.selection_background v)) -> forall cols,
  faithful_but v (M_List.join ([SetBg (M_List.selection_background v)] ++ sc_queue (sc_new (ls_cs (table (M_List.lv_skin v))) M_List.c_vbar)) (map f cols)).
Proof.
  intros S W. set (sep := _ ++ sc_queue _). assert (C : forall cs s, bg cs = Some (M_List.selection_background v) -> faithful_but v (sep ++ [Styled cs s])) by (intros; apply selected_cell; assumption).
  intros [|c cols]; [apply faithful_faithful_but, faithful_nil|]. revert c. induction cols as [|c' cols IH]; intros c.
  - cbn [map M_List.join]. destruct (W c) as (cs & s & -> & _). rewrite app_nil_r. apply faithful_faithful_but, faithful_styled.
  - cbn [map] in IH |- *. change (M_List.join sep (f c :: f c' :: map f cols)) with (f c ++ sep ++ M_List.join sep (f c' :: map f cols)).
    specialize (IH c'). set (rest := M_List.join sep (f c' :: map f cols)) in *.
    assert (X : exists cs s r, rest = [Styled cs s] ++ r /\ bg cs = Some (M_List.selection_background v)).
    { destruct (W c') as (cs & s & E & B). exists cs, s. eexists. split; [|exact B]. unfold rest. cbn [M_List.join]. rewrite E. reflexivity. }
    destruct X as (cs & s & r & X & B). destruct (W c) as (cs1 & s1 & E1 & B1). rewrite E1.
    apply faithful_but_app; [apply faithful_faithful_but, faithful_styled|]. rewrite X, app_assoc. apply faithful_but_app; [apply C, B|].
    rewrite X in IH. destruct IH as (I1 & I2). rewrite inked_app, given_app in I1. rewrite pen_after_app in I2. destruct (faithful_styled cs s) as (Y1 & Y2). rewrite Y2 in I1, I2. split; [|exact I2].
    rewrite Y1 in I1. clear - I1. revert I1. generalize (given [Styled cs s]) (inked pen0 r) (given r). intros g a b. induction g as [|x g IH]; intros H; [exact H|]. inversion H; auto.
Qed.
Lemma row_faithful {T} (v : M_List.ListView T) sel d : (sel = true -> M_List.selection v <> None) -> faithful_but v (M_List.row_cmds v sel d).
Proof.
  intros S. unfold M_List.row_cmds. destruct sel.
  - apply selected_cells; [auto|]. intros c.
    destruct (counted (M_List.lc_spacing c) (M_List.con (M_List.extract c d)) (M_List.cell_width (M_List.extract c d)) (cs_set_bg (M_List.cell_style (M_List.extract c d)) (M_List.selection_background v))) as (t & E).
    eexists. exists t. split; [exact E|reflexivity].
  - apply faithful_faithful_but. apply faithful_join; [apply sc_faithful|]. apply Forall_forall. intros x X. apply in_map_iff in X. destruct X as (c & <- & _). cbv zeta.
    destruct (counted (M_List.lc_spacing c) (M_List.con (M_List.extract c d)) (M_List.cell_width (M_List.extract c d)) (M_List.cell_style (M_List.extract c d))) as (t & ->). apply faithful_styled.
Qed.
Lemma next_row_faithful {T} (v : M_List.ListView T) : forall rs i, faithful_but v (fst (M_List.next_row v rs i)).
Proof.
  induction rs as [|r rest IH]; intros i; cbn [M_List.next_row]; [apply faithful_faithful_but; split; reflexivity|].
  destruct (M_List.displayed r); [|apply IH]. apply row_faithful. destruct (M_List.selection v); [discriminate|]. discriminate.
Qed.
Lemma row_lines_faithful {T} (v : M_List.ListView T) sx sb : forall n y i out, M_List.row_lines v sx sb y n i = Ret out -> faithful_but v out.
Proof.
  induction n as [|n IH]; intros y i out H; cbn [M_List.row_lines] in H; [injection H as <-; apply faithful_faithful_but, faithful_nil|].
  inv1 H. inv1 H. destruct x0 as (row & i'). inv1 H. injection H as <-.
  apply (@faithful_but_app _ v [_]); [apply faithful_faithful_but, faithful_move|]. apply faithful_but_app.
  - unfold M_List.next_row_at in E0. destruct (i <=? _); [|discriminate E0]. injection E0 as E0. pose proof (next_row_faithful v (skipn i (M_List.rows v)) i) as F. rewrite E0 in F. exact F.
  - apply faithful_but_app; [|eapply IH; eassumption]. apply faithful_faithful_but. destruct sb as [(a & b)|]; [|apply faithful_nil]. apply faithful_cons; [apply faithful_move|]. destruct (_ && _)%bool; apply sc_faithful.
Qed.
(** A list view: only the separators of the selected row aren't drawn with just their style *)
Theorem C80_list {T} (v : M_List.ListView T) out : M_List.lv_write_on v = Ret out -> faithful_but v out.
Proof.
  unfold M_List.lv_write_on. intros H. inv1 H. inv1 H. inv1 H. inv1 H. inv1 H. inv1 H. injection H as <-.
  apply (@faithful_but_app _ v [_]); [apply faithful_faithful_but, faithful_move|]. apply faithful_but_app.
  - apply faithful_faithful_but. unfold M_List.title_line in E0. inv1 E0. injection E0 as <-. apply faithful_join; [apply sc_faithful|]. eapply map_out_Forall; [|eassumption].
    intros a b K. unfold M_List.title_cmds in K. repeat (inv1 K). injection K as <-. unfold write_str. destruct (counted (mkSpacing x6 Center) (M_List.lc_title x8) (length (M_List.lc_title x8)) (ls_cs x9)) as (t & ->). apply faithful_styled.
  - apply (@faithful_but_app _ v [_]); [apply faithful_faithful_but, faithful_move|]. apply faithful_but_app; [|eapply row_lines_faithful; eassumption].
    apply faithful_faithful_but. unfold M_List.separator_line in E2. inv1 E2. injection E2 as <-. apply faithful_join; [apply sc_faithful|]. eapply map_out_Forall; [|eassumption].
    intros a b K. unfold M_List.separator_cmds in K. inv1 K. injection K as <-. apply faithful_join; [apply sc_faithful|]. apply Forall_forall. intros z Z. apply in_map_iff in Z. destruct Z as (c & <- & _). apply faithful_repeat, sc_faithful.
Qed.
Theorem C80_list_unselected {T} (v : M_List.ListView T) out : M_List.lv_write_on v = Ret out -> M_List.selection v = None -> faithful out.
Proof.
  intros H N. destruct (C80_list _ H) as (F & A). split; [|exact A]. clear - F N. revert F. generalize (inked pen0 out) (given out). intros i g F.
  induction F as [|x y l l' (X & [Y|(Y & _)]) F IH]; [reflexivity| |contradiction]. cbn [map]. rewrite <- IH, <- X, <- Y. destruct x. reflexivity.
Qed.

Print Assumptions C80_line.
Print Assumptions C80_text.
Print Assumptions C80_inline.
Print Assumptions C80_text_view.
Print Assumptions C80_mad_view.
Print Assumptions C80_area.
Print Assumptions C80_rect.
Print Assumptions C80_crop_writer.
Print Assumptions C80_colors.
Print Assumptions C80_input.
Print Assumptions C80_list.
Print Assumptions C80_list_unselected.
From Verif Require P_Render P_List P_Rect P_Input.
Definition inks (out : outcome (list cmd)) : list (option char * pen) := match out with Ret o => inked pen0 o | _ => [] end.
Definition color_eq_dec (a b : Color) : {a = b} + {a <> b}.
Proof. decide equality; apply N.eq_dec. Defined.
Definition with_bg (b : Color) (l : list (option char * pen)) : list (option char) := map fst (filter (fun x => if color_eq_dec (p_bg (snd x)) b then true else false) l).
(** The code of a text is the only part having a background, the title, the marks of the quote and the bold chars are the ones with attributes, and the terminal is back to its default style *)
Example C80_text_example :
  let out := print_text demo P_Render.no_special skin_default 1000 P_Render.small_text (Some (14, 30)%N) in
  length (with_bg (AnsiValue 235) (inks out)) = 18 /\ length (with_bg Reset (inks out)) = 230
  /\ length (filter (fun x => negb (N.eqb (p_attrs (snd x)) 0)) (inks out)) = 10
  /\ match out with Ret o => pen_after pen0 o = pen0 /\ pen_after (mkPen Reset (AnsiValue 9) 0) o = mkPen Reset Reset 0 | _ => False end.
Proof. vm_compute. repeat split. Qed.
(** The selected row, and only this row, has the background of the selection, its separators too *)
Example C80_list_example : with_bg (AnsiValue 237) (inks (M_List.lv_write_on P_List.demo_drawn)) = map Some [100; 101; 9474; 100; 9474; 100; 45; 100]%N
  /\ length (inks (M_List.lv_write_on P_List.demo_drawn)) = 40 /\ over_selection P_List.demo_drawn = mkPen (AnsiValue 239) (AnsiValue 237) 0.
Proof. vm_compute. repeat split. Qed.
(** so that it isn't [faithful] *)
Example C80_list_not_faithful : match M_List.lv_write_on P_List.demo_drawn with Ret o => ~ faithful o | _ => False end.
Proof. vm_compute. intros (H & _). discriminate H. Qed.
Example C80_input_example : match M_Input.display_on demo (P_Input.demo_field 6 1) with
  | Ret o => map (fun x => p_attrs (snd x)) (inked pen0 (fst o)) = [4096; 0; 0; 0; 0; 0]%N /\ pen_after (mkPen Reset (AnsiValue 9) 0) (fst o) = pen0
  | _ => False end.
Proof. vm_compute. split; reflexivity. Qed.
Example C80_rect_example : length (inks (rect_draw (P_Rect.demo_rect 4 3))) = 12.
Proof. reflexivity. Qed.
(** The calls which are there to set a color do it, for what follows too *)
Example C80_crop_writer_example :
  let style := mkCS (Some (AnsiValue 3)) (Some (AnsiValue 4)) None 0 in
  let run ops := match cw_run demo (cw_new 10) ops with Ret w => inked pen0 (written w) | _ => [] end in
  run [CwStr style [97]%N; CwUnstyledStr [98]%N] = [(Some 97, mkPen (AnsiValue 3) (AnsiValue 4) 0); (Some 98, pen0)]%N
  /\ run [CwBg (mkCS None (Some (AnsiValue 5)) None 0); CwUnstyledStr [98]%N; CwStr style [97]%N; CwUnstyledStr [99]%N]
     = [(Some 98, mkPen Reset (AnsiValue 5) 0); (Some 97, mkPen (AnsiValue 3) (AnsiValue 4) 0); (Some 99, pen0)]%N.
Proof. vm_compute. split; reflexivity. Qed.
(** A style without attribute doesn't hide the attributes which were there: the hypothesis of a default style matters *)
Example C80_attributes_stay : inked (mkPen Reset Reset 4) [Styled cs_default [97]%N] = [(Some 97, mkPen Reset Reset 4)]%N.
Proof. reflexivity. Qed.
