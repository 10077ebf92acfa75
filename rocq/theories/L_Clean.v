(** * No part of the screen is erased by the drawing of texts, views, rectangles and input fields *)
From Verif Require Import Base L_Base M_Style M_Fit M_Wrap M_TblFit M_Text M_Fitter M_View M_Render M_Area M_Rect S_Pen.
From Verif Require M_Input.
Set Implicit Arguments.
Open Scope nat_scope.

Definition no_erase (c : cmd) : Prop := match c with ClearUntilNewLine | ClearCurrentLine | ClearAll => False | _ => True end.
Definition clean (out : list cmd) : Prop := Forall no_erase out.
Lemma clean_nil : clean [].
Proof. constructor. Qed.
Lemma clean_app a b : clean a -> clean b -> clean (a ++ b).
Proof. intros A B. apply Forall_app. split; assumption. Qed.
Lemma clean_cons c b : clean [c] -> clean b -> clean (c :: b).
Proof. intros A B. inversion A. constructor; assumption. Qed.
Lemma clean_styled cs s : clean [Styled cs s].
Proof. repeat constructor. Qed.
Lemma clean_print s : clean [Print s].
Proof. repeat constructor. Qed.
Lemma clean_move x y : clean [MoveTo x y].
Proof. repeat constructor. Qed.
Lemma clean_concat l : Forall clean l -> clean (concat l).
Proof. induction 1; [apply clean_nil|apply clean_app; assumption]. Qed.
Lemma clean_repeat a n : clean a -> clean (concat (repeat a n)).
Proof. intros H. apply clean_concat, Forall_forall. intros x X. apply repeat_spec in X. subst x. exact H. Qed.
Lemma clean_flat_map {A} (f : A -> list cmd) l : (forall x, clean (f x)) -> clean (flat_map f l).
Proof. intros H. induction l; [apply clean_nil|apply clean_app; auto]. Qed.
Lemma clean_if (b : bool) x y : clean x -> clean y -> clean (if b then x else y).
Proof. destruct b; auto. Qed.
Ltac easy_clean := repeat first
  [ apply clean_nil | apply clean_app | apply clean_styled | apply clean_print | apply clean_move
  | apply clean_repeat | apply clean_if | assumption | apply clean_cons ].
Ltac inv1 H := let x := fresh "x" in let E := fresh "E" in let K := fresh "K" in destruct (bind_Ret_inv _ _ H) as (x & E & K); clear H; cbv beta in K; rename K into H.
Lemma Ret_inj {A} (a b : A) : Ret a = Ret b -> a = b.
Proof. congruence. Qed.
Lemma filling_loop_clean pr f : (forall s, clean [pr s]) -> forall fuel len out, filling_loop pr f fuel len = Ret out -> clean out.
Proof.
  intros P. induction fuel as [|fuel IH]; intros [|len] out H; cbn [filling_loop] in H; try discriminate H; try (injection H as <-; apply clean_nil).
  inv1 H. inv1 H. inv1 H. injection H as <-. apply clean_cons; [apply P|eauto].
Qed.

Lemma sc_clean s : clean (sc_queue s).
Proof. apply clean_styled. Qed.
Lemma styled_filling f cs n out : filling_queue_styled f cs n = Ret out -> clean out.
Proof. apply filling_loop_clean. intros s. apply clean_styled. Qed.
Lemma unstyled_filling f n out : filling_queue_unstyled f n = Ret out -> clean out.
Proof. apply filling_loop_clean. intros s. apply clean_print. Qed.
Lemma repeat_char_clean cs c n : clean (cs_repeat_char cs c n).
Proof. unfold cs_repeat_char. easy_clean. Qed.
Lemma repeat_string_clean cs s n : clean (cs_repeat_string cs s n).
Proof. unfold cs_repeat_string. easy_clean. Qed.

(** ** Formatted things *)

Lemma mark_clean k kind : clean (composite_mark k kind).
Proof. unfold composite_mark, cs_queue, sc_queue. destruct kind; destruct (indent_mode k); easy_clean. Qed.
Lemma composite_clean special k fc w r m out : write_fmt_composite special k fc w r m = Ret out -> clean out.
Proof.
  unfold write_fmt_composite. intros H. inv1 H. apply bind_Ret_inv in H as ([] & _ & H). destruct (if m then margins_in x w else (0, 0)) as (lm & rm). destruct (fc_completions fc) as (lpi & rpi).
  destruct (optional_completions _ _ _) as (lpo & rpo). injection H as <-. unfold ls_repeat_space, cs_repeat_space.
  apply clean_app; [apply repeat_char_clean|]. apply clean_app; [apply repeat_string_clean|]. apply clean_app; [apply mark_clean|].
  apply clean_app; [|apply clean_app; [apply repeat_string_clean|]].
  - apply clean_flat_map. intros c. unfold compound_out. destruct (special c); [apply sc_clean|apply clean_styled].
  - apply clean_if; [apply repeat_char_clean|apply clean_nil].
Qed.
Lemma cells_clean special k : forall cells out, write_cells special k cells = Ret out -> clean out.
Proof.
  induction cells as [|c r IH]; intros out H; cbn [write_cells] in H; [injection H as <-; apply clean_nil|].
  inv1 H. inv1 H. injection H as <-. apply clean_cons; [apply clean_styled|]. apply clean_app; [eapply composite_clean; eassumption|auto].
Qed.
Lemma rule_cells_clean k p : forall ws b, clean (rule_cells k p b ws).
Proof.
  induction ws as [|w r IH]; intros b; cbn [rule_cells]; [apply clean_nil|]. apply clean_app; [destruct b; easy_clean|].
  apply clean_app; [apply repeat_char_clean|auto].
Qed.
(** A line *)
Lemma clean_line special k line width r out : write_fmt_line special k line width r = Ret out -> clean out.
Proof.
  destruct line as [fc|cells|rule|]; cbn [write_fmt_line]; intros H.
  - eapply composite_clean, H.
  - destruct (optional_completions _ _ _) as (lpo & rpo). inv1 H. injection H as <-.
    apply clean_app; [apply repeat_char_clean|]. apply clean_app; [eapply cells_clean; eassumption|].
    apply clean_cons; [apply clean_styled|]. apply clean_if; [apply repeat_char_clean|apply clean_nil].
  - destruct (optional_completions _ _ _) as (lpo & rpo). injection H as <-.
    apply clean_app; [apply repeat_char_clean|]. apply clean_cons; [apply clean_styled|]. apply clean_app; [apply rule_cells_clean|].
    apply clean_cons; [apply clean_styled|]. apply clean_if; [apply repeat_char_clean|apply clean_nil].
  - injection H as <-. destruct width; [apply clean_styled|apply clean_nil].
Qed.
Lemma lines_clean special k w : forall lines out, display_lines special k lines w = Ret out -> clean out.
Proof.
  induction lines as [|l r IH]; intros out H; cbn [display_lines] in H; [injection H as <-; apply clean_nil|].
  inv1 H. inv1 H. injection H as <-. apply clean_app; [eapply clean_line; eassumption|]. apply clean_cons; [apply clean_print|auto].
Qed.
(** A text printed in a terminal, whatever its source, the skin and the size of the terminal *)
Lemma clean_text u special k usize_max text size out : print_text u special k usize_max text size = Ret out -> clean out.
Proof. unfold print_text, display_text. intros H. inv1 H. eapply lines_clean, H. Qed.
(** A snippet, printed as is or filling a width *)
Lemma clean_inline u special k c out : write_composite u special k c = Ret out \/ (exists w al, write_composite_fill u special k c w al = Ret out) -> clean out.
Proof.
  unfold write_composite, write_composite_fill, display_inline. intros [H|(w & al & H)]; [eapply composite_clean, H|]. inv1 H. eapply composite_clean, H.
Qed.

(** ** Views *)

Lemma rows_clean {A} (render : A -> nat -> outcome (list cmd)) v w sb : (forall l n out, render l n = Ret out -> clean out) ->
  forall rows lines j out, tv_write_rows render v w sb lines j rows = Ret out -> clean out.
Proof.
  intros R. induction rows as [|rows IH]; intros lines j out H; cbn [tv_write_rows] in H; [injection H as <-; apply clean_nil|].
  inv1 H. inv1 H. destruct x0 as (content & rest). inv1 H. injection H as <-.
  apply clean_cons; [apply clean_move|]. apply clean_app.
  - destruct lines as [|l ls]; inv1 E0; injection E0 as -> _; [eapply styled_filling; eassumption|eapply R; eassumption].
  - apply clean_app; [|eapply IH; eassumption]. destruct sb as [(a & b)|]; [|apply clean_nil]. destruct (_ && _); apply sc_clean.
Qed.
Lemma view_clean {A} (render : A -> nat -> outcome (list cmd)) v out : (forall l n out, render l n = Ret out -> clean out) ->
  tv_write_on render v = Ret out -> clean out.
Proof. unfold tv_write_on. intros R H. inv1 H. inv1 H. eapply rows_clean; [exact R|exact H]. Qed.
Lemma clean_text_view special k (v : TextView FmtLine) out : tv_write_on (render_line special k) v = Ret out -> clean out.
Proof. apply view_clean. intros l n o H. eapply clean_line, H. Qed.
Lemma clean_mad_view special k (v : MadView FmtLine) out : mv_write_on (render_line special k) v = Ret out -> clean out.
Proof. unfold mv_write_on. intros H. inv1 H. eapply clean_text_view, H. Qed.
(** A text drawn in an area, with or without scrollbar *)
Lemma clean_area u special k usize_max text a out :
  write_in_area_on u special k usize_max text a = Ret out \/ (exists scroll, mad_write_on u special k usize_max text a scroll = Ret out) -> clean out.
Proof. unfold write_in_area_on, mad_write_on. intros [H|(s & H)]; inv1 H; eapply clean_text_view, H. Qed.

(** ** Rectangles, crop writers *)

Lemma rect_rows_clean r : forall fuel y out, rect_rows r fuel y = Ret out -> clean out.
Proof.
  induction fuel as [|fuel IH]; intros y out H; cbn [rect_rows] in H; inv1 H; inv1 H; (destruct (y <? x0)%N; [|injection H as <-; apply clean_nil]); [discriminate H|].
  inv1 H. inv1 H. inv1 H. injection H as <-. apply clean_cons; [apply clean_move|]. apply clean_cons; [apply clean_styled|].
  apply clean_app; [|apply clean_cons; [apply clean_styled|eauto]].
  destruct (r_fill r); [destruct (2 <? a_width (r_area r))%N; [eapply styled_filling; eassumption|injection E1 as <-; apply clean_nil]|].
  inv1 E1. inv1 E1. injection E1 as <-. apply clean_move.
Qed.
Lemma clean_rect r out : rect_draw r = Ret out -> clean out.
Proof.
  unfold rect_draw. intros H. inv1 H. inv1 H. inv1 H. inv1 H. apply Ret_inj in H. subst out.
  assert (B : forall cs w a b c, clean (border_row cs w a b c)) by (intros; unfold border_row, cs_queue; easy_clean).
  apply clean_cons; [apply clean_move|]. apply clean_app; [apply B|]. apply clean_app; [eapply rect_rows_clean; eassumption|].
  apply clean_cons; [apply clean_move|apply B].
Qed.
Lemma bar_clean (sb : option (N * N)) (f : N -> N -> bool) s t : clean (match sb with Some (a, b) => if f a b then sc_queue s else sc_queue t | None => [] end).
Proof. destruct sb as [(a & b)|]; [destruct (f a b); apply sc_clean|apply clean_nil]. Qed.
Lemma draw_chars_clean u f normal sel n w skip j : forall chars i sk d out d' p,
  M_Input.draw_chars u f normal sel n w skip j chars i sk d = Ret (out, d', p) -> clean out.
Proof.
  induction chars as [|c r IH]; intros i sk d out d' p H; cbn [M_Input.draw_chars] in H; [injection H as <- _ _; apply clean_nil|].
  destruct (sk <? skip); [eapply IH, H|]. destruct (_ && _).
  - destruct (sel i); [inv1 H|]; injection H as <- _ _; apply clean_styled.
  - inv1 H. destruct x as (o & q). assert (O : clean o) by (destruct (sel i); [inv1 E|]; injection E as <- _; apply clean_styled).
    destruct (_ <=? _); [injection H as <- _ _; exact O|]. inv1 H. destruct x as ((rest & d2) & q2). injection H as <- _ _. apply clean_app; [exact O|eapply IH; eassumption].
Qed.
Lemma draw_line_clean u f normal w j y chars out p : M_Input.draw_line u f normal w j y chars = Ret (out, p) -> clean out.
Proof.
  unfold M_Input.draw_line. intros H. inv1 H. destruct x as ((o & d) & q). inv1 H. destruct x as ((o2 & d2) & q2). injection H as <- _.
  apply clean_app; [apply clean_if; [apply clean_styled|apply clean_nil]|]. apply clean_app; [eapply draw_chars_clean; eassumption|].
  apply clean_app; [|apply clean_repeat, clean_styled].
  match type of E0 with (if ?b then _ else _) = _ => destruct b end; [inv1 E0; injection E0 as <- _ _; apply clean_styled|injection E0 as <- _ _; apply clean_nil].
Qed.
Lemma draw_rows_clean u f normal sbs w sb : forall rows lines y j out p, M_Input.draw_rows u f normal sbs w sb lines y j rows = Ret (out, p) -> clean out.
Proof.
  induction rows as [|rows IH]; intros lines y j out p H; cbn [M_Input.draw_rows] in H; [injection H as <- _; apply clean_nil|].
  inv1 H. inv1 H. destruct x0 as (o & q). inv1 H. destruct x0 as (rest & q2). injection H as <- _.
  apply clean_cons; [apply clean_move|]. apply clean_app.
  - destruct lines as [|l ls]; [inv1 E0; injection E0 as -> _; eapply styled_filling; eassumption|eapply draw_line_clean; eassumption].
  - apply clean_app; [apply (bar_clean sb (fun a b => (a <=? x) && (x <=? b))%N)|eapply IH; eassumption].
Qed.
(** An input field; it gives the terminal its default background first *)
Lemma clean_input u f out p : M_Input.display_on u f = Ret (out, p) -> clean out.
Proof.
  unfold M_Input.display_on. intros H. inv1 H. inv1 H. inv1 H. destruct x1 as (o & q). injection H as <- _.
  apply clean_cons; [repeat constructor|]. eapply draw_rows_clean; eassumption.
Qed.

