(** * Vocabulary for C117: several widgets on the same terminal *)
From Verif Require Import Base M_Style M_Fit M_Wrap M_TblFit M_Text M_View S_View M_Render S_Render M_Rect S_Rect M_List S_List L_List2 S_ListRead S_ListLook S_ListDrawn M_Input S_Input S_Pen S_Paint S_Read S_Look S_Whole S_Pages S_Resized S_Point S_Drawn S_App P_Render P_View P_Area P_Look.
Set Implicit Arguments.
Open Scope nat_scope.

Section Widgets.
(** What is in the rows of the lists *)
Context {T : Type}.

(** A text in a view with its skin, an input field, a rectangle, or a list. The text is only there to tell what is shown: what is drawn is the view. *)
Inductive widget := WView (k : MadSkin) (um : nat) (text : list MLine) (v : MadView FmtLine) | WField (f : InputField) | WRect (r : Rect) | WList (v : ListView T).
(** What is asked from one of them before it's drawn *)
Inductive request := AskView (ops : list mv_op) | AskField (ops : list if_op) | AskRect | AskList (ops : list (lv_op T)).
(** The cells of a widget *)
Definition cells_of (w : widget) : nat -> nat -> Prop :=
  match w with
  | WView _ _ _ v => inside (mv_area v)
  | WField f => inside (if_area f)
  | WRect r => if r_fill r then inside (r_area r) else on_border (r_area r)
  | WList v => cells_of_list v (match lv_scrollbar v with Ret sb => has_bar sb | _ => false end)
  end.
(** The widget after the operations, and what is written to draw it. There are no other calls. *)
Definition turn (u : unicode) (w : widget) (q : request) : outcome (widget * list cmd) :=
  match w, q with
  | WView k um text v, AskView ops => v' <- mv_run v ops ;; out <- mv_write_on (render_line no_special k) v' ;; Ret (WView k um text v', out)
  | WField f, AskField ops => f' <- if_run u f ops ;; '(out, _) <- display_on u f' ;; Ret (WField f', out)
  | WRect r, AskRect => out <- rect_draw r ;; Ret (WRect r, out)
  | WList v, AskList ops => v' <- lv_run v ops ;; out <- lv_write_on v' ;; Ret (WList v', out)
  | _, _ => Panic
  end.
(** What is written to draw a widget as it is *)
Definition drawing_of (u : unicode) (w : widget) : outcome (list cmd) :=
  match w with
  | WView k _ _ v => mv_write_on (render_line no_special k) v
  | WField f => '(out, _) <- display_on u f ;; Ret out
  | WRect r => rect_draw r
  | WList v => lv_write_on v
  end.
(** A widget which is alone on the terminal *)
Fixpoint alone (u : unicode) (w : widget) (tm : term) (l : list request) : outcome (widget * term) :=
  match l with
  | [] => Ret (w, tm)
  | q :: r => '(w', out) <- turn u w q ;; alone u w' (term_run u tm out) r
  end.
(** Widgets on the same terminal, each request being for one of them *)
Fixpoint replace {A : Type} (l : list A) (i : nat) (x : A) : list A :=
  match l, i with [], _ => [] | _ :: r, 0 => x :: r | y :: r, S i => y :: replace r i x end.
Fixpoint together (u : unicode) (ws : list widget) (tm : term) (l : list (nat * request)) : outcome (list widget * term) :=
  match l with
  | [] => Ret (ws, tm)
  | (i, q) :: r => match nth_error ws i with
      | None => Panic
      | Some w => '(w', out) <- turn u w q ;; together u (replace ws i w') (term_run u tm out) r
      end
  end.
(** The requests for the widget [i] *)
Definition its (i : nat) (l : list (nat * request)) : list request := map snd (List.filter (fun q => Nat.eqb (fst q) i) l).
(** Where a widget is drawn *)
Fixpoint places (u : unicode) (w : widget) (l : list request) : list (nat -> nat -> Prop) :=
  match l with
  | [] => []
  | q :: r => match turn u w q with Ret (w', _) => cells_of w' :: places u w' r | _ => [] end
  end.
(** The requests are for widgets which exist, and each widget can be drawn when asked, in its cells *)
Fixpoint proper (u : unicode) (w : widget) (l : list request) : Prop :=
  match l with
  | [] => True
  | q :: r => exists w' out, turn u w q = Ret (w', out) /\ draws u (cells_of w') out /\ proper u w' r
  end.
(** The widgets other than [i] aren't drawn in this cell *)
Definition left_by_others (u : unicode) (ws : list widget) (l : list (nat * request)) (i x y : nat) : Prop :=
  forall j w P, j <> i -> nth_error ws j = Some w -> In P (places u w (its j l)) -> ~ P x y.
(** The widgets are kept in separate cells *)
Definition separate (u : unicode) (ws : list widget) (l : list (nat * request)) : Prop :=
  forall i j w w' P Q, i <> j -> nth_error ws i = Some w -> nth_error ws j = Some w' -> In P (places u w (its i l)) -> In Q (places u w' (its j l)) -> apart P Q.
(** The operations don't make a list panic, and each time it's drawn it can be so, as in C100, C107 and C118 *)
Fixpoint list_used (u : unicode) (v : ListView T) (groups : list (list (lv_op T))) : Prop :=
  match groups with
  | [] => True
  | g :: r => exists v' sb, lv_run v g = Ret v' /\ well_titled v' /\ drawable u v' /\ lv_scroll v' <= length (rows v') /\ lv_scrollbar v' = Ret sb /\ list_used u v' r
  end.
(** What C115, C116, C50 and C118 ask *)
Definition well_used (u : unicode) (w : widget) (l : list request) : Prop :=
  match w with
  | WView k um text v => exists a groups, v = source_view u k um text a /\ l = map AskView groups
      /\ usual u no_special k /\ is_white u 32%N = true /\ ellipsis_seen u /\ Forall no_ellipsis text /\ good_area u k um text a /\ ops_good (good_area u k um text) a (concat groups)
  | WField f => exists n groups, l = map AskField groups /\ usual_widths u /\ fine u n f (concat groups)
  | WRect r => Forall (eq AskRect) l /\ thin_border u (r_border r) /\ on_screen (r_area r) /\ 2 <= width_of r /\ 2 <= height_of r
  | WList v => exists groups, l = map AskList groups /\ list_used u v groups
  end.
(** The cells in which a list is drawn *)
Fixpoint list_places (v : ListView T) (groups : list (list (lv_op T))) : list (nat -> nat -> Prop) :=
  match groups with [] => [] | g :: r => match lv_run v g with Ret v' => cells_of (WList v') :: list_places v' r | _ => [] end end.
(** The cells in which a widget is drawn, told from the areas it's given *)
Definition drawn_in (w : widget) (l : list request) : list (nat -> nat -> Prop) :=
  match w with
  | WView _ _ _ v => map inside (drawn_areas (mv_area v) (flat_map (fun q => match q with AskView ops => [ops] | _ => [] end) l))
  | WField f => map inside (field_areas (if_area f) (flat_map (fun q => match q with AskField ops => [ops] | _ => [] end) l))
  | WRect r => map (fun _ => cells_of w) l
  | WList v => list_places v (flat_map (fun q => match q with AskList ops => [ops] | _ => [] end) l)
  end.
(** Each widget has its own cells *)
Definition own_cells (ws : list widget) (l : list (nat * request)) : Prop :=
  forall i j w w' P Q, i <> j -> nth_error ws i = Some w -> nth_error ws j = Some w' -> In P (drawn_in w (its i l)) -> In Q (drawn_in w' (its j l)) -> apart P Q.
(** The titles, the rows and the free lines of a list are seen, with their looks, the selected row being marked: as in C100 and C107 *)
Definition list_seen (tm : term) (v : ListView T) : Prop :=
  let a := lv_area v in let ws := widths_of (columns v) in let tts := map (@lc_title T) (columns v) in
  let left := N.to_nat (a_left a) in let top := N.to_nat (a_top a) in let lines := N.to_nat (a_height a) - 2 in
  (forall i j h title, title_run tts i j -> nth_error tts i = Some title -> nth_error (headers (lv_skin v)) 0 = Some h ->
     let w := col_start ws j - 1 - col_start ws i in
     put_in Center w title (read_row tm (left + col_start ws i) top w) /\ wears tm (left + col_start ws i) top w (look_of [ls_cs h]))
  /\ (forall j i r, nth_error (seen_rows v) j = Some i -> nth_error (rows v) i = Some r -> forall p c, nth_error (columns v) p = Some c ->
     put_in (lc_align c) (N.to_nat (lc_width c)) (con (extract c (data r))) (read_cell_of tm v p j)
     /\ wears tm (left + col_start ws p) (top + 2 + j) (N.to_nat (lc_width c)) (look_of (cell_style (extract c (data r)) :: marking v i)))
  /\ (forall j, length (seen_rows v) <= j < lines -> read_row tm left (top + 2 + j) (N.to_nat (a_width a)) = repeat 32%N (N.to_nat (a_width a)) /\ wears tm left (top + 2 + j) (N.to_nat (a_width a)) pen0).
(** What is seen of a widget after its requests, [w'] being what it has become *)
Definition shows (u : unicode) (w : widget) (l : list request) (tm : term) (w' : widget) : Prop :=
  match w with
  | WView k um text v => forall groups, l = map AskView groups -> exists a' s n ps bws,
      fold_left (after (lines_in u k um text)) (concat groups) (mv_area v, 0%N) = (a', s) /\ w' = WView k um text (mv_with (source_view u k um text a') s)
      /\ laid_in u k um text a' n ps bws /\ seen_from u k tm text a' n ps bws (N.to_nat s)
  | WField f => forall groups, l = map AskField groups -> exists f', if_run u f (concat groups) = Ret f' /\ w' = WField f'
      /\ forall c j, c < text_width f' -> j < height f' -> t_cell tm (N.to_nat (a_left (if_area f')) + c) (N.to_nat (a_top (if_area f')) + j) = field_cell f' c j
  | WRect r => w' = WRect r /\ forall x y c, cell_of r x y c -> t_cell tm x y = Part c 0 (look_of [r_colors r])
  | WList v => forall groups, l = map AskList groups -> exists v', lv_run v (concat groups) = Ret v' /\ w' = WList v' /\ list_seen tm v'
  end.
End Widgets.
Arguments widget T : clear implicits.
Arguments request T : clear implicits.
