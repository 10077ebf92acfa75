(** * The application of the example [inputs]: examples/inputs/view.rs *)
From Verif Require Import Base M_Style M_View M_Content M_Input.
Set Implicit Arguments.
Open Scope N_scope.

(** examples/inputs/view.rs:32-38 *)
Inductive Focus := FIntro | FLogin | FPassword | FComments.
Definition focus_eqb (a b : Focus) : bool :=
  match a, b with FIntro, FIntro | FLogin, FLogin | FPassword, FPassword | FComments, FComments => true | _, _ => false end.
(** examples/inputs/view.rs:41-49 *)
Definition focus_after (f : Focus) : Focus := match f with FIntro => FLogin | FLogin => FPassword | FPassword => FComments | FComments => FIntro end.

Section View.
Context {A : Type} (u : unicode).
(** examples/inputs/view.rs:18-30, without [label_skin], which is only used in drawings *)
Record View := mkView {
  vw_area : Area; drawable : bool; introduction : MadView A; login_label : Area; login : InputField;
  password_label : Area; password : InputField; comments_label : Area; comments : InputField; vw_focus : Focus }.
(** The fields are changed, and the focus *)
Definition with_fields (v : View) (l p c : InputField) (f : Focus) : View :=
  mkView (vw_area v) (drawable v) (introduction v) (login_label v) l (password_label v) p (comments_label v) c f.
Definition with_intro (v : View) (i : MadView A) : View :=
  mkView (vw_area v) (drawable v) i (login_label v) (login v) (password_label v) (password v) (comments_label v) (comments v) (vw_focus v).
(** examples/inputs/view.rs:100-105 *)
Definition vw_set_focus (v : View) (f : Focus) : outcome View :=
  l <- set_focus u (login v) (focus_eqb f FLogin) ;;
  p <- set_focus u (password v) (focus_eqb f FPassword) ;;
  c <- set_focus u (comments v) (focus_eqb f FComments) ;;
  Ret (with_fields v l p c f).
(** src/views/input_field.rs:75 *)
Definition ENTER : KeyComb := mkKey 0 [KEnter].
(** examples/inputs/view.rs:54-83; [text] and [skin] are the ones of the introduction, [style] is the one made with [gray(22)] and [gray(2)], [value] is [MD_COMMENTS_VALUE] *)
Definition vw_default (text : N -> list A) (skin : MadSkin) (style : CStyle) (value : str) : outcome View :=
  let a := area_uninitialized in
  let field := set_normal_style if_default style in
  v <- vw_set_focus (mkView a false (mv_from text a skin) a field a (with_password field true) a field FLogin) FLogin ;;
  c <- if_set_str u (new_line_on (comments v) ENTER) value ;;
  Ret (with_fields v (login v) (password v) c (vw_focus v)).
(** examples/inputs/view.rs:109-134 *)
Definition vw_resize (v : View) (a : Area) : outcome (View * bool) :=
  if area_eqb (vw_area v) a then Ret (v, false) else
  if (20 <=? a_width a) && (15 <=? a_height a) then
    h15 <- sub16 (a_height a) 15 ;;
    h <- add16 4 (h15 / 2) ;;
    w3 <- sub16 (a_width a) 3 ;;
    let intro_area := mkArea 1 1 w3 h in
    b <- bottom intro_area ;;
    y <- add16 b 2 ;;
    let half_width := w3 / 2 in
    x <- add16 half_width 2 ;;
    l <- change_area u (login v) x y half_width ;;
    y2 <- add16 y 2 ;;
    p <- change_area u (password v) x y2 half_width ;;
    y3 <- add16 y2 2 ;;
    h1 <- sub16 (a_height a) 1 ;;
    lh <- sub16 h1 h ;;
    ch <- sub16 (a_height a) y3 ;;
    ch <- sub16 ch 1 ;;
    c <- set_area u (comments v) (mkArea x y3 half_width ch) ;;
    Ret (mkView a true (mv_resize (introduction v) intro_area) (mkArea 1 y half_width 1) l (mkArea 1 y2 half_width 1) p (mkArea 1 y3 half_width lh) c (vw_focus v), true)
  else Ret (mkView a false (introduction v) (login_label v) (login v) (password_label v) (password v) (comments_label v) (comments v) (vw_focus v), true).
(** examples/inputs/view.rs:87-91 *)
Definition vw_new (text : N -> list A) (skin : MadSkin) (style : CStyle) (value : str) (a : Area) : outcome View :=
  v <- vw_default text skin style value ;; '(v, _) <- vw_resize v a ;; Ret v.
(** The clipboard: what [get_string] gives, [None] being an error, and whether [set_string] works (examples/inputs/clipboard.rs) *)
Record Clipboard := mkClip { clip_get : option str; clip_set : bool }.
Definition CTRL : N := 2.
(** examples/inputs/view.rs:143-153, the field having the focus, with examples/inputs/clipboard.rs:9-33 *)
Definition input_key (cb : Clipboard) (f : InputField) (k : KeyComb) : outcome (InputField * bool) :=
  '(f, b) <- apply_key_combination u f k ;;
  if b then Ret (f, true)
  else if key_eqb k (mkKey CTRL [KChar 99]) then _ <- copy_selection f ;; Ret (f, clip_set cb)
  else if key_eqb k (mkKey CTRL [KChar 120]) then '(f, _) <- cut_selection u f ;; Ret (f, clip_set cb)
  else if key_eqb k (mkKey CTRL [KChar 118]) then match clip_get cb with Some s => f <- replace_selection u f s ;; Ret (f, true) | None => Ret (f, false) end
  else Ret (f, false).
(** examples/inputs/view.rs:135-157 *)
Definition vw_key (cb : Clipboard) (v : View) (k : KeyComb) : outcome (View * bool) :=
  if key_eqb k (mkKey 0 [KEsc]) then v' <- vw_set_focus v FIntro ;; Ret (v', true)
  else if key_eqb k (mkKey 0 [KTab]) then v' <- vw_set_focus v (focus_after (vw_focus v)) ;; Ret (v', true)
  else match vw_focus v with
  | FLogin => '(f, b) <- input_key cb (login v) k ;; Ret (with_fields v f (password v) (comments v) (vw_focus v), b)
  | FPassword => '(f, b) <- input_key cb (password v) k ;; Ret (with_fields v (login v) f (comments v) (vw_focus v), b)
  | FComments => '(f, b) <- input_key cb (comments v) k ;; Ret (with_fields v (login v) (password v) f (vw_focus v), b)
  | FIntro => '(i, b) <- mv_apply_key (introduction v) k ;; Ret (with_intro v i, b)
  end.
(** examples/inputs/view.rs:158-169 *)
Definition vw_mouse (v : View) (e : MouseEvent) (double_click : bool) : outcome (View * bool) :=
  '(l, b) <- apply_mouse_event u (login v) e double_click ;;
  v' <- (if b then vw_set_focus (with_fields v l (password v) (comments v) (vw_focus v)) FLogin else
    '(p, b) <- apply_mouse_event u (password v) e double_click ;;
    if b then vw_set_focus (with_fields v l p (comments v) (vw_focus v)) FPassword else
    '(c, b) <- apply_mouse_event u (comments v) e double_click ;;
    vw_set_focus (with_fields v l p c (vw_focus v)) (if b then FComments else FIntro)) ;;
  Ret (v', true).
(** The events; a key is the [KeyCombination] made from the event *)
Inductive view_event := VKey (k : KeyComb) (cb : Clipboard) | VMouse (e : MouseEvent) (double_click : bool) | VResize (w h : N) | VOther.
(** examples/inputs/view.rs:170-177 *)
Definition vw_event (v : View) (e : view_event) : outcome (View * bool) :=
  match e with
  | VKey k cb => vw_key cb v k
  | VMouse e d => vw_mouse v e d
  | VResize w h => vw_resize v (mkArea 0 0 w h)
  | VOther => Ret (v, false)
  end.
(** The events of the loop of examples/inputs/main.rs:54-68 which come before the end *)
Fixpoint vw_run (v : View) (es : list view_event) : outcome View :=
  match es with [] => Ret v | e :: r => '(v', _) <- vw_event v e ;; vw_run v' r end.
End View.
Arguments View A : clear implicits.
