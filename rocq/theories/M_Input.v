(** * Model of src/views/input_field.rs

    The content is the one of M_Content, the area the one of M_View. Scroll and sizes (usize) are [nat], screen positions (u16) are [N].
    Displaying the field is giving the commands queued and the returned position. *)
From Verif Require Import Base M_Style M_Fit M_View M_Content.
Set Implicit Arguments.
Open Scope nat_scope.

(** ** Events, from crossterm and crokey *)

Definition keycode_eqb (a b : KeyCode) : bool :=
  match a, b with
  | KChar x, KChar y => N.eqb x y
  | KOther x, KOther y => N.eqb x y
  | KUp, KUp | KDown, KDown | KLeft, KLeft | KRight, KRight | KPageUp, KPageUp | KPageDown, KPageDown | KHome, KHome
  | KEnd, KEnd | KDelete, KDelete | KBackspace, KBackspace | KEnter, KEnter | KTab, KTab | KBackTab, KBackTab | KEsc, KEsc => true
  | _, _ => false
  end.
Fixpoint keycodes_eqb (a b : list KeyCode) : bool :=
  match a, b with
  | [], [] => true
  | x :: a, y :: b => keycode_eqb x y && keycodes_eqb a b
  | _, _ => false
  end.
(** derived [PartialEq] of crokey's [KeyCombination] *)
Definition key_eqb (a b : KeyComb) : bool := N.eqb (kmods a) (kmods b) && keycodes_eqb (kcodes a) (kcodes b).
(** crossterm's [KeyModifiers::SHIFT] *)
Definition SHIFT : N := 1.

Inductive MouseButton := BLeft | BRight | BMiddle.
Inductive MouseEventKind := MDown (b : MouseButton) | MUp (b : MouseButton) | MDrag (b : MouseButton)
| MMoved | MScrollDown | MScrollUp | MScrollLeft | MScrollRight.
Record MouseEvent := mkMouse { m_kind : MouseEventKind; m_column : N; m_row : N; m_mods : N }.
(** crossterm's [Event], the kind (press, release...) and state of the key events being left out *)
Inductive Event := EKey (code : KeyCode) (mods : N) | EMouse (e : MouseEvent) | EResize (w h : N) | EFocus (gained : bool) | EPaste (s : str).

(** ** The field *)

(** src/views/input_field.rs:41-53 *)
Record InputField := mkIF {
  if_content : content; if_area : Area; focused_style : CStyle; unfocused_style : CStyle; cursor_style : CStyle;
  password_mode : bool; focused : bool; if_scroll : Pos; new_line_keys : list KeyComb
}.
(** src/views/input_field.rs:78-94 *)
Definition if_new (a : Area) : InputField :=
  mkIF content_default a cs_default cs_default (cs_add_attr cs_default Reverse) false true (mkPos 0 0) [].
(** src/views/input_field.rs:55-59 *)
Definition if_default : InputField := if_new area_uninitialized.

(** The field which is changed, the others being kept *)
Definition with_content (f : InputField) (c : content) : InputField :=
  mkIF c (if_area f) (focused_style f) (unfocused_style f) (cursor_style f) (password_mode f) (focused f) (if_scroll f) (new_line_keys f).
Definition with_area (f : InputField) (a : Area) : InputField :=
  mkIF (if_content f) a (focused_style f) (unfocused_style f) (cursor_style f) (password_mode f) (focused f) (if_scroll f) (new_line_keys f).
Definition with_focus (f : InputField) (b : bool) : InputField :=
  mkIF (if_content f) (if_area f) (focused_style f) (unfocused_style f) (cursor_style f) (password_mode f) b (if_scroll f) (new_line_keys f).
Definition with_scroll (f : InputField) (s : Pos) : InputField :=
  mkIF (if_content f) (if_area f) (focused_style f) (unfocused_style f) (cursor_style f) (password_mode f) (focused f) s (new_line_keys f).
Definition with_keys (f : InputField) (k : list KeyComb) : InputField :=
  mkIF (if_content f) (if_area f) (focused_style f) (unfocused_style f) (cursor_style f) (password_mode f) (focused f) (if_scroll f) k.
(** the public field [password_mode] *)
Definition with_password (f : InputField) (b : bool) : InputField :=
  mkIF (if_content f) (if_area f) (focused_style f) (unfocused_style f) (cursor_style f) b (focused f) (if_scroll f) (new_line_keys f).

Section WithUnicode.
Context (u : unicode).

(** src/views/input_field.rs:482-507: the vertical scroll, for [len] lines and the cursor in the line [y] *)
Definition fix_scroll_y (focus : bool) (height len y sy : nat) : outcome nat :=
  if height <? len then
    sy <- (if len <? sy + height then csub len height else Ret sy) ;;
    if focus then
      if y <? sy then Ret (if (0 <? y) && (4 <? height) then y - 1 else y)
      else if sy + height <=? y then
        s <- csub y height ;;
        if y + 1 <? len then csub (s + 1) 1 else Ret (s + 1)
      else Ret sy
    else Ret sy
  else Ret 0.
(** src/views/input_field.rs:509-541: the horizontal scroll *)
Definition fix_scroll_x (focus : bool) (width : nat) (line : list char) (x sx : nat) : outcome nat :=
  let line_width := line_width u line in
  if line_width <? width then Ret 0
  else
    sx <- (if focus then
             if width <? 4 then
               if x <? 2 then Ret 0
               else if x <? sx + 1 then csub x 1
               else if sx + width <? x then csub (x + 1) width
               else Ret sx
             else
               wpx <- char_idx_to_col u line x ;;
               if wpx <? sx + 2 then (if wpx <? 2 then Ret 0 else csub wpx 2)
               else
                 m <- csub (sx + width) 2 ;;
                 if m <? wpx then csub (wpx + 2) width else Ret sx
           else Ret sx) ;;
    if line_width + 1 <? sx + width then csub (line_width + 1) width else Ret sx.
(** src/views/input_field.rs:477-542 *)
Definition fix_scroll (f : InputField) : outcome InputField :=
  let c := if_content f in
  let height := N.to_nat (a_height (if_area f)) in
  let len := length (clines c) in
  width <- (if height <? len then csub (N.to_nat (a_width (if_area f))) 1 else Ret (N.to_nat (a_width (if_area f)))) ;;
  sy <- fix_scroll_y (focused f) height len (py (cpos c)) (py (if_scroll f)) ;;
  line <- current_line c ;;
  sx <- fix_scroll_x (focused f) width line (px (cpos c)) (px (if_scroll f)) ;;
  Ret (with_scroll f (mkPos sy sx)).

(** ** Direct manipulation *)

(** src/views/input_field.rs:95-97 *)
Definition set_mono_line (f : InputField) : InputField := with_keys f [].
(** src/views/input_field.rs:113-115 *)
Definition new_line_on (f : InputField) (k : KeyComb) : InputField := with_keys f (new_line_keys f ++ [k]).
(** src/views/input_field.rs:119-126 *)
Definition change_area (f : InputField) (x y w : N) : outcome InputField :=
  let a := if_area f in
  if negb (N.eqb (a_left a) x) || negb (N.eqb (a_top a) y) || negb (N.eqb (a_width a) w)
  then fix_scroll (with_area f (mkArea x y w (a_height a)))
  else Ret f.
(** src/views/input_field.rs:127-132 *)
Definition set_area (f : InputField) (a : Area) : outcome InputField :=
  if area_eqb (if_area f) a then Ret f else fix_scroll (with_area f a).
(** src/views/input_field.rs:141-150 *)
Definition set_focus (f : InputField) (b : bool) : outcome InputField :=
  if Bool.eqb (focused f) b then Ret f else
  let f := with_focus f b in
  if b then fix_scroll f else Ret f.
(** src/views/input_field.rs:154-158 *)
Definition set_normal_style (f : InputField) (s : CStyle) : InputField :=
  mkIF (if_content f) (if_area f) s (unfocused_style f) (cs_add_attr s Reverse) (password_mode f) (focused f) (if_scroll f) (new_line_keys f).
(** src/views/input_field.rs:159-161 *)
Definition set_unfocused_style (f : InputField) (s : CStyle) : InputField :=
  mkIF (if_content f) (if_area f) (focused_style f) s (cursor_style f) (password_mode f) (focused f) (if_scroll f) (new_line_keys f).
(** src/views/input_field.rs:165-167 *)
Definition get_content (f : InputField) : str := to_string (if_content f).
(** src/views/input_field.rs:177-179 *)
Definition copy_selection (f : InputField) : outcome str := selection_string (if_content f).
(** src/views/input_field.rs:180-185 *)
Definition cut_selection (f : InputField) : outcome (InputField * str) :=
  s <- selection_string (if_content f) ;;
  '(c, _) <- del_selection (if_content f) ;;
  f <- fix_scroll (with_content f c) ;;
  Ret (f, s).
(** src/views/input_field.rs:190-196 *)
Definition replace_selection (f : InputField) (s : str) : outcome InputField :=
  c <- (if has_wide_selection (if_content f) then '(c, _) <- del_selection (if_content f) ;; Ret c else Ret (if_content f)) ;;
  c <- insert_str c s ;;
  fix_scroll (with_content f c).
(** src/views/input_field.rs:205-208 *)
Definition if_set_str (f : InputField) (s : str) : outcome InputField :=
  c <- set_str (if_content f) s ;; fix_scroll (with_content f c).
(** src/views/input_field.rs:209-213 *)
Definition if_insert_new_line (f : InputField) : outcome (InputField * bool) :=
  c <- insert_new_line (if_content f) ;; f <- fix_scroll (with_content f c) ;; Ret (f, true).
(** src/views/input_field.rs:216-220 *)
Definition put_char (f : InputField) (ch : char) : outcome (InputField * bool) :=
  c <- insert_char (if_content f) ch ;; f <- fix_scroll (with_content f c) ;; Ret (f, true).
(** src/views/input_field.rs:221-224 *)
Definition if_clear (f : InputField) : outcome InputField := fix_scroll (with_content f (clear (if_content f))).
(** src/views/input_field.rs:227-230 *)
Definition if_insert_str (f : InputField) (s : str) : outcome InputField :=
  c <- insert_str (if_content f) s ;; fix_scroll (with_content f c).

(** src/views/input_field.rs:61-72: the macro [wrap_content_fun] *)
Definition wrapped (op : content -> outcome (content * bool)) (f : InputField) : outcome (InputField * bool) :=
  '(c, b) <- op (if_content f) ;;
  if b then f <- fix_scroll (with_content f c) ;; Ret (f, true) else Ret (with_content f c, false).
(** src/views/input_field.rs:232-249 *)
Definition if_move_up := wrapped (move_up u).
Definition if_move_down := wrapped (move_down u).
Definition if_move_left := wrapped move_left.
Definition if_move_right := wrapped move_right.
Definition if_move_to_start := wrapped (fun c => Ret (move_to_start c)).
Definition if_move_to_end := wrapped move_to_end.
Definition if_move_to_line_start := wrapped (fun c => Ret (move_to_line_start c)).
Definition if_move_to_line_end := wrapped move_to_line_end.
Definition if_move_word_left := wrapped (move_word_left u).
Definition if_move_word_right := wrapped (move_word_right u).
Definition if_del_char_below := wrapped del_char_below.
Definition if_del_selection := wrapped del_selection.
Definition if_del_char_left := wrapped del_char_left.
Definition if_del_word_left := wrapped (del_word_left u).
Definition if_del_word_right := wrapped (del_word_right u).
Definition if_move_current_line_up := wrapped move_current_line_up.
Definition if_move_current_line_down := wrapped move_current_line_down.
Definition if_select_word_around := wrapped (select_word_around u).
(** src/views/input_field.rs:251-267 *)
Definition page_up (f : InputField) := wrapped (fun c => move_lines_up u c (N.to_nat (a_height (if_area f)))) f.
Definition page_down (f : InputField) := wrapped (fun c => move_lines_down u c (N.to_nat (a_height (if_area f)))) f.
(** src/views/input_field.rs:457-464 *)
Definition scroll_up (f : InputField) : InputField * bool :=
  if 0 <? py (if_scroll f) then (with_scroll f (mkPos (py (if_scroll f) - 1) (px (if_scroll f))), true) else (f, false).
(** src/views/input_field.rs:466-475 *)
Definition scroll_down (f : InputField) : InputField * bool :=
  if py (if_scroll f) + N.to_nat (a_height (if_area f)) <? length (clines (if_content f))
  then (with_scroll f (mkPos (py (if_scroll f) + 1) (px (if_scroll f))), true) else (f, false).

(** ** Events *)

(** src/views/input_field.rs:311-353 *)
Definition apply_keycode_event (f : InputField) (code : KeyCode) (shift : bool) : outcome (InputField * bool) :=
  let c := if_content f in
  match code with
  | KBackspace =>
      if has_wide_selection c then '(c, _) <- del_selection c ;; Ret (with_content f c, true)
      else '(c, b) <- del_char_left c ;; Ret (with_content f c, b)
  | KDelete =>
      if has_wide_selection c then '(c, _) <- del_selection c ;; Ret (with_content f c, true)
      else '(c, b) <- del_char_below c ;; Ret (with_content f c, b)
  | KChar ch =>
      if has_wide_selection c then
        '(c, _) <- del_selection c ;;
        '(f, _) <- put_char (with_content f c) ch ;;
        f <- fix_scroll f ;;
        Ret (f, true)
      else put_char f ch
  | _ =>
      let f := with_content f (if shift then make_selection c else unselect c) in
      match code with
      | KHome => if_move_to_line_start f
      | KEnd => if_move_to_line_end f
      | KUp => if_move_up f
      | KDown => if_move_down f
      | KLeft => if_move_left f
      | KPageUp => page_up f
      | KPageDown => page_down f
      | KRight => if_move_right f
      | _ => Ret (f, false)
      end
  end.
(** src/views/input_field.rs:289-304 *)
Definition apply_key_combination (f : InputField) (k : KeyComb) : outcome (InputField * bool) :=
  if negb (focused f) then Ret (f, false) else
  if existsb (key_eqb k) (new_line_keys f) then '(f, _) <- if_insert_new_line f ;; Ret (f, true) else
  match kcodes k with
  | [code] =>
      if N.eqb (kmods k) 0 then apply_keycode_event f code false
      else if N.eqb (kmods k) SHIFT then apply_keycode_event f code true
      else Ret (f, false)
  | _ => Ret (f, false)
  end.
(** src/views/input_field.rs:277-279; [into] is crokey's conversion of a [KeyEvent] into a [KeyCombination] *)
Definition apply_key_event (into : KeyCode -> N -> KeyComb) (f : InputField) (code : KeyCode) (mods : N) : outcome (InputField * bool) :=
  apply_key_combination f (into code mods).

(** src/views/input_field.rs:359-364 and 386-391: the position in the content of a cell of the area *)
Definition cell_pos (f : InputField) (x y : N) : outcome Pos :=
  let a := if_area f in
  dy <- sub16 y (a_top a) ;;
  last <- csub (line_count (if_content f)) 1 ;;
  let row := Nat.min (N.to_nat dy + py (if_scroll f)) last in
  line <- idx (clines (if_content f)) row ;;
  dx <- sub16 x (a_left a) ;;
  Ret (mkPos row (match col_to_char_idx u line (N.to_nat dx + px (if_scroll f)) with Some i => i | None => length line end)).
(** src/views/input_field.rs:356-373 *)
Definition apply_click_event (f : InputField) (x y : N) : outcome (InputField * bool) :=
  inside <- contains (if_area f) x y ;;
  if inside then
    if focused f then
      p <- cell_pos f x y ;;
      c <- set_cursor_pos (if_content f) p ;;
      Ret (with_content f c, true)
    else Ret (with_focus f true, true)
  else Ret (f, false).
(** src/views/input_field.rs:376-427 *)
Definition apply_mouse_event (f : InputField) (e : MouseEvent) (is_double_click : bool) : outcome (InputField * bool) :=
  inside <- contains (if_area f) (m_column e) (m_row e) ;;
  if inside then
    if focused f then
      p <- cell_pos f (m_column e) (m_row e) ;;
      let c := if_content f in
      match m_kind e with
      | MDown BLeft =>
          c <- set_cursor_pos (if N.eqb (m_mods e) SHIFT then make_selection c else unselect c) p ;;
          Ret (with_content f c, true)
      | MUp BLeft =>
          if is_double_click then
            c <- set_cursor_pos c p ;;
            '(c, _) <- select_word_around u c ;;
            Ret (with_content f c, true)
          else Ret (f, true)
      | MDrag BLeft =>
          c <- set_cursor_pos (make_selection c) p ;;
          Ret (with_content f c, true)
      | MScrollDown => Ret (fst (scroll_down f), true)
      | MScrollUp => Ret (fst (scroll_up f), true)
      | _ => Ret (f, true)
      end
    else
      match m_kind e with
      | MDown BLeft => Ret (with_focus f true, true)
      | _ => Ret (f, true)
      end
  else Ret (f, false).
(** src/views/input_field.rs:432-448 *)
Definition apply_event (f : InputField) (e : Event) (is_double_click : bool) : outcome (InputField * bool) :=
  match e with
  | EMouse e => apply_mouse_event f e is_double_click
  | EKey code mods =>
      if focused f then
        if N.eqb mods 0 then apply_keycode_event f code false
        else if N.eqb mods SHIFT then apply_keycode_event f code true
        else Ret (f, false)
      else Ret (f, false)
  | _ => Ret (f, false)
  end.
(** src/views/input_field.rs:453-455, with the [event] and [double_click] of the timed event *)
Definition apply_timed_event (f : InputField) (event : Event) (double_click : bool) : outcome (InputField * bool) :=
  apply_event f event double_click.

(** ** Display *)

(** The terminal position returned for the column [displayed] of the row [j]: src/views/input_field.rs:622-625 *)
Definition cursor_at (a : Area) (displayed : nat) (j : N) : outcome (N * N) :=
  x <- add16 (a_left a) (N.of_nat displayed mod U16)%N ;;
  y <- add16 (a_top a) j ;;
  Ret (x, y).
(** the loop of src/views/input_field.rs:607-644; [selected i] tells whether the char of index [i] has the cursor style, [n] is the number of
    chars of the line. Gives the commands, the displayed width and the terminal position if it's set *)
Fixpoint draw_chars (f : InputField) (normal : CStyle) (selected : nat -> bool) (n width width_to_skip : nat) (j : N)
    (chars : list char) (i skipped displayed : nat) : outcome (list cmd * nat * option (N * N)) :=
  match chars with
  | [] => Ret ([], displayed, None)
  | c :: r =>
      let c := if password_mode f then 42%N else c in
      let cw := char_width u c in
      if skipped <? width_to_skip then draw_chars f normal selected n width width_to_skip j r (S i) (skipped + cw) displayed
      else if (width <=? displayed + cw) && (negb (i =? n - 1) || (width <? displayed + cw)) then
        if selected i then
          p <- cursor_at (if_area f) displayed j ;;
          Ret (cs_queue (cursor_style f) [c_ellipsis], displayed + 1, Some p)
        else Ret (cs_queue normal [c_ellipsis], displayed + 1, None)
      else
        '(out, p) <- (if selected i then p <- cursor_at (if_area f) displayed j ;; Ret (cs_queue (cursor_style f) [c], Some p)
                      else Ret (cs_queue normal [c], None)) ;;
        if width <=? displayed + cw then Ret (out, displayed + cw, p)
        else
          '(rest, d, q) <- draw_chars f normal selected n width width_to_skip j r (S i) skipped (displayed + cw) ;;
          Ret (out ++ rest, d, match q with Some _ => q | None => p end)
  end.
(** src/views/input_field.rs:595-658: the line [y], in the row [j] *)
Definition draw_line (f : InputField) (normal : CStyle) (width : nat) (j : N) (y : nat) (chars : list char) : outcome (list cmd * option (N * N)) :=
  let c := if_content f in
  let cursor_at_end := focused f && (y =? py (cpos c)) && (px (cpos c) =? length chars) in
  let ellipsis := (0 <? px (if_scroll f)) && (4 <? width) in
  let width_to_skip := if ellipsis then px (if_scroll f) + 1 else px (if_scroll f) in
  let width := if ellipsis then width - 1 else width in
  '(out, displayed, p) <- draw_chars f normal (fun i => focused f && range_contains (selection c) i y) (length chars) width width_to_skip j chars 0 0 0 ;;
  '(out_end, displayed, p) <-
    (if (displayed <? width) && cursor_at_end then
       q <- cursor_at (if_area f) displayed j ;;
       Ret (cs_queue (cursor_style f) [c_space], displayed + 1, Some q)
     else Ret ([], displayed, p)) ;;
  Ret ((if ellipsis then cs_queue normal [c_ellipsis] else []) ++ out ++ out_end ++ concat (repeat (cs_queue normal [c_space]) (width - displayed)), p).
(** src/views/input_field.rs:583-667; [lines] are the lines from the one of the row [j], whose index is [y] *)
Fixpoint draw_rows (f : InputField) (normal : CStyle) (sbs : ScrollBarStyle) (width : nat) (sb : option (N * N)) (lines : list (list char)) (y : nat)
    (j : N) (rows : nat) : outcome (list cmd * option (N * N)) :=
  match rows with
  | O => Ret ([], None)
  | S rows =>
      ay <- add16 j (a_top (if_area f)) ;;
      '(out, p) <- match lines with
                   | chars :: _ => draw_line f normal width j y chars
                   | [] => o <- filling_queue_styled SPACE_FILLING normal width ;; Ret (o, None)
                   end ;;
      let bar := match sb with
                 | Some (sctop, scbottom) => if ((sctop <=? ay) && (ay <=? scbottom))%N then sc_queue (thumb sbs) else sc_queue (track sbs)
                 | None => []
                 end in
      '(rest, q) <- draw_rows f normal sbs width sb (tl lines) (S y) (j + 1) rows ;;
      Ret (MoveTo (a_left (if_area f)) ay :: out ++ bar ++ rest, match q with Some _ => q | None => p end)
  end.
(** src/views/input_field.rs:573-581 *)
Definition scrollbar_style (f : InputField) : ScrollBarStyle :=
  let s := scrollbar skin_default in
  if focused f then match bg (focused_style f) with Some b => sb_set_bg s b | None => s end else s.
(** src/views/input_field.rs:555-669 *)
Definition display_on (f : InputField) : outcome (list cmd * option (N * N)) :=
  let normal := if focused f then focused_style f else unfocused_style f in
  sb <- area_scrollbar (if_area f) (N.of_nat (py (if_scroll f)) mod U16) (N.of_nat (line_count (if_content f)) mod U16) ;;
  width <- (match sb with Some _ => csub (N.to_nat (a_width (if_area f))) 1 | None => Ret (N.to_nat (a_width (if_area f))) end) ;;
  '(out, p) <- draw_rows f normal (scrollbar_style f) width sb (skipn (py (if_scroll f)) (clines (if_content f))) (py (if_scroll f)) 0
                 (N.to_nat (a_height (if_area f))) ;;
  Ret (SetBg Reset :: out, p).

(** ** Histories *)

Inductive if_op :=
| IfMono | IfNewLineOn (k : KeyComb) | IfChangeArea (x y w : N) | IfSetArea (a : Area) | IfSetFocus (b : bool) | IfPassword (b : bool)
| IfNormalStyle (s : CStyle) | IfUnfocusedStyle (s : CStyle)
| IfCut | IfReplace (s : str) | IfSetStr (s : str) | IfInsertStr (s : str) | IfNewLine | IfPut (c : char) | IfClear
| IfUp | IfDown | IfLeft | IfRight | IfToStart | IfToEnd | IfToLineStart | IfToLineEnd | IfWordLeft | IfWordRight
| IfDelBelow | IfDelSelection | IfDelLeft | IfDelWordLeft | IfDelWordRight | IfLineUp | IfLineDown | IfSelectWord | IfPageUp | IfPageDown
| IfScrollUp | IfScrollDown
| IfKeycode (k : KeyCode) (shift : bool) | IfKey (k : KeyComb) | IfClick (x y : N) | IfEvent (e : Event) (double_click : bool).

Definition no_bool (m : outcome InputField) : outcome (InputField * bool) := f <- m ;; Ret (f, true).
(** Dispatch; the boolean is the returned one, [true] when there's none *)
Definition if_apply (f : InputField) (o : if_op) : outcome (InputField * bool) :=
  match o with
  | IfMono => Ret (set_mono_line f, true)
  | IfNewLineOn k => Ret (new_line_on f k, true)
  | IfChangeArea x y w => no_bool (change_area f x y w)
  | IfSetArea a => no_bool (set_area f a)
  | IfSetFocus b => no_bool (set_focus f b)
  | IfPassword b => Ret (with_password f b, true)
  | IfNormalStyle s => Ret (set_normal_style f s, true)
  | IfUnfocusedStyle s => Ret (set_unfocused_style f s, true)
  | IfCut => '(f, _) <- cut_selection f ;; Ret (f, true)
  | IfReplace s => no_bool (replace_selection f s)
  | IfSetStr s => no_bool (if_set_str f s)
  | IfInsertStr s => no_bool (if_insert_str f s)
  | IfNewLine => if_insert_new_line f
  | IfPut c => put_char f c
  | IfClear => no_bool (if_clear f)
  | IfUp => if_move_up f
  | IfDown => if_move_down f
  | IfLeft => if_move_left f
  | IfRight => if_move_right f
  | IfToStart => if_move_to_start f
  | IfToEnd => if_move_to_end f
  | IfToLineStart => if_move_to_line_start f
  | IfToLineEnd => if_move_to_line_end f
  | IfWordLeft => if_move_word_left f
  | IfWordRight => if_move_word_right f
  | IfDelBelow => if_del_char_below f
  | IfDelSelection => if_del_selection f
  | IfDelLeft => if_del_char_left f
  | IfDelWordLeft => if_del_word_left f
  | IfDelWordRight => if_del_word_right f
  | IfLineUp => if_move_current_line_up f
  | IfLineDown => if_move_current_line_down f
  | IfSelectWord => if_select_word_around f
  | IfPageUp => page_up f
  | IfPageDown => page_down f
  | IfScrollUp => Ret (scroll_up f)
  | IfScrollDown => Ret (scroll_down f)
  | IfKeycode k shift => apply_keycode_event f k shift
  | IfKey k => apply_key_combination f k
  | IfClick x y => apply_click_event f x y
  | IfEvent e d => apply_event f e d
  end.
Fixpoint if_run (f : InputField) (ops : list if_op) : outcome InputField :=
  match ops with [] => Ret f | o :: r => '(f', _) <- if_apply f o ;; if_run f' r end.

End WithUnicode.
