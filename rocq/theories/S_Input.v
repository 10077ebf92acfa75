(** * Vocabulary for input fields *)
From Verif Require Import Base M_Style M_View S_View S_Fit M_Content S_Content M_Input.
Set Implicit Arguments.
Open Scope nat_scope.

(** ** The screen *)

(** A char written at a position of the screen (column and row), with a style if any *)
Record spot := mkSpot { s_x : nat; s_y : nat; s_style : option CStyle; s_char : char }.
Fixpoint put (u : unicode) (x y : nat) (st : option CStyle) (s : str) : list spot :=
  match s with [] => [] | c :: r => mkSpot x y st c :: put u (x + chw u c) y st r end.
(** What is written on the screen, in order, when the terminal's cursor is at [(x, y)]. The text has no control char. *)
Fixpoint screen (u : unicode) (x y : nat) (out : list cmd) : list spot :=
  match out with
  | [] => []
  | Print s :: r => put u x y None s ++ screen u (x + sumw (chw u) s) y r
  | Styled cs s :: r => put u x y (Some cs) s ++ screen u (x + sumw (chw u) s) y r
  | MoveTo x y :: r => screen u (N.to_nat x) (N.to_nat y) r
  | _ :: r => screen u x y r
  end.
(** The chars are written in the row [y], one after the other from the column [from] to the column [to] excluded *)
Fixpoint tiles (u : unicode) (y from : nat) (row : list spot) (to : nat) : Prop :=
  match row with
  | [] => from = to
  | s :: r => s_y s = y /\ s_x s = from /\ tiles u y (from + chw u (s_char s)) r to
  end.

(** ** The window of a field *)

Definition height (f : InputField) : nat := N.to_nat (a_height (if_area f)).
Definition nb_lines (f : InputField) : nat := length (clines (if_content f)).
(** The width left for the text: there's a scrollbar when there are more lines than rows *)
Definition text_width (f : InputField) : nat :=
  N.to_nat (a_width (if_area f)) - (if height f <? nb_lines f then 1 else 0).
Definition cursor_row (f : InputField) : nat := py (cpos (if_content f)).
(** The column of the cursor in its line *)
Definition cursor_col (u : unicode) (f : InputField) : nat :=
  match nth_error (clines (if_content f)) (cursor_row f) with
  | Some l => columns u (firstn (px (cpos (if_content f))) l)
  | None => 0
  end.
Definition row_visible (f : InputField) : Prop :=
  py (if_scroll f) <= cursor_row f < py (if_scroll f) + height f.
Definition col_visible (u : unicode) (f : InputField) : Prop :=
  px (if_scroll f) <= cursor_col u f < px (if_scroll f) + text_width f.

(** Only the scroll may differ *)
Definition only_scroll (f f' : InputField) : Prop := exists s, f' = with_scroll f s.
(** Only the content and the scroll may differ *)
Definition only_content (f f' : InputField) : Prop := exists c s, f' = with_scroll (with_content f c) s.

(** The area has a width and doesn't reach the last [u16] *)
Definition area_ok (a : Area) : Prop := (1 <= a_width a)%N /\ on_screen a.
Definition field_ok (f : InputField) : Prop := valid (if_content f) /\ area_ok (if_area f).

(** ** A row *)

(** What is displayed in place of a line *)
Definition masked (f : InputField) (l : list char) : list char := if password_mode f then map (fun _ => 42%N) l else l.
(** Chars, and whether they're drawn with the cursor style; [k] is the index of the first one *)
Definition flagged (selected : nat -> bool) (k : nat) (p : list char) : list (char * bool) := combine p (map selected (seq k (length p))).
Definition cells_width (u : unicode) (cells : list (char * bool)) : nat := columns u (map fst cells).
(** [cells] is what's shown of the line from its char [k] in [w] columns: all the chars if they fit, or the first ones and an ellipsis;
    then the cursor if it's after the end of the line and there's room, then spaces *)
Definition shows (u : unicode) (w : nat) (line : list char) (selected : nat -> bool) (cursor_at_end : bool) (k : nat) (cells : list (char * bool)) : Prop :=
  exists p q mark, skipn k line = p ++ q
  /\ (let used := columns u p + length mark in
      let after := if (used <? w) && cursor_at_end then [(32%N, true)] else [] in
      cells = flagged selected k p ++ mark ++ after ++ repeat (32%N, false) (w - used - length after))
  /\ match q with
     | [] => columns u p <= w /\ (forall p' c, p = p' ++ [c] -> columns u p' < w) /\ mark = []
     | c :: q' => columns u p < w /\ w <= columns u p + columns u [c] /\ (q' = [] -> w < columns u p + columns u [c])
             /\ mark = [(c_ellipsis, selected (k + length p))]
     end.
Definition styled (normal cursor : CStyle) (cells : list (char * bool)) : list cmd :=
  map (fun c : char * bool => Styled (if snd c then cursor else normal) [fst c]) cells.
(** The column of the last cell drawn with the cursor style, the first cell being at the column [x] *)
Fixpoint last_flag (u : unicode) (x : nat) (cells : list (char * bool)) : option nat :=
  match cells with
  | [] => None
  | (c, b) :: r => match last_flag u (x + columns u [c]) r with Some y => Some y | None => if b then Some x else None end
  end.
(** An ellipsis is displayed at the left of all the lines *)
Definition left_ellipsis (f : InputField) : bool := (0 <? px (if_scroll f)) && (4 <? text_width f).
Definition b2n (b : bool) : nat := if b then 1 else 0.
Definition is_selected (f : InputField) (y i : nat) : bool := focused f && range_contains (selection (if_content f)) i y.
Definition cursor_at_end (f : InputField) (y : nat) (l : list char) : bool :=
  focused f && (y =? cursor_row f) && (px (cpos (if_content f)) =? length l).
Definition normal_style (f : InputField) : CStyle := if focused f then focused_style f else unfocused_style f.

(** The chars which are always displayed have a width of 1 *)
Definition usual_widths (u : unicode) : Prop := chw u 32%N = 1 /\ chw u 8230%N = 1 /\ chw u 42%N = 1 /\ chw u 9616%N = 1.
(** No tab is displayed *)
Definition no_tab_shown (f : InputField) : Prop := password_mode f = true \/ forall l, In l (clines (if_content f)) -> ~ In 9%N l.
(** All the chars of the line take one column *)
Definition narrow (u : unicode) (l : list char) : Prop := forall c, In c l -> columns u [c] = 1.

(** The terminal position of the column [x], if any, of the row [j] of the area *)
Definition at_ (a : Area) (j : N) (x : option nat) : option (N * N) := option_map (fun x => ((a_left a + N.of_nat x)%N, (a_top a + j)%N)) x.
Fixpoint last_some {A} (l : list (option A)) : option A :=
  match l with [] => None | x :: r => match last_some r with Some y => Some y | None => x end end.

(** What is in the column of the scrollbar, in the row [j] *)
Definition bar_shown (f : InputField) (sbs : ScrollBarStyle) (sb : option (N * N)) (j : N) (bar : list cmd) : Prop :=
  match sb with
  | None => bar = []
  | Some (t, b) => let y := (a_top (if_area f) + j)%N in
      ((t <= y <= b)%N -> bar = sc_queue (thumb sbs)) /\ (~ (t <= y <= b)%N -> bar = sc_queue (track sbs))
  end.
(** [row] is the row [j] of the area, with a text width of [w]: the line of the content at this place, from the scroll, or spaces.
    [p] is the position of the cursor, if it's in the row *)
Definition row_shown (u : unicode) (f : InputField) (sbs : ScrollBarStyle) (w : nat) (sb : option (N * N)) (j : N) (row : list cmd) (p : option (N * N)) : Prop :=
  exists content bar, row = MoveTo (a_left (if_area f)) (a_top (if_area f) + j) :: content ++ bar
  /\ (let y := py (if_scroll f) + N.to_nat j in
      match nth_error (clines (if_content f)) y with
      | Some l =>
          let e := (0 <? px (if_scroll f)) && (4 <? w) in
          exists k cells, first_idx_at u (masked f l) (px (if_scroll f) + b2n e) k
          /\ shows u (w - b2n e) (masked f l) (is_selected f y) (cursor_at_end f y l) k cells
          /\ content = (if e then [Styled (normal_style f) [c_ellipsis]] else []) ++ styled (normal_style f) (cursor_style f) cells
          /\ p = at_ (if_area f) j (last_flag u 0 cells)
      | None => out_text content = repeat 32%N w /\ Forall (fun c => exists s, c = Styled (normal_style f) s) content /\ p = None
      end)
  /\ bar_shown f sbs sb j bar.

(** ** Clicks *)

(** [p] is the position for a click in the cell [(x, y)] of the screen: on the line displayed in this row, or the last one,
    and on the first char starting at this column or after it, or on the end of the line *)
Definition clicked (u : unicode) (f : InputField) (x y : N) (p : Pos) : Prop :=
  py p = Nat.min (py (if_scroll f) + N.to_nat (y - a_top (if_area f))) (nb_lines f - 1)
  /\ exists l, nth_error (clines (if_content f)) (py p) = Some l /\ first_idx_at u l (px (if_scroll f) + N.to_nat (x - a_left (if_area f))) (px p).
(** All chars of the line are visible *)
Definition all_visible (u : unicode) (l : list char) : Prop := forall c, In c l -> 1 <= columns u [c].
