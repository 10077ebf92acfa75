(** * Vocabulary for pointing at the text of an input field *)
From Verif Require Import Base M_Style M_Content S_Content M_View S_View M_Input S_Input S_Pen S_Paint.
Set Implicit Arguments.
Open Scope nat_scope.

(** All the chars of the text take one column *)
Definition narrow_text (u : unicode) (f : InputField) : Prop := forall l, In l (clines (if_content f)) -> narrow u l.
(** The reading order *)
Definition pos_le (p q : Pos) : bool := (py p <? py q) || ((py p =? py q) && (px p <=? px q)).
Definition pos_eq (p q : Pos) : bool := (py p =? py q) && (px p =? px q).
Definition between (p q x : Pos) : bool := (pos_le p x && pos_le x q) || (pos_le q x && pos_le x p).

(** The place in the text, line and char, of the cell at the column [c] and the row [j] of the area *)
Definition place (f : InputField) (c j : nat) : Pos := mkPos (py (if_scroll f) + j) (px (if_scroll f) + c).
(** A char of the text is there: the ellipsis at the left isn't one, but the one at the right is in place of a char *)
Definition on_text (f : InputField) (c j : nat) : Prop :=
  c < text_width f /\ j < height f /\ (left_ellipsis f = true -> c <> 0)
  /\ exists l, nth_error (clines (if_content f)) (py (place f c j)) = Some l /\ px (place f c j) < length l.
(** The column where the cursor is seen when it's after the end of its line, which has [n] chars *)
Definition end_column (f : InputField) (n : nat) : nat := Nat.max (n - px (if_scroll f)) (b2n (left_ellipsis f)).
(** The cell has the style of the cursor: it's at the cursor or in the selection *)
Definition lit (f : InputField) (c j : nat) : bool :=
  focused f
  && match nth_error (clines (if_content f)) (py (place f c j)) with
     | None => false
     | Some l =>
         if left_ellipsis f && (c =? 0) then false
         else if px (place f c j) <? length l then
           match ctail (if_content f) with
           | Some t => between t (cpos (if_content f)) (place f c j)
           | None => pos_eq (place f c j) (cpos (if_content f))
           end
         else pos_eq (cpos (if_content f)) (mkPos (py (place f c j)) (length l)) && (c =? end_column f (length l))
     end.
(** What is seen in this cell *)
Definition field_char (f : InputField) (c j : nat) : char :=
  match nth_error (clines (if_content f)) (py (place f c j)) with
  | None => 32%N
  | Some l =>
      if left_ellipsis f && (c =? 0) then c_ellipsis
      else match nth_error l (px (place f c j)) with
           | None => 32%N
           | Some ch => if (S c =? text_width f) && (S (px (place f c j)) <? length l) then c_ellipsis else if password_mode f then 42%N else ch
           end
  end.
Definition field_cell (f : InputField) (c j : nat) : seen :=
  Part (field_char f c j) 0 (worn (Some (if lit f c j then cursor_style f else normal_style f))).

(** The mouse on the cell at the column [c] and the row [j] of the area: its left button is pressed there, or it's dragged there with this button pressed *)
Definition mouse_at (f : InputField) (kind : MouseEventKind) (mods : N) (c j : nat) : Event :=
  EMouse (mkMouse kind (a_left (if_area f) + N.of_nat c) (a_top (if_area f) + N.of_nat j) mods).
Definition press (f : InputField) (c j : nat) : Event := mouse_at f (MDown BLeft) 0 c j.
Definition drag (f : InputField) (c j : nat) : Event := mouse_at f (MDrag BLeft) 0 c j.
Definition release (f : InputField) (c j : nat) : Event := mouse_at f (MUp BLeft) 0 c j.
