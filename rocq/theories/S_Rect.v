(** * Vocabulary for rectangles *)
From Verif Require Import Base M_Style M_View S_View S_Input M_Rect.
Set Implicit Arguments.
Open Scope nat_scope.

Definition left_of (r : Rect) : nat := N.to_nat (a_left (r_area r)).
Definition top_of (r : Rect) : nat := N.to_nat (a_top (r_area r)).
Definition width_of (r : Rect) : nat := N.to_nat (a_width (r_area r)).
Definition height_of (r : Rect) : nat := N.to_nat (a_height (r_area r)).
Definition in_rect (r : Rect) (x y : nat) : Prop := left_of r <= x < left_of r + width_of r /\ top_of r <= y < top_of r + height_of r.

(** [c] is what must be seen in the cell [(x, y)] of a rectangle of at least 2x2 *)
Inductive cell_of (r : Rect) : nat -> nat -> char -> Prop :=
| cell_tl : cell_of r (left_of r) (top_of r) (b_top_left (r_border r))
| cell_tr : cell_of r (left_of r + width_of r - 1) (top_of r) (b_top_right (r_border r))
| cell_bl : cell_of r (left_of r) (top_of r + height_of r - 1) (b_bottom_left (r_border r))
| cell_br : cell_of r (left_of r + width_of r - 1) (top_of r + height_of r - 1) (b_bottom_right (r_border r))
| cell_t x : left_of r < x < left_of r + width_of r - 1 -> cell_of r x (top_of r) (b_top (r_border r))
| cell_b x : left_of r < x < left_of r + width_of r - 1 -> cell_of r x (top_of r + height_of r - 1) (b_bottom (r_border r))
| cell_l y : top_of r < y < top_of r + height_of r - 1 -> cell_of r (left_of r) y (b_left (r_border r))
| cell_r y : top_of r < y < top_of r + height_of r - 1 -> cell_of r (left_of r + width_of r - 1) y (b_right (r_border r))
| cell_in x y : r_fill r = true -> left_of r < x < left_of r + width_of r - 1 -> top_of r < y < top_of r + height_of r - 1 -> cell_of r x y 32%N.

(** All the chars of the border, and the space, take one column *)
Definition border_chars (b : RectBorderStyle) : list char :=
  [b_top_left b; b_top_right b; b_bottom_right b; b_bottom_left b; b_top b; b_right b; b_bottom b; b_left b].
Definition thin_border (u : unicode) (b : RectBorderStyle) : Prop := chw u 32%N = 1 /\ Forall (fun c => chw u c = 1) (border_chars b).
