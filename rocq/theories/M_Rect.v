(** * Model of src/rect.rs *)
From Verif Require Import Base M_Style M_Fit M_View.
Set Implicit Arguments.
Open Scope nat_scope.

(** src/rect.rs:15-25 *)
Record RectBorderStyle := mkBorder {
  b_top_left : char; b_top_right : char; b_bottom_right : char; b_bottom_left : char; b_top : char; b_right : char; b_bottom : char; b_left : char
}.
(** src/rect.rs:27-36 *)
Definition BORDER_STYLE_HALF_WIDTH_OUTSIDE : RectBorderStyle := mkBorder 9627 9628 9631 9625 9600 9616 9604 9612.
(** src/rect.rs:38-47 *)
Definition BORDER_STYLE_MIDDLE_SQUARE_LINE : RectBorderStyle := mkBorder 9484 9488 9496 9492 9472 9474 9472 9474.
(** src/rect.rs:49-58 *)
Definition BORDER_STYLE_MIDDLE_ROUND_LINE : RectBorderStyle := mkBorder 9581 9582 9583 9584 9472 9474 9472 9474.
(** src/rect.rs:60-69 *)
Definition BORDER_STYLE_BLAND : RectBorderStyle := mkBorder 32 32 32 32 32 32 32 32.

(** src/rect.rs:77-82 *)
Record Rect := mkRect { r_area : Area; r_colors : CStyle; r_fill : bool; r_border : RectBorderStyle }.
(** src/rect.rs:85-92 *)
Definition rect_new (a : Area) (cs : CStyle) : Rect := mkRect a cs false BORDER_STYLE_BLAND.
(** src/rect.rs:93-95 *)
Definition set_border_style (r : Rect) (bs : RectBorderStyle) : Rect := mkRect (r_area r) (r_colors r) (r_fill r) bs.
(** src/rect.rs:96-98 *)
Definition set_fill (r : Rect) (b : bool) : Rect := mkRect (r_area r) (r_colors r) b (r_border r).

(** src/rect.rs:105-111 and 127-133: a corner, the border, and the other corner *)
Definition border_row (cs : CStyle) (width : N) (a b c : char) : list cmd :=
  cs_queue cs [a] ++ (if (2 <? width)%N then concat (repeat (cs_queue cs [b]) (N.to_nat (width - 2))) else []) ++ cs_queue cs [c].
(** the loop of src/rect.rs:113-125 *)
Fixpoint rect_rows (r : Rect) (fuel : nat) (y : N) : outcome (list cmd) :=
  let a := r_area r in
  limit <- add16 (a_top a) (a_height a) ;;
  limit <- sub16 limit 1 ;;
  if (y <? limit)%N then
    match fuel with
    | O => OutOfFuel
    | S fuel =>
        middle <- (if r_fill r then
                     if (2 <? a_width a)%N then filling_queue_styled SPACE_FILLING (r_colors r) (N.to_nat (a_width a) - 2) else Ret []
                   else
                     x <- add16 (a_left a) (a_width a) ;;
                     x <- sub16 x 1 ;;
                     Ret [MoveTo x y]) ;;
        y' <- add16 y 1 ;;
        others <- rect_rows r fuel y' ;;
        Ret (MoveTo (a_left a) y :: cs_queue (r_colors r) [b_left (r_border r)] ++ middle ++ cs_queue (r_colors r) [b_right (r_border r)] ++ others)
    end
  else Ret [].
(** src/rect.rs:99-135 *)
Definition rect_draw (r : Rect) : outcome (list cmd) :=
  let a := r_area r in
  let cs := r_colors r in
  let bs := r_border r in
  y <- add16 (a_top a) 1 ;;
  middle <- rect_rows r (N.to_nat (a_height a)) y ;;
  b <- bottom a ;;
  last <- sub16 b 1 ;;
  Ret (MoveTo (a_left a) (a_top a) :: border_row cs (a_width a) (b_top_left bs) (b_top bs) (b_top_right bs)
       ++ middle ++ MoveTo (a_left a) last :: border_row cs (a_width a) (b_bottom_left bs) (b_bottom bs) (b_bottom_right bs)).
