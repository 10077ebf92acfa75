(** * Vocabulary for the lines drawn by borders

    The box-drawing chars are seen as arms going from the center of their cell to some of its sides, and the quadrants as filled
    quarters of their cell. Those shapes are the ones of the Unicode standard (blocks 2500-257F and 2580-259F). *)
From Verif Require Import Base M_Style M_Text M_Rect M_Render S_Render.
Set Implicit Arguments.
Open Scope nat_scope.

Inductive side := SUp | SRight | SDown | SLeft.
Definition opposite (s : side) : side := match s with SUp => SDown | SRight => SLeft | SDown => SUp | SLeft => SRight end.
(** The cell [(x', y')] is the one on the side [s] of [(x, y)] *)
Definition beside (s : side) (x y x' y' : nat) : Prop :=
  match s with
  | SUp => x' = x /\ y = S y'
  | SDown => x' = x /\ y' = S y
  | SLeft => x = S x' /\ y' = y
  | SRight => x' = S x /\ y' = y
  end.

(** The arms of the light box-drawing chars, rounded corners included *)
Definition box_chars : list (char * list side) :=
  [(9472%N (* ─ *), [SRight; SLeft]); (9474%N (* │ *), [SUp; SDown]);
   (9484%N (* ┌ *), [SRight; SDown]); (9488%N (* ┐ *), [SDown; SLeft]); (9492%N (* └ *), [SUp; SRight]); (9496%N (* ┘ *), [SUp; SLeft]);
   (9500%N (* ├ *), [SUp; SRight; SDown]); (9508%N (* ┤ *), [SUp; SDown; SLeft]); (9516%N (* ┬ *), [SRight; SDown; SLeft]); (9524%N (* ┴ *), [SUp; SRight; SLeft]);
   (9532%N (* ┼ *), [SUp; SRight; SDown; SLeft]);
   (9581%N (* ╭ *), [SRight; SDown]); (9582%N (* ╮ *), [SDown; SLeft]); (9583%N (* ╯ *), [SUp; SLeft]); (9584%N (* ╰ *), [SUp; SRight])].
(** [c] has exactly the arms [l] *)
Definition arms (c : char) (l : list side) : Prop := exists l', In (c, l') box_chars /\ forall s, In s l <-> In s l'.
Definition arm (c : char) (s : side) : Prop := exists l, In (c, l) box_chars /\ In s l.

(** The filled quarters of a cell, as [(right, lower)] *)
Definition block_chars : list (char * list (bool * bool)) :=
  [(9600%N (* ▀ *), [(false, false); (true, false)]); (9604%N (* ▄ *), [(false, true); (true, true)]);
   (9612%N (* ▌ *), [(false, false); (false, true)]); (9616%N (* ▐ *), [(true, false); (true, true)]);
   (9625%N (* ▙ *), [(false, false); (false, true); (true, true)]); (9627%N (* ▛ *), [(false, false); (true, false); (false, true)]);
   (9628%N (* ▜ *), [(false, false); (true, false); (true, true)]); (9631%N (* ▟ *), [(true, false); (false, true); (true, true)])].
Definition filled (c : char) (right lower : bool) : Prop := exists l, In (c, l) block_chars /\ In (right, lower) l.

(** Each char of the borders of a table has exactly the arms needed at its place *)
Record joining (t : TableBorderChars) : Prop := {
  jn_h : arms (horizontal t) [SLeft; SRight];
  jn_v : arms (vertical t) [SUp; SDown];
  jn_tl : arms (top_left_corner t) [SRight; SDown];
  jn_tr : arms (top_right_corner t) [SLeft; SDown];
  jn_bl : arms (bottom_left_corner t) [SRight; SUp];
  jn_br : arms (bottom_right_corner t) [SLeft; SUp];
  jn_t : arms (top_junction t) [SLeft; SRight; SDown];
  jn_b : arms (bottom_junction t) [SLeft; SRight; SUp];
  jn_l : arms (left_junction t) [SUp; SDown; SRight];
  jn_r : arms (right_junction t) [SUp; SDown; SLeft];
  jn_c : arms (cross t) [SUp; SDown; SLeft; SRight]
}.

(** The char [c] is drawn with the style [st] at the column [x] *)
Definition at_column (u : unicode) (d : list (char * CStyle)) (x : nat) (c : char) (st : CStyle) : Prop :=
  exists a b, d = a ++ (c, st) :: b /\ drawn_width u a = x.
(** Where the border number [j] of a table is, from the left of the table, the columns having the widths [ws] *)
Definition edge (ws : list nat) (j : nat) : nat := sum (firstn j ws) + j.
Definition is_rule (l : FmtLine) : Prop := exists r, l = TableRule r.
(** The arms which must be there, on the border number [j], in the line number [i] of a table: all of them, but the ones which would go
    out of the table, or in a cell *)
Definition wanted (table : list FmtLine) (ws : list nat) (i : nat) (l : FmtLine) (j : nat) (s : side) : Prop :=
  match s with
  | SUp => ~ is_rule l \/ i <> 0
  | SDown => ~ is_rule l \/ i = 0 \/ S i <> length table
  | SLeft => is_rule l /\ 0 < j
  | SRight => is_rule l /\ j < length ws
  end.

(** Each char of the border of a rectangle has exactly the arms needed at its place *)
Record joining_rect (b : RectBorderStyle) : Prop := {
  jr_tl : arms (b_top_left b) [SRight; SDown];
  jr_tr : arms (b_top_right b) [SLeft; SDown];
  jr_bl : arms (b_bottom_left b) [SRight; SUp];
  jr_br : arms (b_bottom_right b) [SLeft; SUp];
  jr_t : arms (b_top b) [SLeft; SRight];
  jr_b : arms (b_bottom b) [SLeft; SRight];
  jr_l : arms (b_left b) [SUp; SDown];
  jr_r : arms (b_right b) [SUp; SDown]
}.
