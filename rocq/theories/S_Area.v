(** * Vocabulary for a text drawn in an area *)
From Verif Require Import Base M_Style M_Fit M_Wrap S_Wrap M_Text S_Text M_View S_View M_Render S_Render S_Input.
Set Implicit Arguments.
Open Scope nat_scope.

(** The spot [s] covers the cell [(x, y)] *)
Definition covers (u : unicode) (s : spot) (x y : nat) : Prop := s_y s = y /\ s_x s <= x < s_x s + chw u (s_char s).
(** The spots cover all the cells of the area, each one once, and no other cell *)
Definition fills (u : unicode) (a : Area) (spots : list spot) : Prop :=
  (forall x y, (exists s, In s spots /\ covers u s x y) <-> cell_in a (N.of_nat x) (N.of_nat y))
  /\ (forall i j s t x y, nth_error spots i = Some s -> nth_error spots j = Some t -> covers u s x y -> covers u t x y -> i = j).
(** The chars of a row, with their style *)
Definition row_chars (row : list spot) : list (char * option CStyle) := map (fun s => (s_char s, s_style s)) row.
Definition with_style (d : list (char * CStyle)) : list (char * option CStyle) := map (fun p => (fst p, Some (snd p))) d.

(** A line of a source which has its place in a width, with chars of at most 2 columns: a char more than its mark and margins,
    no code line larger than the width, 4 columns for each column of a table *)
Definition area_source (u : unicode) (k : MadSkin) (width : nat) (l : MLine) : Prop :=
  match l with
  | MNormal c => drawn_kind (kind_of (mc_style c))
      /\ forall lm rm, margins_of k (kind_of (mc_style c)) width lm rm ->
         lead k (kind_of (mc_style c)) + 2 + lm + rm <= width
         /\ (kind_of (mc_style c) = KCode -> sumw (chw u) (text_of (mc_compounds c)) + lm + rm <= width)
  | MTableRow cells => cells <> [] /\ 4 * length cells + 1 <= width /\ Forall (fun c => kind_of (mc_style c) = KParagraph) cells
  | MTableRule als => als <> [] /\ 4 * length als + 1 <= width
  | _ => True
  end.
(** The margins of a line don't need exactly the given width, with 3 columns for the text *)
Definition margins_not_just (k : MadSkin) (width : nat) : Prop :=
  forall kind ls, line_style k kind = Ret ls -> left_margin ls + right_margin ls + 3 <> width.
