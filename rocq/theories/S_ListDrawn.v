(** * Vocabulary for C118: the cells in which a list is drawn *)
From Verif Require Import Base M_Style M_View S_View M_Render S_Render M_List S_List S_Pen S_Paint S_Read S_ListRead.
Set Implicit Arguments.
Open Scope nat_scope.

(** The cells of a list drawn in its area: in the columns of the list, those of the title, of the separator and of the rows which are seen; under them,
    everything on the right of the left side of the area; and the ones of the scrollbar, just on the right of the area *)
Definition cells_of_list {T} (v : ListView T) (scrolled : bool) (x y : nat) : Prop :=
  let a := lv_area v in let left := N.to_nat (a_left a) in let top := N.to_nat (a_top a) in let lines := N.to_nat (a_height a) - 2 in
  (top <= y < top + 2 + length (seen_rows v) /\ left <= x < left + line_len (widths_of (columns v)))
  \/ (top + 2 + length (seen_rows v) <= y < top + 2 + lines /\ left <= x)
  \/ (scrolled = true /\ top + 2 <= y < top + 2 + lines /\ x = left + N.to_nat (a_width a)).
Definition has_bar (sb : option (N * N)) : bool := match sb with Some _ => true | None => false end.
