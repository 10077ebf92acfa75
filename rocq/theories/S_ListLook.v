(** * Vocabulary for the looks of a list on a terminal *)
From Verif Require Import Base M_Style M_View S_View M_Render S_Render M_List S_List S_Pen S_Paint S_Read S_ListRead S_Look.
Set Implicit Arguments.
Open Scope nat_scope.

(** The look of a cell of the terminal: an erased one has only a background *)
Definition ink (s : seen) : pen := match s with Part _ _ p => p | Nothing b => mkPen Reset b 0 end.
(** [w] cells of a line have this look *)
Definition wears (t : term) (x y w : nat) (p : pen) : Prop := forall i, i < w -> ink (t_cell t (x + i) y) = p.
(** Only a background *)
Definition ground (b : Color) : CStyle := mkCS None (Some b) None 0.
(** What is put over the styles of a row, when it's the selected one *)
Definition marking {T} (v : ListView T) (i : nat) : list CStyle :=
  match selection v with Some s => if Nat.eqb s i then [ground (selection_background v)] else [] | None => [] end.
(** The background of the selection isn't one of the styles of the row, and no style resets it *)
Definition plain_row {T} (v : ListView T) (d : T) : Prop :=
  (bg (ls_cs (table (lv_skin v))) = None /\ cs_has_attr (ls_cs (table (lv_skin v))) AReset = false)
  /\ (forall c, In c (columns v) -> bg (cell_style (extract c d)) <> Some (selection_background v) /\ cs_has_attr (cell_style (extract c d)) AReset = false)
  /\ selection_background v <> Reset.
