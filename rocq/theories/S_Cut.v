(** * Vocabulary for the exact effect of the deletion of a selection *)
From Verif Require Import Base M_Content.
Open Scope nat_scope.
Set Implicit Arguments.

(** The lines which are selected from their start to their end are removed, but when there's just one of them *)
Definition unless_one (ls : list Line) : list Line := match ls with [l] => [l] | _ => [] end.
(** What is left of lines when the selection begins at [x1] in the line [l1] and ends at [x2] in the line [l2], after it *)
Definition rows_left (l1 : Line) (mid : list Line) (l2 : Line) (x1 x2 : nat) : list Line :=
  let first := if x1 =? 0 then ([], [l1]) else ([firstn x1 l1], []) in
  let last := if x2 <? length l2 then ([skipn x2 l2], []) else ([], [l2]) in
  fst first ++ unless_one (snd first ++ mid ++ snd last) ++ fst last.
(** What is left of a line, when the selection is in it *)
Definition row_left (l : Line) (x1 x2 : nat) : list Line :=
  if x2 <? length l then [firstn x1 l ++ skipn (x2 + 1) l] else if x1 =? 0 then [] else [firstn x1 l].
(** A text has always a line *)
Definition some_line (ls : list Line) : list Line := match ls with [] => [[]] | _ => ls end.
