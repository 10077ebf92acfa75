(** * Vocabulary for texts printed one after the other *)
From Verif Require Import Base M_Style M_Fit M_Wrap S_Wrap M_Text S_Text M_View S_View M_Render S_Render M_Area S_Pen S_Area S_Origin S_Paint S_Read S_Whole S_Paper S_Look S_PaperLook.
Set Implicit Arguments.
Open Scope nat_scope.

(** A text which is printed: with which skin, and for which size of terminal *)
Record printing := mkPrinting { pr_skin : MadSkin; pr_text : list MLine; pr_size : option (N * N) }.
Definition pr_width (j : printing) : nat := N.to_nat (fst (terminal_size (pr_size j))).
(** Where the text is: its rows, shared among its lines, and the widths of its blocks of code *)
Record shown_text := mkShown { sh_rows : nat; sh_laid : list Laid; sh_blocks : list nat }.
Definition well_laid (j : printing) (s : shown_text) : Prop :=
  length (sh_laid s) = length (pr_text j) /\ length (sh_blocks s) = length (pr_text j) /\ Forall (fun p => 1 <= l_rows p) (sh_laid s)
  /\ sum (map l_rows (sh_laid s)) = sh_rows s /\ aligned (pr_text j) (sh_laid s) /\ same_blocks (pr_text j) (sh_blocks s).
(** From the row [y] of the terminal [seen], each line of the text is read in its rows, with its looks but for the blanks at the ends of the rows, where the cells are as they were [before] *)
Definition text_seen (u : unicode) (j : printing) (s : shown_text) (before seen : term) (y : nat) : Prop :=
  let k := pr_skin j in let w := pr_width j in
  (forall i l p, nth_error (pr_text j) i = Some l -> nth_error (sh_laid s) i = Some p -> reads_line u k seen p l 0 (y + sum (map l_rows (firstn i (sh_laid s)))) w)
  /\ (forall x d, w <= x -> d < sh_rows s -> t_cell seen x (y + d) = t_cell before x (y + d))
  /\ exists full, without_ends k w y (sh_rows s) before seen full
     /\ forall i l p bw, nth_error (pr_text j) i = Some l -> nth_error (sh_laid s) i = Some p -> nth_error (sh_blocks s) i = Some bw ->
        looks_line u k full p bw l 0 (y + sum (map l_rows (firstn i (sh_laid s)))) w.
