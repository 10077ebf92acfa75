(** * Vocabulary for the looks of what is printed *)
From Verif Require Import Base M_Style S_Pen S_Paint S_Look.
Set Implicit Arguments.
Open Scope nat_scope.

(** The rows from [y] to [y + n - 1] of [seen] are the ones of [full], but for the blanks with the look of paragraphs which end each of them in [full]: in [seen] the cells are there as they were [before] *)
Definition without_ends (k : MadSkin) (w y n : nat) (before seen full : term) : Prop :=
  forall d, d < n -> exists e, e <= w
    /\ (forall x, x < e -> t_cell seen x (y + d) = t_cell full x (y + d))
    /\ (forall x, e <= x < w -> t_cell seen x (y + d) = t_cell before x (y + d) /\ t_cell full x (y + d) = Part 32%N 0 (look_of [ls_cs (paragraph k)])).
