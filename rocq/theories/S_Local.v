(** * Vocabulary for the formatting of a text in several parts *)
From Verif Require Import Base M_Style M_Wrap M_Text.
Set Implicit Arguments.

(** Lines of tables, and lines of code, in the parsed text *)
Definition of_table (l : MLine) : bool := match l with MTableRow _ | MTableRule _ => true | _ => false end.
Definition of_code (l : MLine) : bool := match l with MNormal c => match mc_style c with MCode => true | _ => false end | _ => false end.
(** A first part whose last line and a second part whose first line satisfy [p]: the run of such lines is cut in two *)
Definition cut {A} (p : A -> bool) (a b : list A) : Prop := exists a' x y b', a = a' ++ [x] /\ b = y :: b' /\ p x = true /\ p y = true.
(** Parts between which neither a table nor a block of code is cut *)
Definition separate (a b : list MLine) : Prop := ~ cut of_table a b /\ ~ cut of_code a b.
