(** * Vocabulary for C111: the columns of a table whose available width changes *)
From Verif Require Import Base M_TblFit S_TblFit.
Set Implicit Arguments.

(** The widths given to the [n] columns of a table which has these cells, in [aw] columns of the terminal *)
Definition given_widths (n aw : nat) (cells : list (nat * nat)) (ws : list nat) : Prop :=
  exists t r, tf_new n aw = Ret (Some t) /\ tf_fit (see_cells t cells) = Ret r /\ col_widths r = ws.
(** The column can't be made smaller without being under its average width or under 5 columns: its cells have about the same width, or are small *)
Definition steady (ws : list nat) : Prop := natural ws <= 4 \/ forall a, average ws a -> natural ws <= a + 1.
