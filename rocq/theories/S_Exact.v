(** * Vocabulary: the lines which can't be formatted *)
From Verif Require Import Base M_Style M_Fit M_Wrap S_Wrap M_Text S_Text.
Set Implicit Arguments.

(** A line too large whose bullet and indentation don't fit between its margins *)
Definition stuck_line (k : MadSkin) (width : nat) (l : FmtLine) : Prop :=
  match l with
  | Normal fc => exists lm rm, margins_of k (fc_kind fc) width lm rm
      /\ width < visible_length fc + lm + rm /\ width < lead k (fc_kind fc) + lm + rm
  | _ => False
  end.

(** A cell which needs several lines in a column of width 3 *)
Definition needs_lines (u : unicode) (k : MadSkin) (c : FmtComposite) : Prop :=
  3 < visible_length c /\ exists a b r, hard_wrap_composite u k c 3 = Ret (Some (a :: b :: r)).

(** A table which doesn't fit, whose columns are removed, and which has a row with less cells than the columns which
    are kept, one of them needing several lines *)
Definition stuck_table (u : unicode) (k : MadSkin) (width : nat) (t : list FmtLine) : Prop :=
  0 < width < 4 * table_cols t + 1
  /\ exists cells c, In (TableRow cells) t /\ length cells < (width - 1) / 4 /\ In c cells /\ needs_lines u k c.

(** The cells are paragraphs, headers, quotes, code or items of the two first levels *)
Definition plain_cells (k : MadSkin) (l : FmtLine) : Prop :=
  match l with TableRow cells => Forall (fun c => lead k (fc_kind c) <= 3) cells | _ => True end.
