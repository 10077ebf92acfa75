(** * Vocabulary for C91 *)
From Verif Require Import Base M_Style M_Fit M_Wrap M_TblFit M_Text S_Wrap S_Text.
Set Implicit Arguments.

(** The line is shown, with its margins, in the width *)
Definition in_place (u : unicode) (k : MadSkin) (width : nat) (l : FmtLine) : Prop :=
  match l with
  | Normal fc => exists lm rm, margins_of k (fc_kind fc) width lm rm /\ shown u k fc + lm + rm <= width
  | _ => True
  end.
Definition measured (u : unicode) (k : MadSkin) (l : FmtLine) : Prop := match l with Normal fc => length_ok u k fc | _ => True end.
(** Each char of the line has some place in all the lines it may be wrapped in *)
Definition has_room (u : unicode) (k : MadSkin) (width : nat) (l : FmtLine) : Prop :=
  match l with
  | Normal fc => forall lm rm, margins_of k (fc_kind fc) width lm rm ->
      Forall (fun c => chw u c + lead k (next_kind (fc_kind fc)) + lm + rm <= width) (text_of (fc_compounds fc))
  | _ => True
  end.

