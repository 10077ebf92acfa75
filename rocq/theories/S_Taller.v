(** * Vocabulary: how many lines a paragraph takes *)
From Verif Require Import Base M_Style M_Fit M_Wrap S_Wrap M_Text.
Set Implicit Arguments.

(** [fc] is displayed on [n] lines in a width *)
Definition tall (u : unicode) (k : MadSkin) (fc : FmtComposite) (width n : nat) : Prop :=
  visible_length fc <= width /\ n = 1
  \/ width < visible_length fc /\ exists lines, hard_wrap_composite u k fc width = Ret (Some lines) /\ n = length lines.

(** For each char of the text, whether it's a blank, where a line can be broken *)
Definition blanks (u : unicode) (cs : list Compound) : list bool := flat_map (fun c => map (is_blank u (c_code c)) (src c)) cs.
(** No two successive blanks *)
Fixpoint spaced (l : list bool) : Prop :=
  match l with
  | a :: r => match r with b :: _ => ~ (a = true /\ b = true) | [] => True end /\ spaced r
  | [] => True
  end.
(** Chars of one column, no two successive blanks, and all the lines begin at the same column *)
Definition simple (u : unicode) (k : MadSkin) (fc : FmtComposite) : Prop :=
  length_ok u k fc /\ Forall (fun c => chw u c = 1) (text_of (fc_compounds fc)) /\ spaced (blanks u (fc_compounds fc))
  /\ lead k (next_kind (fc_kind fc)) = lead k (fc_kind fc).
