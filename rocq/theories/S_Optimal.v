(** * Vocabulary: the ways to cut a text in lines without cutting words *)
From Verif Require Import Base M_Style M_Fit M_Wrap S_Wrap.
Set Implicit Arguments.

(** A piece of a text: some blanks, or a word *)
Definition piece := (bool * str)%type.
(** No two successive pieces of the same nature *)
Fixpoint alternating (l : list piece) : Prop :=
  match l with
  | a :: r => match r with b :: _ => fst a <> fst b | [] => True end /\ alternating r
  | [] => True
  end.
(** [ps] are the blanks and the words of a compound. There's no blank in code. *)
Definition cut_into (u : unicode) (c : Compound) (ps : list piece) : Prop :=
  concat (map snd ps) = src c /\ alternating ps
  /\ Forall (fun p => snd p <> [] /\ Forall (fun ch => is_blank u (c_code c) ch = fst p) (snd p)) ps.
(** [ps] are the blanks and the words of a text. A change of style ends a word, as it does in hard_wrap_composite. *)
Definition pieces_of (u : unicode) (cs : list Compound) (ps : list piece) : Prop :=
  exists pss, Forall2 (cut_into u) cs pss /\ ps = concat pss.

(** Putting the pieces on lines, in order. Blanks can be dropped where a line ends. *)
Inductive layout : list piece -> list (list piece) -> Prop :=
| lay_last l b : Forall (fun p => fst p = true) b -> layout (l ++ b) [l]
| lay_line l b r ls : Forall (fun p => fst p = true) b -> layout r ls -> layout (l ++ b ++ r) (l :: ls).
(** The columns of a line *)
Definition line_width (u : unicode) (l : list piece) : nat := sumw (chw u) (concat (map snd l)).
(** The first line begins after [first] columns, the other ones after [other] columns, and nothing goes past the width *)
Definition fits (u : unicode) (first other width : nat) (lines : list (list piece)) : Prop :=
  match lines with
  | l :: ls => first + line_width u l <= width /\ Forall (fun l => other + line_width u l <= width) ls
  | [] => False
  end.
(** The text ends with a blank *)
Definition blank_end (ps : list piece) : Prop := exists a s, ps = a ++ [(true, s)].
(** A piece which isn't wider than [max], a single blank of one column or a word with a visible char *)
Definition ordinary (u : unicode) (max : nat) (p : piece) : Prop :=
  sumw (chw u) (snd p) <= max
  /\ if fst p then sumw (chw u) (snd p) = 1 else 1 <= sumw (chw u) (snd p) /\ ~ Forall (fun ch => is_white u ch = true) (snd p).
