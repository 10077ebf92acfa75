(** * Vocabulary of the properties of StrFit, CropWriter, Filling, Spacing and styles *)
From Verif Require Import Base M_Style M_Fit.
Set Implicit Arguments.

(** How much a char moves the cursor of a terminal. A tab counts as its replacement, two spaces. *)
Definition char_move (u : unicode) (c : char) : Z :=
  if N.eqb c 8 then (-1)%Z else if N.eqb c 9 then 2%Z else Z.of_nat (chw u c).

(** How much a string moves the cursor *)
Fixpoint move (u : unicode) (s : str) : Z :=
  match s with [] => 0%Z | c :: r => (char_move u c + move u r)%Z end.

(** The string with its tabs replaced with two spaces *)
Fixpoint expand (s : str) : str :=
  match s with
  | [] => []
  | c :: r => if N.eqb c 9 then 32%N :: 32%N :: expand r else c :: expand r
  end.

Definition no_backspace (s : str) : Prop := ~ In 8%N s.
Definition no_tab (s : str) : Prop := ~ In 9%N s.

(** The text part of what is sent to the terminal *)
Definition cmd_text (c : cmd) : str := match c with Print s => s | Styled _ s => s | _ => [] end.
Definition out_text (l : list cmd) : str := flat_map cmd_text l.

(** [p] is a prefix of [s] *)
Definition prefix_of {A} (p s : list A) : Prop := exists q, s = p ++ q.

(** The restrictions given in the documentation: "gentle" strings and filling chars have a width of 1. The styled tab is the
    defect of [C17_styled_tab_refuted]. *)
Definition gentle_char (u : unicode) (c : char) : Prop := chw u c = 1 /\ c <> 8%N /\ c <> 9%N.
Definition op_gentle (u : unicode) (o : cw_op) : Prop :=
  match o with
  | CwUnstyledG s | CwG _ s => forall c, In c s -> gentle_char u c
  | CwFill _ c | CwFillUnstyled c | CwRepeat _ c _ | CwRepeatUnstyled c _ => gentle_char u c
  | CwChar _ c => c <> 9%N
  | _ => True
  end.
(** No backspace in the strings of the call *)
Definition op_no_backspace (o : cw_op) : Prop :=
  match o with
  | CwUnstyledStr s | CwStr _ s => no_backspace s
  | CwChar _ c | CwUnstyledChar c => c <> 8%N
  | _ => True
  end.

(** The last defined value of a list *)
Fixpoint last_some {A} (l : list (option A)) : option A :=
  match l with
  | [] => None
  | x :: r => match last_some r with Some a => Some a | None => x end
  end.

(** A style when a flag is set, no style otherwise *)
Definition when (b : bool) (s : CStyle) : CStyle := if b then s else cs_default.
(** The styles applying to a compound, in increasing precedence *)
Definition style_layers (k : MadSkin) (l : LStyle) (c : Compound) : list CStyle :=
  [ls_cs l; when (c_italic c) (italic k); when (c_strikeout c) (strikeout k); when (c_bold c) (bold k);
   when (c_code c) (inline_code k)].

(** What is drawn is the char with the style *)
Definition sc_coherent (s : StyledChar) : Prop := sc_queue s = [Styled (sc_style s) [sc_char s]].
