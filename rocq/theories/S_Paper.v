(** * Vocabulary for what is printed, line after line, on a terminal of a given size *)
From Verif Require Import Base M_Style M_Wrap M_Text M_View S_View M_Render S_Render S_Pen S_Origin S_Paint.
Set Implicit Arguments.
Open Scope nat_scope.

(** The rows are numbered from the first one ever printed, those which have left the screen included. A terminal of [w] columns writes a char
    at the cursor, unless there's not enough place on the row: it goes then to the next one. At the end of a full row, the cursor stays there until
    another char is written. A newline goes to the start of the next row. *)
Definition go_to (t : term) (x y : nat) : term := mkTerm (t_cell t) x y (t_pen t).
Definition paper_char (u : unicode) (w : nat) (t : term) (p : pen) (c : char) : term :=
  if N.eqb c 10 then go_to t 0 (t_y t + 1)
  else if w <? t_x t + chw u c then type_char u (go_to t 0 (t_y t + 1)) p c
  else type_char u t p c.
Fixpoint paper_str (u : unicode) (w : nat) (t : term) (p : pen) (s : str) : term :=
  match s with [] => t | c :: r => paper_str u w (paper_char u w t p c) p r end.
Definition paper_step (u : unicode) (w : nat) (t : term) (c : cmd) : term :=
  match c with
  | Print s => paper_str u w t (t_pen t) s
  | Styled cs s => with_pen (paper_str u w t (worn_over (t_pen t) cs) s) (worn_out (t_pen t) cs)
  | _ => term_step u t c
  end.
Definition paper_run (u : unicode) (w : nat) (t : term) (out : list cmd) : term := fold_left (paper_step u w) out t.

(** The screen has [h] rows, the first one being the row [r_top]. It scrolls when the cursor goes below the last one. *)
Record roll := mkRoll { r_paper : term; r_top : nat }.
Definition roll_step (u : unicode) (w h : nat) (r : roll) (c : cmd) : roll :=
  let t := paper_step u w (r_paper r) c in mkRoll t (Nat.max (r_top r) (t_y t + 1 - h)).
Definition roll_run (u : unicode) (w h : nat) (r : roll) (out : list cmd) : roll := fold_left (roll_step u w h) out r.
(** What is on the screen *)
Definition screen_of (r : roll) : term :=
  mkTerm (fun x y => t_cell (r_paper r) x (r_top r + y)) (t_x (r_paper r)) (t_y (r_paper r) - r_top r) (t_pen (r_paper r)).

(** Nothing is written from the row [y] on *)
Definition blank_from (t : term) (y : nat) : Prop := forall x y', y <= y' -> exists b, t_cell t x y' = Nothing b.
(** No line of the text has a newline in it, nor has the skin *)
Definition single_lines (k : MadSkin) (text : list MLine) : Prop :=
  ~ In 10%N (skin_chars k) /\ forall mc c, In mc (composites_of text) -> In c (mc_compounds mc) -> ~ In 10%N (src c).
