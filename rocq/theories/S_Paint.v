(** * Vocabulary for what is seen on a terminal after commands *)
From Verif Require Import Base M_Style M_View S_View S_Pen.
Set Implicit Arguments.
Open Scope nat_scope.

(** What is seen in a cell: the part [i] of a char (the first one being 0), with its look, or nothing but a background *)
Inductive seen := Part (c : char) (i : nat) (p : pen) | Nothing (b : Color).
(** A terminal: what is seen in the cells, the place of its cursor, the style in use. It's taken as large enough, so that texts don't go to the next line.
    The texts have no control char, a char of null width isn't seen, and a char of two columns isn't erased when another one is written on
    just a half of it. *)
Record term := mkTerm { t_cell : nat -> nat -> seen; t_x : nat; t_y : nat; t_pen : pen }.
Definition cell_now (t : term) (q : pen) (inside : nat -> nat -> bool) (new : nat -> nat -> seen) (x' y' : nat) : term :=
  mkTerm (fun x y => if inside x y then new x y else t_cell t x y) x' y' q.
(** A char is written *)
Definition type_char (u : unicode) (t : term) (p : pen) (c : char) : term :=
  cell_now t (t_pen t) (fun x y => (y =? t_y t) && (t_x t <=? x) && (x <? t_x t + chw u c)) (fun x _ => Part c (x - t_x t) p) (t_x t + chw u c) (t_y t).
Fixpoint type_str (u : unicode) (t : term) (p : pen) (s : str) : term :=
  match s with [] => t | c :: r => type_str u (type_char u t p c) p r end.
Definition with_pen (t : term) (p : pen) : term := mkTerm (t_cell t) (t_x t) (t_y t) p.
Definition erase (t : term) (inside : nat -> nat -> bool) : term := cell_now t (t_pen t) inside (fun _ _ => Nothing (p_bg (t_pen t))) (t_x t) (t_y t).
(** A command is done *)
Definition term_step (u : unicode) (t : term) (c : cmd) : term :=
  match c with
  | Print s => type_str u t (t_pen t) s
  | Styled cs s => with_pen (type_str u t (worn_over (t_pen t) cs) s) (worn_out (t_pen t) cs)
  | SetFg c => with_pen t (mkPen c (p_bg (t_pen t)) (p_attrs (t_pen t)))
  | SetBg c => with_pen t (mkPen (p_fg (t_pen t)) c (p_attrs (t_pen t)))
  | MoveTo x y => mkTerm (t_cell t) (N.to_nat x) (N.to_nat y) (t_pen t)
  | ClearUntilNewLine => erase t (fun x y => (y =? t_y t) && (t_x t <=? x))
  | ClearCurrentLine => erase t (fun _ y => y =? t_y t)
  | ClearAll => erase t (fun _ _ => true)
  | ResetColor => with_pen t pen0
  end.
Definition term_run (u : unicode) (t : term) (out : list cmd) : term := fold_left (term_step u) out t.

(** The commands show a picture in the cells [P], whatever was there and wherever the cursor was, and change no other cell. They take a terminal with
    its default style, and leave it so. *)
Definition pictures (u : unicode) (P : nat -> nat -> Prop) (out : list cmd) (picture : nat -> nat -> seen) : Prop :=
  forall t, t_pen t = pen0 ->
  t_pen (term_run u t out) = pen0
  /\ forall x y, (P x y -> t_cell (term_run u t out) x y = picture x y) /\ (~ P x y -> t_cell (term_run u t out) x y = t_cell t x y).
Definition draws (u : unicode) (P : nat -> nat -> Prop) (out : list cmd) : Prop := exists picture, pictures u P out picture.
(** The cells of an area *)
Definition inside (a : Area) (x y : nat) : Prop := cell_in a (N.of_nat x) (N.of_nat y).
(** The cells of its border, and the ones inside of it *)
Definition on_border (a : Area) (x y : nat) : Prop :=
  inside a x y /\ (N.of_nat x = a_left a \/ N.of_nat x + 1 = a_left a + a_width a \/ N.of_nat y = a_top a \/ N.of_nat y + 1 = a_top a + a_height a)%N.
Definition apart (P Q : nat -> nat -> Prop) : Prop := forall x y, ~ (P x y /\ Q x y).
(** The same is seen *)
Definition same_view (t t' : term) : Prop := t_pen t = t_pen t' /\ forall x y, t_cell t x y = t_cell t' x y.
