(** * Vocabulary for C116: an input field used by an application and drawn again and again *)
From Verif Require Import Base M_Style M_Content S_Content S_Count M_View S_View M_Input S_Input S_Input2 S_Pen S_Paint S_Point S_Drawn.
Set Implicit Arguments.
Open Scope nat_scope.

(** The field is drawn after each group of operations *)
Fixpoint working (u : unicode) (f : InputField) (tm : term) (groups : list (list if_op)) : outcome (InputField * term) :=
  match groups with
  | [] => Ret (f, tm)
  | ops :: r => f' <- if_run u f ops ;; '(out, _) <- display_on u f' ;; working u f' (term_run u tm out) r
  end.
(** The chars an operation may type *)
Definition given_by (o : if_op) : str :=
  match o with
  | IfReplace s | IfSetStr s | IfInsertStr s => typed s
  | IfNewLine => [c_nl]
  | IfPut ch => typed [ch]
  | IfKeycode (KChar ch) _ => typed [ch]
  | IfKey k => c_nl :: match kcodes k with [KChar ch] => typed [ch] | _ => [] end
  | IfEvent e _ => typed_by e
  | _ => []
  end.
Definition gives_narrow (u : unicode) (o : if_op) : Prop := forall ch, In ch (given_by o) -> ch = c_nl \/ columns u [ch] = 1.
(** The area of the field *)
Definition next_area (a : Area) (o : if_op) : Area :=
  match o with IfChangeArea x y w => mkArea x y w (a_height a) | IfSetArea b => b | _ => a end.
Fixpoint field_areas (a : Area) (groups : list (list if_op)) : list Area :=
  match groups with [] => [] | g :: r => fold_left next_area g a :: field_areas (fold_left next_area g a) r end.
(** There's room in an area for a scroll to the line [n] *)
Definition roomy (n : nat) (a : Area) : Prop :=
  (2 <= a_width a)%N /\ (1 <= a_height a)%N /\ on_screen a /\ N.to_nat (a_top a) + N.to_nat (a_height a) + n + 1 < N.to_nat 65536.
Fixpoint areas_roomy (n : nat) (a : Area) (ops : list if_op) : Prop :=
  match ops with [] => True | o :: r => roomy n (next_area a o) /\ areas_roomy n (next_area a o) r end.
(** What stays true of the field, [n] being the number of lines it will not pass *)
Definition fine (u : unicode) (n : nat) (f : InputField) (ops : list if_op) : Prop :=
  field_ok f /\ narrow_text u f /\ roomy n (if_area f) /\ areas_roomy n (if_area f) ops /\ Forall (gives_narrow u) ops
  /\ nb_lines f + times c_nl (flat_map given_by ops) <= n /\ py (if_scroll f) <= n.
