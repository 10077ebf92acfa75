(** * Vocabulary for C123: widgets drawn over one another *)
From Verif Require Import Base M_Style M_Text M_View S_View M_Render M_Rect M_List M_Input S_Paint S_Widgets.
Set Implicit Arguments.
Open Scope nat_scope.

Section Layers.
Context {T : Type}.
(** The widgets as they were each time they were drawn, in the order of the drawings *)
Fixpoint layers (u : unicode) (ws : list (widget T)) (l : list (nat * request T)) : list (widget T) :=
  match l with
  | [] => []
  | (i, q) :: r => match nth_error ws i with
      | None => []
      | Some w => match turn u w q with Ret (w', _) => w' :: layers u (replace ws i w') r | _ => [] end
      end
  end.
(** None of these is drawn in this cell *)
Definition clear_of (ls : list (widget T)) (x y : nat) : Prop := Forall (fun w => ~ cells_of w x y) ls.
(** The last one which is drawn in this cell *)
Definition topmost (ls : list (widget T)) (x y : nat) (w : widget T) : Prop := exists below above, ls = below ++ w :: above /\ cells_of w x y /\ clear_of above x y.
End Layers.
