(** * Vocabulary for C93: the plain editor of C90, when there may be a selection *)
From Verif Require Import Base M_Content S_Content S_Safe S_Editor.
Open Scope nat_scope.
Set Implicit Arguments.

(** Length of the longest start made of letters, digits and underscores *)
Fixpoint word_run (u : unicode) (s : str) : nat :=
  match s with [] => 0 | ch :: r => if (is_alnum u ch || N.eqb ch 95)%bool then S (word_run u r) else 0 end.
(** Selecting a word puts the cursor on its last char *)
Definition e_select_word (u : unicode) (e : editor) : editor * bool :=
  match word_run u (right_part e) with 0 => nothing e | S n => go (length (before e) + n) e end.
(** What operations do to the text and to the cursor. [None] for the only one which depends on the selection. *)
Definition h_apply (u : unicode) (o : cop) : option (editor -> editor * bool) :=
  match o with
  | OpMakeSelection | OpSetTail _ => Some (fun e => (e, true))
  | OpSelectWord => Some (e_select_word u)
  | OpDelSelection => None
  | _ => e_apply u o
  end.
Fixpoint h_run (u : unicode) (ops : list cop) (e : editor) : editor :=
  match ops with
  | [] => e
  | o :: r => h_run u r (match h_apply u o with Some f => fst (f e) | None => e end)
  end.
