(** * Vocabulary for C112: a text read in a view which is drawn again and again *)
From Verif Require Import Base M_Style M_Fit M_Wrap M_TblFit M_Text M_View S_View M_Render S_Pen S_Paint S_Read S_Pages P_Render.
Set Implicit Arguments.
Open Scope nat_scope.

(** The view is drawn after each group of operations *)
Fixpoint reading (u : unicode) (k : MadSkin) (v : MadView FmtLine) (tm : term) (groups : list (list mv_op)) : outcome (MadView FmtLine * term) :=
  match groups with
  | [] => Ret (v, tm)
  | ops :: r => v' <- mv_run v ops ;; out <- mv_write_on (render_line no_special k) v' ;; reading u k v' (term_run u tm out) r
  end.
