(** * Vocabulary for C114: an input field which receives events and is drawn after each of them *)
From Verif Require Import Base M_Style M_Content S_Content M_View M_Input S_Input S_Pen S_Paint.
Set Implicit Arguments.
Open Scope nat_scope.

Definition on_event (e : Event * bool) : if_op := IfEvent (fst e) (snd e).
Fixpoint editing (u : unicode) (f : InputField) (tm : term) (events : list (Event * bool)) : outcome (InputField * term) :=
  match events with
  | [] => Ret (f, tm)
  | (e, double_click) :: r => '(f', _) <- apply_event u f e double_click ;; '(out, _) <- display_on u f' ;; editing u f' (term_run u tm out) r
  end.
(** The chars typed by an event *)
Definition typed_by (e : Event) : str := match e with EKey (KChar ch) _ => typed [ch] | _ => [] end.
(** which take one column, if they aren't line feeds *)
Definition types_narrow (u : unicode) (e : Event * bool) : Prop := forall ch, In ch (typed_by (fst e)) -> ch = c_nl \/ columns u [ch] = 1.
(** A key, with shift or not *)
Definition key_pressed (k : KeyCode * bool) : Event * bool := (EKey (fst k) (if snd k then 1 else 0)%N, false).
