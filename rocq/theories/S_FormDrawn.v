(** * Vocabulary for C122: a form on the terminal *)
From Verif Require Import Base M_View S_View M_Content M_Input M_Event S_Event S_Typing S_Form S_Widgets.
Set Implicit Arguments.
Open Scope nat_scope.

(** What the application of [S_Form] calls on the field of index [j] for an event *)
Definition calls (fs : list InputField) (t : TimedEvent) (j : nat) : list if_op :=
  S_Typing.given [t] ++ match target fs t with Some i => if j =? i then [] else [IfSetFocus false] | None => [] end.
(** After each event, the fields are drawn one after the other *)
Definition drawings (fs : list InputField) (ts : list TimedEvent) : list (nat * request unit) :=
  flat_map (fun t => map (fun j => (j, AskField (calls fs t j))) (seq 0 (length fs))) ts.
Definition as_widgets (fs : list InputField) : list (widget unit) := map (fun f => WField f) fs.
