(** * Vocabulary for C119: from the terminal events to the screen *)
From Verif Require Import Base M_Content S_Content S_Count M_View M_Input S_Input S_Input2 M_Event S_Event S_Typing S_Paint S_Point S_Drawn S_App.
Set Implicit Arguments.
Open Scope nat_scope.

(** The chars an event of the terminal may type *)
Definition typed_event (e : TermEvent) : str := typed_by (seen_event e).
(** A field which may receive these events: its area has room, the chars take one column, and [n] lines will not be passed *)
Definition ready (u : unicode) (n : nat) (f : InputField) (reads : list TermEvent) : Prop :=
  field_ok f /\ narrow_text u f /\ roomy n (if_area f) /\ py (if_scroll f) <= n
  /\ (forall e ch, In e reads -> In ch (typed_event e) -> ch = c_nl \/ columns u [ch] = 1)
  /\ nb_lines f + times c_nl (flat_map typed_event reads) <= n.
