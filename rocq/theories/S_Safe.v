(** * Specification vocabulary: contents whose selection tail may be after the end of its line *)
From Verif Require Import Base M_Content S_Content.

(** As [valid], but only the line of the tail is known to exist *)
Definition loose (c : content) : Prop :=
  clines c <> []
  /\ valid_pos (clines c) (cpos c)
  /\ (forall t, ctail c = Some t -> py t < length (clines c))
  /\ (forall l ch, In l (clines c) -> In ch l -> clean_char ch).

(** The tail is after the end of the line of the cursor *)
Definition tail_past_end (c : content) : Prop :=
  exists t l, ctail c = Some t /\ py t = py (cpos c) /\ nth_error (clines c) (py t) = Some l /\ length l < px t.

(** A history in which the given tails are positions of the text they're given for *)
Fixpoint tails_in_text (u : unicode) (ops : list cop) (c : content) : Prop :=
  match ops with
  | [] => True
  | o :: r => match o with OpSetTail p => valid_pos (clines c) p \/ length (clines c) <= py p | _ => True end
              /\ forall c' b, capply u o c = Ret (c', b) -> tails_in_text u r c'
  end.
