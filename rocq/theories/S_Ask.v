(** * Vocabulary for C61, C62, C75 *)
From Verif Require Import Base M_Ask.
Set Implicit Arguments.
Open Scope nat_scope.

(** A line of the input: the chars until a line feed, or until the end of the input *)
Definition is_line (l : str) (rest : list input) : Prop :=
  ~ In 10%N l /\ rest = [] \/ exists b, l = b ++ [10%N] /\ ~ In 10%N b.
(** [typed u l x]: [x] is [l] without the whitespace at its end *)
Definition typed (u : unicode) (l x : str) : Prop :=
  exists w, l = x ++ w /\ Forall (fun c => is_white u c = true) w /\ forall y c, x = y ++ [c] -> is_white u c = false.
Definition key_of (q : Question) (x : str) : Prop := exists a, In a (q_answers q) /\ a_key a = x.
(** What the question returns for what was typed *)
Definition accepts (q : Question) (x r : str) : Prop :=
  (x = [] /\ q_default q = Some r) \/ ((x <> [] \/ q_default q = None) /\ key_of q x /\ r = x).
Definition rejects (q : Question) (x : str) : Prop := (x <> [] \/ q_default q = None) /\ ~ key_of q x.
(** [lines s ls s']: the lines [ls] are read from [s], then [s'] remains. The end of the input is an empty line. *)
Inductive lines : list input -> list str -> list input -> Prop :=
| ls_nil s : lines s [] s
| ls_cons l rest ls s' : is_line l rest -> lines rest ls s' -> lines (map IChar l ++ rest) (l :: ls) s'.
(** The reading of the next line fails *)
Definition fails (s : list input) (s' : list input) : Prop := exists b, ~ In 10%N b /\ s = map IChar b ++ IFail :: s'.
