(** * Vocabulary for the fitting of composites *)
From Verif Require Import Base M_Style M_Fit M_Wrap S_Wrap.
Set Implicit Arguments.

(** An ellipsis, without style *)
Definition dots : char * (bool * bool * bool * bool) := (8230%N, (false, false, false, false)).
(** [d] is [s] with some parts replaced by an ellipsis *)
Inductive elided : list (char * (bool * bool * bool * bool)) -> list (char * (bool * bool * bool * bool)) -> Prop :=
| el_nil : elided [] []
| el_keep c s d : elided s d -> elided (c :: s) (c :: d)
| el_cut gap s d : elided s d -> elided (gap ++ s) (dots :: d).
(** The number of columns of some styled chars *)
Definition columns (u : unicode) (s : list (char * (bool * bool * bool * bool))) : nat := sumw (chw u) (map fst s).

(** [r] is a token of a string: a maximal part without whitespace *)
Definition is_token (u : unicode) (s a r b : str) : Prop :=
  s = a ++ r ++ b /\ r <> [] /\ Forall (fun c => is_white u c = false) r
  /\ match rev a with [] => True | c :: _ => is_white u c = true end
  /\ match b with [] => True | c :: _ => is_white u c = true end.
(** What's between the first and the last char *)
Definition interior (s : str) : str := removelast (tl s).
(** The tokens which can be cut in their middle: at least 5 bytes and 3 columns *)
Definition big_token (u : unicode) (r : str) : Prop := 5 <= blen r /\ 3 <= strw u r.
(** There's something to remove in the middle of all the tokens to cut *)
Definition tokens_ok (u : unicode) (cs : list Compound) : Prop :=
  forall c a r b, In c cs -> is_token u (src c) a r b -> big_token u r -> 1 <= strw u (interior r).
