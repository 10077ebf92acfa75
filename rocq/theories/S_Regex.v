(** * What it means for a text to match a regular expression *)
From Verif Require Import Base M_Parse M_Regex.
Set Implicit Arguments.

(** No char is both a space and a digit *)
Definition disjoint_classes (k : classes) : Prop := forall c, rx_space k c = true -> rx_digit k c = false.

Section Lang.
Context (k : classes) (i : bool).

(** [matches r b s b' t]: from a place of the text where [s] remains, [r] may match until [t] remains; [b] and [b'] tell whether these places
    are the start of the text. A declarative definition, without any order of preference. *)
Inductive matches : regex -> bool -> str -> bool -> str -> Prop :=
| m_empty b s : matches RxEmpty b s b s
| m_set f b c t : in_set_i k i f c = true -> matches (RxSet f) b (c :: t) false t
| m_seq a r b s b1 s1 b2 s2 : matches a b s b1 s1 -> matches r b1 s1 b2 s2 -> matches (RxSeq a r) b s b2 s2
| m_left a r b s b1 s1 : matches a b s b1 s1 -> matches (RxAlt a r) b s b1 s1
| m_right a r b s b1 s1 : matches r b s b1 s1 -> matches (RxAlt a r) b s b1 s1
| m_stop max a b s : matches (RxRepeat 0 max a) b s b s
| m_again min max a b s b1 s1 b2 s2 : max <> Some 0 -> matches a b s b1 s1 -> matches (RxRepeat (min - 1) (option_map pred max) a) b1 s1 b2 s2 ->
    matches (RxRepeat min max a) b s b2 s2
| m_group name a b s b1 s1 : matches a b s b1 s1 -> matches (RxGroup name a) b s b1 s1
| m_start s : matches RxStart true s true s
| m_end b : matches RxEnd b [] b [].

(** The regular expressions whose repeated parts never match nothing *)
Fixpoint eats (r : regex) : bool :=
  match r with
  | RxSet _ => true
  | RxSeq a b => eats a || eats b
  | RxAlt a b => eats a && eats b
  | RxRepeat min _ a => (0 <? min) && eats a
  | RxGroup _ a => eats a
  | RxEmpty | RxStart | RxEnd => false
  end.
Fixpoint proper (r : regex) : bool :=
  match r with
  | RxSeq a b | RxAlt a b => proper a && proper b
  | RxRepeat _ _ a => eats a && proper a
  | RxGroup _ a => proper a
  | _ => true
  end.
End Lang.
