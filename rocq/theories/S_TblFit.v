(** * Vocabulary for the balancing of table columns *)
From Verif Require Import Base.

(** The widths of the cells seen in the column [i] *)
Definition cells_of (i : nat) (cells : list (nat * nat)) : list nat :=
  map snd (filter (fun p => Nat.eqb (fst p) i) cells).
(** The natural width of a column: the one of its widest cell, and at least 3 *)
Fixpoint natural (ws : list nat) : nat := match ws with [] => 3 | w :: r => Nat.max w (natural r) end.
(** [a] is the average width of the cells, rounded up, and 0 when there's no cell *)
Definition average (ws : list nat) (a : nat) : Prop :=
  match ws with
  | [] => a = 0
  | _ => length ws * a >= sum ws /\ (forall b, length ws * b >= sum ws -> a <= b)
  end.
Definition natural_widths (n : nat) (cells : list (nat * nat)) : list nat :=
  map (fun i => natural (cells_of i cells)) (seq 0 n).
