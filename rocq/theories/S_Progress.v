(** * Vocabulary for progress bars *)
From Verif Require Import Base.
Set Implicit Arguments.
Open Scope N_scope.

(** [v * 2^-149] is a [f32]: it has at most 24 significant bits *)
Definition is_f32 (v : N) : Prop := exists m e, v = m * 2 ^ e /\ m < 2 ^ 24.
(** The number of eighths of a cell which are filled by a char: the blocks from U+2588 (full) to U+258F (one eighth) *)
Definition eighths_of (c : char) : N := if (9608 <=? c) && (c <=? 9615) then 9616 - c else 0.
Definition eighths (s : str) : N := fold_right (fun c n => eighths_of c + n) 0 s.
(** only the last char may not be full *)
Definition bar_like (s : str) : Prop := exists n l, s = repeat 9608 n ++ l /\ (length l <= 1)%nat /\ Forall (fun c => 1 <= eighths_of c) l.
