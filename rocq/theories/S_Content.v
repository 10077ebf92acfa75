(** * Specification vocabulary for the content of an input field

    A content is seen as its flat text (lines joined by line feeds) and the offsets, in this text,
    of the cursor and of the ends of the selection. *)
From Verif Require Import Base M_Content.

(** The lines joined by line feeds *)
Definition flat (ls : list (list char)) : str :=
  match ls with
  | [] => []
  | l :: r => l ++ concat (map (fun l' => c_nl :: l') r)
  end.

Definition text (c : content) : str := flat (clines c).

(** Offset, in the flat text, of a position given as a line and an index in this line *)
Definition offset_in (ls : list (list char)) (p : Pos) : nat :=
  sum (map (fun l => length l + 1) (firstn (py p) ls)) + px p.

Definition offset (c : content) (p : Pos) : nat := offset_in (clines c) p.

(** Offset of the cursor *)
Definition cursor (c : content) : nat := offset c (cpos c).

(** A position of the text: an existing line and an index not after its end *)
Definition valid_pos (ls : list (list char)) (p : Pos) : Prop :=
  exists l, nth_error ls (py p) = Some l /\ px p <= length l.

(** The three chars which never are in a line *)
Definition clean_char (ch : char) : Prop := ch <> c_nl /\ ch <> c_cr /\ ch <> c_bs.

Definition valid (c : content) : Prop :=
  clines c <> []
  /\ valid_pos (clines c) (cpos c)
  /\ (forall t, ctail c = Some t -> valid_pos (clines c) t)
  /\ (forall l ch, In l (clines c) -> In ch l -> clean_char ch).

(** What remains of a typed string: carriage returns and backspaces are ignored *)
Definition typed (s : str) : str :=
  filter (fun ch => negb (N.eqb ch c_cr) && negb (N.eqb ch c_bs)) s.

(** Reading order of positions *)
Definition pos_le (a b : Pos) : Prop := py a < py b \/ (py a = py b /\ px a <= px b).

(** The part of the text between two offsets, second one excluded *)
Definition slice (a b : nat) (s : str) : str := firstn (b - a) (skipn a s).

(** Text without the line feeds *)
Definition no_nl (s : str) : str := filter (fun ch => negb (N.eqb ch c_nl)) s.

(** [subseq k s]: [k] is obtained by removing some elements of [s] *)
Inductive subseq {A : Type} : list A -> list A -> Prop :=
| subseq_nil : subseq [] []
| subseq_keep x k s : subseq k s -> subseq (x :: k) (x :: s)
| subseq_drop x k s : subseq k s -> subseq k (x :: s).

(** Columns covered by the chars of a line *)
Definition columns (u : unicode) (l : list char) : nat :=
  sum (map (fun ch => if N.eqb ch c_tab then 2 else chw u ch) l).

(** [i] is the index, in the line, of the first char starting at column [col] or after,
    or the end of the line *)
Definition first_idx_at (u : unicode) (l : list char) (col i : nat) : Prop :=
  (i < length l /\ col <= columns u (firstn i l)
   \/ i = length l)
  /\ forall j, j < i -> columns u (firstn j l) < col.

Arguments typed : simpl never.
Arguments text : simpl never.
Arguments cursor : simpl never.
Arguments offset : simpl never.
Arguments offset_in : simpl never.
Arguments slice : simpl never.

(** The selection tail is kept, as far as the new text allows *)
Definition tail_kept (c c' : content) : Prop :=
  match ctail c, ctail c' with
  | None, None => True
  | Some t, Some t' => valid_pos (clines c') t -> t' = t
  | _, _ => False
  end.

(** ** Words *)

Definition alnum_at (u : unicode) (l : list char) (i : nat) : Prop :=
  exists ch, nth_error l i = Some ch /\ is_alnum u ch = true.

(** [p] is preceded by an alphanumeric char *)
Definition alnum_before (u : unicode) (l : list char) (p : nat) : Prop :=
  exists q, p = S q /\ alnum_at u l q.

(** [p] is the closest position before [x] not preceded by an alphanumeric char *)
Definition word_left_target (u : unicode) (l : list char) (x p : nat) : Prop :=
  p < x /\ ~ alnum_before u l p /\ forall q, p < q < x -> alnum_before u l q.

(** [p] is the closest position after [x] for which the char after the next one isn't alphanumeric,
    or doesn't exist *)
Definition word_right_target (u : unicode) (l : list char) (x p : nat) : Prop :=
  x < p /\ ~ alnum_at u l (p + 1) /\ forall q, x < q < p -> alnum_at u l (q + 1).

(** Deleting right from [x] removes the chars from [x] to [e] excluded: the alphanumeric chars, and the
    first other char if any *)
Definition word_del_end (u : unicode) (l : list char) (x e : nat) : Prop :=
  x < e <= length l
  /\ (forall q, x <= q < e - 1 -> alnum_at u l q)
  /\ (alnum_at u l (e - 1) -> e = length l).

Definition word_char_at (u : unicode) (l : list char) (i : nat) : Prop :=
  exists ch, nth_error l i = Some ch /\ (is_alnum u ch = true \/ ch = 95%N).

(** ** Effects of the operations *)

(** The text [s] was inserted at the cursor, which now is after it *)
Definition inserted (c c' : content) (s : str) : Prop :=
  text c' = firstn (cursor c) (text c) ++ s ++ skipn (cursor c) (text c)
  /\ cursor c' = cursor c + length s.

(** The part of the text between offsets [a] and [b] was removed *)
Definition removed (c c' : content) (a b : nat) : Prop :=
  text c' = firstn a (text c) ++ skipn b (text c).

(** There are several lines and the last one is empty *)
Definition last_line_empty (c : content) : Prop := exists pre, pre <> [] /\ clines c = pre ++ [[]].

(** Only the cursor may have moved *)
Definition same_text (c c' : content) : Prop := clines c' = clines c /\ ctail c' = ctail c.

(** Where a vertical move to line [y'] goes *)
Definition vertical_to (u : unicode) (c c' : content) (y' : nat) : Prop :=
  py (cpos c') = y' /\
  exists l l', nth_error (clines c) (py (cpos c)) = Some l /\ nth_error (clines c) y' = Some l'
  /\ first_idx_at u l' (columns u (firstn (px (cpos c)) l)) (px (cpos c')).

(** The line of the cursor became [l'], all other lines are unchanged *)
Definition line_replaced (c c' : content) (l' : Line) : Prop :=
  clines c' = firstn (py (cpos c)) (clines c) ++ l' :: skipn (S (py (cpos c))) (clines c).

(** Lines [a] and [b] were exchanged, the other ones being left unchanged *)
Definition lines_swapped (a b : nat) (ls ls' : list Line) : Prop :=
  length ls' = length ls /\ nth_error ls' a = nth_error ls b /\ nth_error ls' b = nth_error ls a
  /\ forall i, i <> a -> i <> b -> nth_error ls' i = nth_error ls i.

(** All the chars out of the range of offsets from [a] to [b], line feeds aside, are kept, in order, as well as some [k] of those of the range *)
Definition outside_kept (c c' : content) (a b : nat) : Prop :=
  exists k, subseq k (no_nl (slice a b (text c)))
  /\ no_nl (text c') = no_nl (firstn a (text c)) ++ k ++ no_nl (skipn b (text c)).
