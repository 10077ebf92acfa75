(** * Vocabulary for C90: a plain text editor, without lines or positions

    The state is the text before the cursor and the text after it. Every operation of a content, as long as nothing is
    selected, is defined here on those two strings. *)
From Verif Require Import Base M_Content S_Content M_View M_Input.
Open Scope nat_scope.
Set Implicit Arguments.

Record editor := mkEd { before : str; after : str }.
Definition whole (e : editor) : str := before e ++ after e.
(** The cursor after the first [i] chars of a text *)
Definition put_at (i : nat) (s : str) : editor := mkEd (firstn i s) (skipn i s).

(** ** The line of the cursor *)

Fixpoint head_line (s : str) : str :=
  match s with [] => [] | ch :: r => if N.eqb ch c_nl then [] else ch :: head_line r end.
Fixpoint rest_lines (s : str) : str :=
  match s with [] => [] | ch :: r => if N.eqb ch c_nl then s else rest_lines r end.
Definition left_part (e : editor) : str := rev (head_line (rev (before e))).
Definition right_part (e : editor) : str := head_line (after e).
(** The number of lines before the one of the cursor, and after it *)
Fixpoint breaks (s : str) : nat := match s with [] => 0 | ch :: r => (if N.eqb ch c_nl then 1 else 0) + breaks r end.

(** The offset of a place of line [y], given by the text of this line; the end of the text when there's no such line *)
Fixpoint reach (f : str -> nat) (y : nat) (s : str) : nat :=
  match y with
  | 0 => f (head_line s)
  | S y' => match rest_lines s with
            | [] => length s
            | _ :: r => length (head_line s) + 1 + reach f y' r
            end
  end.
(** at most [x] chars after the start of the line *)
Definition at_char (x : nat) (l : str) : nat := min x (length l).
(** the first place at column [col] or after *)
Fixpoint at_column (u : unicode) (col : nat) (l : str) : nat :=
  match l with
  | [] => 0
  | ch :: r => if col =? 0 then 0 else S (at_column u (col - (if N.eqb ch c_tab then 2 else chw u ch)) r)
  end.

Fixpoint lines_of (s : str) : list str :=
  match s with
  | [] => [[]]
  | ch :: r => if N.eqb ch c_nl then [] :: lines_of r
               else match lines_of r with l :: ls => (ch :: l) :: ls | [] => [[ch]] end
  end.
Definition exchange (i j : nat) (ls : list str) : list str :=
  map (fun n => nth (if n =? i then j else if n =? j then i else n) ls []) (seq 0 (length ls)).

(** Length of the longest alphanumeric start *)
Fixpoint run (u : unicode) (s : str) : nat :=
  match s with [] => 0 | ch :: r => if is_alnum u ch then S (run u r) else 0 end.

(** ** Operations; the boolean tells whether something was done *)

Section Editor.
Context (u : unicode).

Definition nothing (e : editor) : editor * bool := (e, false).
Definition go (i : nat) (e : editor) : editor * bool := (put_at i (whole e), true).

Definition e_left (e : editor) : editor * bool :=
  match before e with [] => nothing e | _ => go (length (before e) - 1) e end.
Definition e_right (e : editor) : editor * bool :=
  match after e with [] => nothing e | _ => go (S (length (before e))) e end.
(** the two ends of the text, and of the line *)
Definition e_start (e : editor) : editor * bool := match before e with [] => nothing e | _ => go 0 e end.
Definition e_end (e : editor) : editor * bool := match after e with [] => nothing e | _ => go (length (whole e)) e end.
Definition e_line_start (e : editor) : editor * bool :=
  match left_part e with [] => nothing e | l => go (length (before e) - length l) e end.
Definition e_line_end (e : editor) : editor * bool :=
  match right_part e with [] => nothing e | l => go (length (before e) + length l) e end.
(** keeping the column *)
Definition e_column (e : editor) : nat := columns u (left_part e).
Definition e_up (n : nat) (e : editor) : editor * bool :=
  match breaks (before e) with
  | 0 => nothing e
  | y => go (reach (at_column u (e_column e)) (y - n) (whole e)) e
  end.
Definition e_down (n : nat) (e : editor) : editor * bool :=
  match breaks (after e) with
  | 0 => nothing e
  | m => go (reach (at_column u (e_column e)) (breaks (before e) + min n m) (whole e)) e
  end.
(** words: over one char then the alphanumeric ones before it; over one char then, after the next one, over the
    alphanumeric ones *)
Definition back_word (e : editor) : nat := S (run u (tl (rev (left_part e)))).
Definition e_word_left (e : editor) : editor * bool :=
  match left_part e with [] => nothing e | _ => go (length (before e) - back_word e) e end.
Definition e_word_right (e : editor) : editor * bool :=
  match right_part e with [] => nothing e | l => go (length (before e) + S (run u (skipn 2 l))) e end.

Definition e_type (s : str) (e : editor) : editor * bool := (mkEd (before e ++ typed s) (after e), true).
Definition e_append (s : str) (e : editor) : editor * bool := (mkEd (before e) (after e ++ typed s), true).
Definition e_set (s : str) (e : editor) : editor * bool :=
  (if list_eq_dec N.eq_dec (whole e) s then e else mkEd (typed s) [], true).
Definition e_delete_left (e : editor) : editor * bool :=
  match before e with [] => nothing e | b => (mkEd (removelast b) (after e), true) end.
(** at the end of the text, an empty last line is removed *)
Definition e_delete_below (e : editor) : editor * bool :=
  match after e with
  | _ :: a => (mkEd (before e) a, true)
  | [] => match rev (before e) with
          | ch :: _ => if N.eqb ch c_nl then (mkEd (removelast (before e)) [], true) else nothing e
          | [] => nothing e
          end
  end.
Definition e_delete_word_left (e : editor) : editor * bool :=
  match left_part e with
  | [] => nothing e
  | _ => (mkEd (firstn (length (before e) - back_word e) (before e)) (after e), true)
  end.
(** the alphanumeric chars and the char after them; when they end the line, the cursor goes back one char *)
Definition e_delete_word_right (e : editor) : editor * bool :=
  let n := run u (right_part e) in
  if n <? length (right_part e) then (mkEd (before e) (skipn (S n) (after e)), true)
  else match left_part e, right_part e with
       | [], [] => nothing e
       | [], _ => (mkEd (before e) (skipn n (after e)), true)
       | _, _ => (put_at (length (before e) - 1) (before e ++ skipn n (after e)), true)
       end.

(** lines [i] and [j] are exchanged, the cursor is then [x] chars after the start of line [y] *)
Definition e_exchange (i j y x : nat) (e : editor) : editor * bool :=
  let s := flat (exchange i j (lines_of (whole e))) in (put_at (reach (at_char x) y s) s, true).
Definition e_swap (i j : nat) (e : editor) : editor * bool :=
  let n := length (lines_of (whole e)) in
  if (i =? j) || (n <=? i) || (n <=? j) then nothing e
  else e_exchange i j (breaks (before e)) (length (left_part e)) e.
(** [y'] is the line the one of the cursor is exchanged with *)
Definition e_move_line (y' : nat) (e : editor) : editor * bool :=
  e_exchange (breaks (before e)) y' y' (min (length (left_part e)) (length (nth y' (lines_of (whole e)) []))) e.
Definition e_line_up (e : editor) : editor * bool :=
  match breaks (before e) with 0 => nothing e | S y' => e_move_line y' e end.
Definition e_line_down (e : editor) : editor * bool :=
  match breaks (after e) with 0 => nothing e | _ => e_move_line (S (breaks (before e))) e end.

(** [None] for the operations which select *)
Definition e_apply (o : cop) : option (editor -> editor * bool) :=
  match o with
  | OpSetCursor p => Some (fun e => go (reach (at_char (px p)) (py p) (whole e)) e)
  | OpMakeSelection | OpSetTail _ | OpSelectWord => None
  | OpUnselect => Some (fun e => (e, true))
  | OpPushChar ch => Some (e_append [ch])
  | OpClear => Some (fun _ => (mkEd [] [], true))
  | OpInsertNewLine => Some (e_type [c_nl])
  | OpInsertChar ch => Some (e_type [ch])
  | OpInsertStr s => Some (e_type s)
  | OpSetStr s => Some (e_set s)
  | OpDelLeft => Some e_delete_left
  | OpDelBelow | OpDelSelection => Some e_delete_below
  | OpSwapLines a b => Some (e_swap a b)
  | OpLineUp => Some e_line_up
  | OpLineDown => Some e_line_down
  | OpRight => Some e_right
  | OpLeft => Some e_left
  | OpLinesUp n => Some (e_up n)
  | OpLinesDown n => Some (e_down n)
  | OpToEnd => Some e_end
  | OpToStart => Some e_start
  | OpToLineEnd => Some e_line_end
  | OpToLineStart => Some e_line_start
  | OpWordLeft => Some e_word_left
  | OpWordRight => Some e_word_right
  | OpDelWordLeft => Some e_delete_word_left
  | OpDelWordRight => Some e_delete_word_right
  end.
Definition selects (o : cop) : Prop := o = OpMakeSelection \/ o = OpSelectWord \/ exists p, o = OpSetTail p.
Fixpoint e_run (ops : list cop) (e : editor) : editor :=
  match ops with
  | [] => e
  | o :: r => e_run r (match e_apply o with Some f => fst (f e) | None => e end)
  end.
End Editor.

(** A content without selection, seen as an editor *)
Definition view (c : content) : editor := put_at (cursor c) (text c).
Definition unselected (c : content) : Prop := valid c /\ ctail c = None.

(** ** Fields *)

(** What a key does, pressed without modifier in a field of height [h] *)
Definition pressed (h : nat) (k : KeyCode) : list cop :=
  match k with
  | KChar ch => [OpInsertChar ch] | KBackspace => [OpDelLeft] | KDelete => [OpDelBelow]
  | KHome => [OpToLineStart] | KEnd => [OpToLineEnd] | KUp => [OpLinesUp 1] | KDown => [OpLinesDown 1]
  | KLeft => [OpLeft] | KRight => [OpRight] | KPageUp => [OpLinesUp h] | KPageDown => [OpLinesDown h]
  | _ => []
  end.
Definition press (k : KeyCode) : if_op := IfEvent (EKey k 0) false.
