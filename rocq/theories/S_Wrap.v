(** * Vocabulary for wrapping *)
From Verif Require Import Base M_Style M_Fit M_Wrap.
Set Implicit Arguments.

(** The columns before the text in a line: indentation and bullet, or quote mark *)
Definition lead (k : MadSkin) (kind : CompositeKind) : nat :=
  match kind with
  | KListItem d => d + 2
  | KListItemFollowUp d => match indent_mode k with Block => d + 2 | FirstLineOnly => 0 end
  | KQuote => 2
  | _ => 0
  end.
(** The kind of the lines after the first one *)
Definition next_kind (kind : CompositeKind) : CompositeKind :=
  match kind with KListItem d => KListItemFollowUp d | x => x end.

Definition text_of (cs : list Compound) : str := flat_map src cs.
(** The displayed width of a line *)
Definition shown (u : unicode) (k : MadSkin) (fc : FmtComposite) : nat :=
  lead k (fc_kind fc) + sumw (chw u) (text_of (fc_compounds fc)).

(** The chars with their style flags *)
Definition flags (c : Compound) : bool * bool * bool * bool := (c_bold c, c_italic c, c_code c, c_strikeout c).
Definition styled (cs : list Compound) : list (char * (bool * bool * bool * bool)) :=
  flat_map (fun c => map (fun ch => (ch, flags c)) (src c)) cs.

(** [d] is [s] without some of its whitespaces *)
Inductive thinned (u : unicode) {A} : list (char * A) -> list (char * A) -> Prop :=
| th_nil : thinned u [] []
| th_keep c s d : thinned u s d -> thinned u (c :: s) (c :: d)
| th_drop c s d : is_white u (fst c) = true -> thinned u s d -> thinned u (c :: s) d.

(** The source is made of the lines, with only whitespaces between them and at the end *)
Inductive broken (u : unicode) {A} : list (char * A) -> list (list (char * A)) -> Prop :=
| br_last line gap : Forall (fun c => is_white u (fst c) = true) gap -> broken u (line ++ gap) [line]
| br_line line gap src lines : Forall (fun c => is_white u (fst c) = true) gap -> broken u src lines ->
    broken u (line ++ gap ++ src) (line :: lines).

(** The cached length is the real one *)
Definition length_ok (u : unicode) (k : MadSkin) (fc : FmtComposite) : Prop := visible_length fc = shown u k fc.

(** No two adjacent whitespaces, except in code *)
Fixpoint no_double_white (u : unicode) (s : str) : Prop :=
  match s with
  | a :: r => match r with b :: _ => ~ (is_white u a = true /\ is_white u b = true) | [] => True end /\ no_double_white u r
  | [] => True
  end.

(** A word, or a sequence of whitespaces which aren't code, or a piece of them *)
Definition is_blank (u : unicode) (code : bool) (c : char) : bool := is_white u c && negb code.
(** The pieces can't be bigger: each one ends either at the end of the word (or blank), or because the next char
    would make it wider than [max] *)
Inductive maximal (u : unicode) (max : nat) (code : bool) : list str -> Prop :=
| mx_nil : maximal u max code []
| mx_one p : maximal u max code [p]
| mx_cons p c q rest :
    (Forall (fun ch => is_blank u code ch = negb (is_blank u code c)) p \/ max < sumw (chw u) p + chw u c) ->
    maximal u max code ((c :: q) :: rest) -> maximal u max code (p :: (c :: q) :: rest).
(** How a text is cut in words and blanks, none of them wider than [max] unless it's made of one char *)
Definition cut_in_words (u : unicode) (max : nat) (code : bool) (s : str) (pieces : list str) : Prop :=
  concat pieces = s /\ maximal u max code pieces
  /\ Forall (fun p => p <> [] /\ (exists b, Forall (fun ch => is_blank u code ch = b) p)
                      /\ (sumw (chw u) p <= max \/ length p = 1)) pieces.

(** A line is ended only because the first piece of the next one doesn't fit *)
Fixpoint greedy (u : unicode) (k : MadSkin) (width : nat) (lines : list FmtComposite) : Prop :=
  match lines with
  | l :: r => match r with
              | l' :: _ => exists c cs, fc_compounds l' = c :: cs /\ width < shown u k l + sumw (chw u) (src c)
              | [] => True
              end /\ greedy u k width r
  | [] => True
  end.
