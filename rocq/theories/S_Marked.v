(** * Vocabulary for C110: a plain text editor with a mark

    The state is the text before the cursor, the text after it, and maybe a mark, which is a line and a number of chars, and
    which may be after the end of its line. The selection goes from the mark to the cursor. *)
From Verif Require Import Base M_Content S_Content S_Editor S_Held S_Cut.
Open Scope nat_scope.
Set Implicit Arguments.

Record marked := mkMarked { m_ed : editor; m_mark : option Pos }.

(** The place of the cursor, and the last one of a text *)
Definition here (e : editor) : Pos := mkPos (breaks (before e)) (length (left_part e)).
Definition last_place (s : str) : Pos := let n := length (lines_of s) - 1 in mkPos n (length (nth n (lines_of s) [])).
(** The place of a text which is the closest to the given one on its line, the last one if there's no such line *)
Definition inside (s : str) (p : Pos) : Pos :=
  if length (lines_of s) <=? py p then last_place s else mkPos (py p) (min (px p) (length (nth (py p) (lines_of s) []))).
Definition same_place (p q : Pos) : bool := (py p =? py q) && (px p =? px q).
Definition sooner (p q : Pos) : bool := (py p <? py q) || ((py p =? py q) && (px p <? px q)).

(** The mark while a text is typed: it's put back inside of the text when a line is added *)
Fixpoint mark_typing (s : str) (e : editor) (m : option Pos) : option Pos :=
  match s with
  | [] => m
  | ch :: r => let e' := mkEd (before e ++ typed [ch]) (after e) in
               mark_typing r e' (if N.eqb ch c_nl then option_map (inside (whole e')) m else m)
  end.
(** The mark after an operation which does [e] -> [e'] and tells [b] *)
Definition mark_after (u : unicode) (o : cop) (e e' : editor) (b : bool) (m : option Pos) : option Pos :=
  let held := if b then option_map (inside (whole e')) m else m in
  match o with
  | OpMakeSelection => Some (match m with Some p => p | None => here e end)
  | OpUnselect | OpClear => None
  (* the limit is the length of the line of the cursor *)
  | OpSetTail p => Some (if length (lines_of (whole e)) <=? py p then last_place (whole e) else mkPos (py p) (min (px p) (length (left_part e ++ right_part e))))
  | OpSetStr s => if list_eq_dec N.eq_dec (whole e) s then m else None
  | OpSelectWord => if b then Some (mkPos (breaks (before e)) (length (left_part e) - word_run u (rev (left_part e)))) else m
  | OpInsertNewLine => mark_typing [c_nl] e m
  | OpInsertChar ch => mark_typing [ch] e m
  | OpInsertStr s => mark_typing s e m
  | OpDelLeft | OpDelBelow | OpSwapLines _ _ | OpLineUp | OpLineDown | OpDelWordLeft => held
  | OpDelWordRight => match right_part e with [] => m | _ => held end
  | _ => m
  end.
(** The lines left by the deletion of what is between two places, [None] when the second one isn't a place of its line and this line is the one of the first place *)
Definition lines_cut (ls : list str) (p q : Pos) : option (list str) :=
  let l := nth (py p) ls [] in
  if py p =? py q then
    if length l <? px q then None else Some (firstn (py p) ls ++ row_left l (px p) (px q) ++ skipn (S (py p)) ls)
  else Some (firstn (py p) ls ++ rows_left l (firstn (py q - S (py p)) (skipn (S (py p)) ls)) (nth (py q) ls []) (px p) (px q) ++ skipn (S (py q)) ls).
(** [None] is a panic *)
Definition m_delete (e : editor) (m : option Pos) : option (marked * bool) :=
  let below := let '(e', b) := e_delete_below e in Some (mkMarked e' (if b then option_map (inside (whole e')) m else m), b) in
  match m with
  | None => below
  | Some p =>
    if same_place p (here e) then below
    else let first := if sooner p (here e) then p else here e in let last := if sooner p (here e) then here e else p in
         option_map (fun ls => let s := flat (some_line ls) in (mkMarked (put_at (reach (at_char (px first)) (py first) s) s) None, true)) (lines_cut (lines_of (whole e)) first last)
  end.
Definition m_apply (u : unicode) (o : cop) (a : marked) : option (marked * bool) :=
  match h_apply u o with
  | Some f => let '(e', b) := f (m_ed a) in Some (mkMarked e' (mark_after u o (m_ed a) e' b (m_mark a)), b)
  | None => m_delete (m_ed a) (m_mark a)
  end.
Fixpoint m_run (u : unicode) (ops : list cop) (a : marked) : option marked :=
  match ops with
  | [] => Some a
  | o :: r => match m_apply u o a with Some (a', _) => m_run u r a' | None => None end
  end.
(** A content, seen so *)
Definition m_view (c : content) : marked := mkMarked (view c) (ctail c).

(** ** Fields *)
From Verif Require Import M_View M_Input.
Open Scope nat_scope.
(** More than one place is selected *)
Definition m_wide (a : marked) : bool := match m_mark a with Some p => negb (same_place p (here (m_ed a))) | None => false end.
(** A key pressed with shift or not in a field of height [h]: chars and deletions replace a wide selection, the other keys begin a selection or keep it with shift, end it without *)
Definition m_press (u : unicode) (h : nat) (k : KeyCode) (shift : bool) (a : marked) : option marked :=
  m_run u (match k with
           | KBackspace => [if m_wide a then OpDelSelection else OpDelLeft]
           | KDelete => [if m_wide a then OpDelSelection else OpDelBelow]
           | KChar ch => (if m_wide a then [OpDelSelection] else []) ++ [OpInsertChar ch]
           | _ => (if shift then OpMakeSelection else OpUnselect) :: pressed h k
           end) a.
Fixpoint m_keys (u : unicode) (h : nat) (ks : list (KeyCode * bool)) (a : marked) : option marked :=
  match ks with
  | [] => Some a
  | (k, shift) :: r => match m_press u h k shift a with Some a' => m_keys u h r a' | None => None end
  end.
Definition press_with (ks : KeyCode * bool) : if_op := IfEvent (EKey (fst ks) (if snd ks then 1 else 0)) false.
(** What the mouse does, [p] being the place of the content under it: pressing the button places the cursor, after having begun or kept a selection with shift, ended it without; dragging extends the selection; a double click takes the word *)
Definition m_mouse (e : MouseEvent) (double_click : bool) (p : Pos) : list cop :=
  match m_kind e with
  | MDown BLeft => [if N.eqb (m_mods e) 1 then OpMakeSelection else OpUnselect; OpSetCursor p]
  | MDrag BLeft => [OpMakeSelection; OpSetCursor p]
  | MUp BLeft => if double_click then [OpSetCursor p; OpSelectWord] else []
  | _ => []
  end.
