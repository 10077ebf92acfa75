(** * Model of src/views/pos.rs and src/views/input_field_content.rs *)
From Verif Require Import Base.

(** src/views/pos.rs:11-14. The derived order is lexicographic, [y] first. *)
Record Pos := mkPos { py : nat; px : nat }.

Definition pos_eqb (a b : Pos) : bool := (py a =? py b) && (px a =? px b).
(** derived [PartialOrd::lt] of src/views/pos.rs:10 *)
Definition pos_ltb (a b : Pos) : bool :=
  (py a <? py b) || ((py a =? py b) && (px a <? px b)).

(** src/views/pos.rs:21-24 *)
Record Range := mkRange { rmin : Pos; rmax : Pos }.

(** src/views/pos.rs:33-45 [Range::contains] *)
Definition range_contains (r : Range) (x y : nat) : bool :=
  if py (rmin r) =? py (rmax r) then
    (y =? py (rmin r)) && (px (rmin r) <=? x) && (x <=? px (rmax r))
  else if (y <? py (rmin r)) || (py (rmax r) <? y) then false
  else if y =? py (rmin r) then px (rmin r) <=? x
  else if y =? py (rmax r) then x <=? px (rmax r)
  else true.

(** src/views/input_field_content.rs:12-14. A line is the list of its chars. *)
Notation Line := (list N) (only parsing).

(** src/views/input_field_content.rs:26-33 *)
Record content := mkContent {
  cpos : Pos;
  ctail : option Pos;
  clines : list Line;
}.

Definition set_cpos (c : content) (p : Pos) := mkContent p (ctail c) (clines c).
Definition set_ctail (c : content) (t : option Pos) := mkContent (cpos c) t (clines c).
Definition set_clines (c : content) (l : list Line) := mkContent (cpos c) (ctail c) l.

(** src/views/input_field_content.rs:76-85 [Default] *)
Definition content_default : content := mkContent (mkPos 0 0) None [[]].

Section WithUnicode.
Variable u : unicode.

(** src/views/input_field_content.rs:657-662 [char_width]; TAB_REPLACEMENT is two spaces
    (src/fit/str_fit.rs:6) *)
Definition char_width (c : char) : nat :=
  if N.eqb c c_tab then 2 else chw u c.

(** src/views/input_field_content.rs:104-113 [Line::col_to_char_idx]: the loop *)
Fixpoint col_to_char_idx_loop (col : nat) (idx sum_widths : nat) (l : Line) : option nat :=
  match l with
  | [] => None
  | c :: r =>
    if col <=? sum_widths then Some idx
    else col_to_char_idx_loop col (S idx) (sum_widths + char_width c) r
  end.
Definition col_to_char_idx (l : Line) (col : nat) : option nat :=
  col_to_char_idx_loop col 0 0 l.

(** src/views/input_field_content.rs:114-119 [Line::char_idx_to_col]; slicing panics
    when the index is after the end *)
Definition char_idx_to_col (l : Line) (i : nat) : outcome nat :=
  if i <=? length l then Ret (sum (map char_width (firstn i l))) else Panic.

(** src/views/input_field_content.rs:120-125 [Line::width] *)
Definition line_width (l : Line) : nat := sum (map char_width l).

(** src/views/input_field_content.rs:673-675 *)
Definition is_word_char (c : char) : bool := is_alnum u c || N.eqb c 95.

(** src/views/input_field_content.rs:129-131 *)
Definition line_count (c : content) : nat := length (clines c).

(** src/views/input_field_content.rs:140-144 *)
Definition current_line (c : content) : outcome Line := idx (clines c) (py (cpos c)).

(** src/views/input_field_content.rs:246-252 *)
Definition content_end (c : content) : outcome Pos :=
  y <- csub (length (clines c)) 1 ;;
  l <- idx (clines c) y ;;
  Ret (mkPos y (length l)).

(** src/views/input_field_content.rs:159-166 *)
Definition make_valid_pos (c : content) (p : Pos) : outcome Pos :=
  if length (clines c) <=? py p then content_end c
  else l <- idx (clines c) (py p) ;; Ret (mkPos (py p) (min (px p) (length l))).

(** src/views/input_field_content.rs:155-157 *)
Definition set_cursor_pos (c : content) (p : Pos) : outcome content :=
  p' <- make_valid_pos c p ;; Ret (set_cpos c p').

(** src/views/input_field_content.rs:168-172 *)
Definition make_selection (c : content) : content :=
  match ctail c with None => set_ctail c (Some (cpos c)) | Some _ => c end.

(** src/views/input_field_content.rs:173-175 *)
Definition unselect (c : content) : content := set_ctail c None.

(** src/views/input_field_content.rs:176-185. Note that the clamping uses the length
    of the cursor's line, as in the source. *)
Definition set_selection_tail (c : content) (t : Pos) : outcome content :=
  if length (clines c) <=? py t then e <- content_end c ;; Ret (set_ctail c (Some e))
  else l <- idx (clines c) (py (cpos c)) ;;
       Ret (set_ctail c (Some (mkPos (py t) (min (px t) (length l))))).

(** src/views/input_field_content.rs:186-188 *)
Definition fix_pos (c : content) : outcome content :=
  p <- make_valid_pos c (cpos c) ;; Ret (set_cpos c p).

(** src/views/input_field_content.rs:189-193 *)
Definition fix_selection_tail (c : content) : outcome content :=
  match ctail c with
  | Some t => t' <- make_valid_pos c t ;; Ret (set_ctail c (Some t'))
  | None => Ret c
  end.

(** src/views/input_field_content.rs:194-197 *)
Definition fix_selection (c : content) : outcome content :=
  c1 <- fix_pos c ;; fix_selection_tail c1.

(** src/views/input_field_content.rs:198-217 *)
Definition selection (c : content) : Range :=
  match ctail c with
  | Some t => if pos_ltb t (cpos c) then mkRange t (cpos c) else mkRange (cpos c) t
  | None => mkRange (cpos c) (cpos c)
  end.

(** src/views/input_field_content.rs:35-53 [Chars::next]: [Ret None] is the end of the iteration,
    otherwise the char and the new position of the iterator *)
Definition chars_next (ls : list Line) (pos stop : Pos) : outcome (option (char * Pos)) :=
  if pos_ltb stop pos then Ret None
  else
    l <- idx ls (py pos) ;;
    match nth_error l (px pos) with
    | Some ch => Ret (Some (ch, mkPos (py pos) (S (px pos))))
    | None =>
      if S (py pos) <? length ls then Ret (Some (c_nl, mkPos (S (py pos)) 0))
      else Ret None
    end.

(** Collecting the iterator. The fuel bounds the number of [next] calls. *)
Fixpoint chars_collect (fuel : nat) (ls : list Line) (pos stop : Pos) : outcome str :=
  match fuel with
  | 0 => OutOfFuel
  | S f =>
    n <- chars_next ls pos stop ;;
    match n with
    | None => Ret []
    | Some (ch, pos') => r <- chars_collect f ls pos' stop ;; Ret (ch :: r)
    end
  end.

Definition chars_fuel (ls : list Line) : nat := S (S (sum (map (fun l => S (length l)) ls))).

(** src/views/input_field_content.rs:54-64 [IntoIterator], collected *)
Definition content_chars (c : content) : outcome str :=
  e <- content_end c ;;
  chars_collect (chars_fuel (clines c)) (clines c) (mkPos 0 0) e.

(** src/views/input_field_content.rs:220-230 [selection_chars], [selection_string] *)
Definition selection_string (c : content) : outcome str :=
  let r := selection c in
  chars_collect (chars_fuel (clines c)) (clines c) (rmin r) (rmax r).

(** src/views/input_field_content.rs:87-101 [Display] *)
Fixpoint display_lines (ls : list Line) : str :=
  match ls with
  | [] => []
  | [l] => l
  | l :: r => l ++ c_nl :: display_lines r
  end.
Definition to_string (c : content) : str := display_lines (clines c).

(** src/views/input_field_content.rs:231-236 *)
Definition is_empty (c : content) : outcome bool :=
  if length (clines c) =? 1 then
    l <- idx (clines c) 0 ;; Ret (match l with [] => true | _ => false end)
  else Ret false.

(** src/views/input_field_content.rs:237-243 *)
Definition has_selection (c : content) : bool :=
  match ctail c with Some _ => true | None => false end.
Definition has_wide_selection (c : content) : bool :=
  match ctail c with Some t => negb (pos_eqb t (cpos c)) | None => false end.

(** src/views/input_field_content.rs:262-268 [push_char], with [last_line] (253-256) *)
Definition push_char (c : content) (ch : char) : outcome content :=
  if N.eqb ch c_nl then Ret (set_clines c (clines c ++ [[]]))
  else if N.eqb ch c_cr || N.eqb ch c_bs then Ret c
  else
    y <- csub (length (clines c)) 1 ;;
    l <- idx (clines c) y ;;
    Ret (set_clines c (set_nth y (l ++ [ch]) (clines c))).

(** src/views/input_field_content.rs:275-280 *)
Definition clear (c : content) : content := mkContent (mkPos 0 0) None [[]].

(** src/views/input_field_content.rs:281-289 *)
Definition insert_new_line (c : content) : outcome content :=
  let y := py (cpos c) in
  l <- idx (clines c) y ;;
  '(stay, new_line) <- vec_split_off (px (cpos c)) l ;;
  let ls := set_nth y stay (clines c) in
  ls' <- vec_insert (S y) new_line ls ;;
  fix_selection (mkContent (mkPos (S y) 0) (ctail c) ls').

(** src/views/input_field_content.rs:292-301 *)
Definition insert_char (c : content) (ch : char) : outcome content :=
  if N.eqb ch c_nl then insert_new_line c
  else if N.eqb ch c_cr || N.eqb ch c_bs then Ret c
  else
    let y := py (cpos c) in
    l <- idx (clines c) y ;;
    l' <- vec_insert (px (cpos c)) ch l ;;
    Ret (mkContent (mkPos y (S (px (cpos c)))) (ctail c) (set_nth y l' (clines c))).

(** src/views/input_field_content.rs:303-307 *)
Fixpoint insert_str (c : content) (s : str) : outcome content :=
  match s with
  | [] => Ret c
  | ch :: r => c' <- insert_char c ch ;; insert_str c' r
  end.

(** src/views/input_field_content.rs:270-274 *)
Definition content_from (s : str) : outcome content := insert_str content_default s.

(** src/views/input_field_content.rs:310-324: the loop, recursion on the argument; both iterators
    advance together *)
Fixpoint is_str_loop (ls : list Line) (pos stop : Pos) (s : str) : outcome bool :=
  n <- chars_next ls pos stop ;;
  match n, s with
  | Some (a, pos'), b :: r => if N.eqb a b then is_str_loop ls pos' stop r else Ret false
  | None, [] => Ret true
  | _, _ => Ret false
  end.
Definition is_str (c : content) (s : str) : outcome bool :=
  e <- content_end c ;; is_str_loop (clines c) (mkPos 0 0) e s.

(** src/views/input_field_content.rs:329-335 *)
Definition set_str (c : content) (s : str) : outcome content :=
  b <- is_str c s ;;
  if b then Ret c else insert_str (clear c) s.

(** src/views/input_field_content.rs:337-355 *)
Definition del_char_left (c : content) : outcome (content * bool) :=
  let y := py (cpos c) in
  let x := px (cpos c) in
  if 0 <? x then
    l <- idx (clines c) y ;;
    ls <- (if negb (length l =? 0) then
             '(_, l') <- vec_remove (x - 1) l ;; Ret (set_nth y l' (clines c))
           else Ret (clines c)) ;;
    c' <- fix_selection (mkContent (mkPos y (x - 1)) (ctail c) ls) ;;
    Ret (c', true)
  else if (0 <? y) && (1 <? length (clines c)) then
    '(removed_line, ls) <- vec_remove y (clines c) ;;
    l <- idx ls (y - 1) ;;
    c' <- fix_selection
            (mkContent (mkPos (y - 1) (length l)) (ctail c) (set_nth (y - 1) (l ++ removed_line) ls)) ;;
    Ret (c', true)
  else Ret (c, false).

(** src/views/input_field_content.rs:364-366: loop going left from [start] *)
Fixpoint word_start_loop (chars : Line) (start : nat) : outcome nat :=
  match start with
  | 0 => Ret 0
  | S s' => ch <- idx chars s' ;; if is_word_char ch then word_start_loop chars s' else Ret start
  end.

(** src/views/input_field_content.rs:368-370: loop going right from [stop]; the fuel is the length of
    the line *)
Fixpoint word_end_loop (fuel : nat) (chars : Line) (stop : nat) : outcome nat :=
  match fuel with
  | 0 => OutOfFuel
  | S f =>
    if S stop <? length chars then
      ch <- idx chars (S stop) ;;
      if is_word_char ch then word_end_loop f chars (S stop) else Ret stop
    else Ret stop
  end.

(** src/views/input_field_content.rs:358-374 *)
Definition select_word_around (c : content) : outcome (content * bool) :=
  let y := py (cpos c) in
  let x := px (cpos c) in
  chars <- idx (clines c) y ;;
  b <- (if length chars <=? x then Ret true
        else ch <- idx chars x ;; Ret (negb (is_word_char ch))) ;;
  if b then Ret (c, false)
  else
    start <- word_start_loop chars x ;;
    stop <- word_end_loop (S (length chars)) chars x ;;
    Ret (mkContent (mkPos y stop) (Some (mkPos y start)) (clines c), true).

(** src/views/input_field_content.rs:379-401 *)
Definition del_char_below (c : content) : outcome (content * bool) :=
  let y := py (cpos c) in
  let x := px (cpos c) in
  l <- current_line c ;;
  if length l =? 0 then
    if 1 <? length (clines c) then
      '(_, ls) <- vec_remove y (clines c) ;;
      c' <- fix_selection (set_clines c ls) ;;
      Ret (c', true)
    else Ret (c, false)
  else if x <? length l then
    '(_, l') <- vec_remove x l ;;
    c' <- fix_selection (set_clines c (set_nth y l' (clines c))) ;;
    Ret (c', true)
  else if S y <? length (clines c) then
    '(removed_line, ls) <- vec_remove (S y) (clines c) ;;
    c' <- fix_selection (set_clines c (set_nth y (l ++ removed_line) ls)) ;;
    Ret (c', true)
  else Ret (c, false).

(** [if self.lines.is_empty() { self.lines.push(Line::default()) }],
    src/views/input_field_content.rs:413-415 and 437-439 *)
Definition at_least_one (ls : list Line) : list Line :=
  match ls with [] => [[]] | _ => ls end.

(** src/views/input_field_content.rs:403-445 *)
Definition del_selection (c : content) : outcome (content * bool) :=
  let mn := rmin (selection c) in
  let mx := rmax (selection c) in
  if (py mn =? py mx) && (px mn =? px mx) then del_char_below c
  else
    ls <-
      (if py mn =? py mx then
         l <- idx (clines c) (py mn) ;;
         if px mx =? length l then
           if px mn =? 0 then
             ls <- vec_drain (py mn) (py mn + 1) (clines c) ;;
             Ret (at_least_one ls)
           else
             l' <- vec_drain (px mn) (length l) l ;;
             Ret (set_nth (py mn) l' (clines c))
         else
           l' <- vec_drain (px mn) (px mx + 1) l ;;
           Ret (set_nth (py mn) l' (clines c))
       else
         '(min_y, ls1) <-
           (if 0 <? px mn then
              l <- idx (clines c) (py mn) ;;
              Ret (py mn + 1, set_nth (py mn) (firstn (px mn) l) (clines c))
            else Ret (py mn, clines c)) ;;
         lmax <- idx ls1 (py mx) ;;
         '(max_y, ls2) <-
           (if px mx <? length lmax then
              l' <- vec_drain 0 (px mx) lmax ;;
              m <- csub (py mx) 1 ;;
              Ret (m, set_nth (py mx) l' ls1)
            else Ret (py mx, ls1)) ;;
         if min_y <? max_y then
           ls3 <- vec_drain min_y (min (max_y + 1) (length ls2)) ls2 ;;
           Ret (at_least_one ls3)
         else Ret ls2) ;;
    c' <- set_cursor_pos (set_clines c ls) mn ;;
    Ret (set_ctail c' None, true).

(** src/views/input_field_content.rs:448-456 *)
Definition swap_lines (c : content) (ya yb : nat) : outcome (content * bool) :=
  if negb (ya =? yb) && (ya <? length (clines c)) && (yb <? length (clines c)) then
    ls <- vec_swap ya yb (clines c) ;;
    c' <- fix_selection (set_clines c ls) ;;
    Ret (c', true)
  else Ret (c, false).

(** src/views/input_field_content.rs:459-467 *)
Definition move_current_line_up (c : content) : outcome (content * bool) :=
  if 0 <? py (cpos c) then
    '(c1, b) <- swap_lines c (py (cpos c) - 1) (py (cpos c)) ;;
    if b then
      y <- csub (py (cpos c1)) 1 ;;
      c2 <- fix_selection (set_cpos c1 (mkPos y (px (cpos c1)))) ;;
      Ret (c2, true)
    else Ret (c1, false)
  else Ret (c, false).

(** src/views/input_field_content.rs:470-478 *)
Definition move_current_line_down (c : content) : outcome (content * bool) :=
  '(c1, b) <- swap_lines c (py (cpos c) + 1) (py (cpos c)) ;;
  if b then
    c2 <- fix_selection (set_cpos c1 (mkPos (py (cpos c1) + 1) (px (cpos c1)))) ;;
    Ret (c2, true)
  else Ret (c1, false).

(** src/views/input_field_content.rs:481-483 *)
Definition can_move_right (c : content) : outcome bool :=
  l <- idx (clines c) (py (cpos c)) ;;
  if px (cpos c) <? length l then Ret true
  else n <- csub (length (clines c)) 1 ;; Ret (py (cpos c) <? n).

(** src/views/input_field_content.rs:487-498 *)
Definition move_right (c : content) : outcome (content * bool) :=
  let y := py (cpos c) in
  let x := px (cpos c) in
  l <- idx (clines c) y ;;
  if x <? length l then Ret (set_cpos c (mkPos y (x + 1)), true)
  else
    n <- csub (length (clines c)) 1 ;;
    if y <? n then Ret (set_cpos c (mkPos (y + 1) 0), true)
    else Ret (c, false).

(** src/views/input_field_content.rs:500-510 *)
Definition move_lines_up (c : content) (n : nat) : outcome (content * bool) :=
  let y := py (cpos c) in
  if 0 <? y then
    l <- idx (clines c) y ;;
    cols <- char_idx_to_col l (px (cpos c)) ;;
    let y' := y - min n y in
    l' <- idx (clines c) y' ;;
    let x' := match col_to_char_idx l' cols with Some i => i | None => length l' end in
    Ret (set_cpos c (mkPos y' x'), true)
  else Ret (c, false).

(** src/views/input_field_content.rs:516-526; the subtractions can't underflow as the condition holds *)
Definition move_lines_down (c : content) (n : nat) : outcome (content * bool) :=
  let y := py (cpos c) in
  if y + 1 <? length (clines c) then
    l <- idx (clines c) y ;;
    cols <- char_idx_to_col l (px (cpos c)) ;;
    let y' := y + min n (length (clines c) - y - 1) in
    l' <- idx (clines c) y' ;;
    let x' := match col_to_char_idx l' cols with Some i => i | None => length l' end in
    Ret (set_cpos c (mkPos y' x'), true)
  else Ret (c, false).

(** src/views/input_field_content.rs:512-514, 527-529 *)
Definition move_up (c : content) := move_lines_up c 1.
Definition move_down (c : content) := move_lines_down c 1.

(** src/views/input_field_content.rs:530-532 *)
Definition can_move_left (c : content) : bool := (0 <? px (cpos c)) || (0 <? py (cpos c)).

(** src/views/input_field_content.rs:533-544 *)
Definition move_left (c : content) : outcome (content * bool) :=
  let y := py (cpos c) in
  let x := px (cpos c) in
  if 0 <? x then Ret (set_cpos c (mkPos y (x - 1)), true)
  else if 0 <? y then
    l <- idx (clines c) (y - 1) ;;
    Ret (set_cpos c (mkPos (y - 1) (length l)), true)
  else Ret (c, false).

(** src/views/input_field_content.rs:545-553 *)
Definition move_to_end (c : content) : outcome (content * bool) :=
  e <- content_end c ;;
  if pos_eqb e (cpos c) then Ret (c, false) else Ret (set_cpos c e, true).

(** src/views/input_field_content.rs:554-562 *)
Definition move_to_start (c : content) : content * bool :=
  if pos_eqb (mkPos 0 0) (cpos c) then (c, false) else (set_cpos c (mkPos 0 0), true).

(** src/views/input_field_content.rs:563-571 *)
Definition move_to_line_end (c : content) : outcome (content * bool) :=
  l <- idx (clines c) (py (cpos c)) ;;
  if px (cpos c) <? length l then
    Ret (set_cpos c (mkPos (py (cpos c)) (length l)), true)
  else Ret (c, false).

(** src/views/input_field_content.rs:572-579 *)
Definition move_to_line_start (c : content) : content * bool :=
  if 0 <? px (cpos c) then (set_cpos c (mkPos (py (cpos c)) 0), true) else (c, false).

(** src/views/input_field_content.rs:583-588: the loop, [x] positive on entry *)
Fixpoint word_left_loop (chars : Line) (x : nat) : outcome nat :=
  match x with
  | 0 => Panic
  | S x' =>
    match x' with
    | 0 => Ret 0
    | S x'' => ch <- idx chars x'' ;;
               if negb (is_alnum u ch) then Ret x' else word_left_loop chars x'
    end
  end.

(** src/views/input_field_content.rs:580-593 *)
Definition move_word_left (c : content) : outcome (content * bool) :=
  if 0 <? px (cpos c) then
    chars <- idx (clines c) (py (cpos c)) ;;
    x <- word_left_loop chars (px (cpos c)) ;;
    Ret (set_cpos c (mkPos (py (cpos c)) x), true)
  else Ret (c, false).

(** src/views/input_field_content.rs:597-602: the loop; the fuel is the length of the line *)
Fixpoint word_right_loop (fuel : nat) (chars : Line) (x : nat) : outcome nat :=
  match fuel with
  | 0 => OutOfFuel
  | S f =>
    let x' := x + 1 in
    if length chars <=? x' + 1 then Ret x'
    else ch <- idx chars (x' + 1) ;;
         if negb (is_alnum u ch) then Ret x' else word_right_loop f chars x'
  end.

(** src/views/input_field_content.rs:594-607 *)
Definition move_word_right (c : content) : outcome (content * bool) :=
  chars <- idx (clines c) (py (cpos c)) ;;
  if px (cpos c) <? length chars then
    x <- word_right_loop (length chars) chars (px (cpos c)) ;;
    Ret (set_cpos c (mkPos (py (cpos c)) x), true)
  else Ret (c, false).

(** src/views/input_field_content.rs:611-617: the loop, [x] positive on entry *)
Fixpoint del_word_left_loop (chars : Line) (x : nat) : outcome (Line * nat) :=
  match x with
  | 0 => Panic
  | S x' =>
    '(_, chars') <- vec_remove x' chars ;;
    match x' with
    | 0 => Ret (chars', 0)
    | S x'' => ch <- idx chars' x'' ;;
               if negb (is_alnum u ch) then Ret (chars', x') else del_word_left_loop chars' x'
    end
  end.

(** src/views/input_field_content.rs:608-623 *)
Definition del_word_left (c : content) : outcome (content * bool) :=
  if 0 <? px (cpos c) then
    let y := py (cpos c) in
    chars <- idx (clines c) y ;;
    '(chars', x) <- del_word_left_loop chars (px (cpos c)) ;;
    c' <- fix_selection (mkContent (mkPos y x) (ctail c) (set_nth y chars' (clines c))) ;;
    Ret (c', true)
  else Ret (c, false).

(** src/views/input_field_content.rs:631-643: the loop; the fuel is the length of the line *)
Fixpoint del_word_right_loop (fuel : nat) (chars : Line) (x : nat) : outcome (Line * nat) :=
  match fuel with
  | 0 => OutOfFuel
  | S f =>
    ch <- idx chars x ;;
    '(_, chars') <- vec_remove x chars ;;
    if negb (is_alnum u ch) then Ret (chars', x)
    else if x =? length chars' then Ret (chars', if 0 <? x then x - 1 else x)
    else del_word_right_loop f chars' x
  end.

(** src/views/input_field_content.rs:628-652 *)
Definition del_word_right (c : content) : outcome (content * bool) :=
  let y := py (cpos c) in
  let x := px (cpos c) in
  chars <- idx (clines c) y ;;
  if x <? length chars then
    '(chars', x') <- del_word_right_loop (length chars) chars x ;;
    c' <- fix_selection (mkContent (mkPos y x') (ctail c) (set_nth y chars' (clines c))) ;;
    Ret (c', true)
  else
    l <- current_line c ;;
    if (x =? length l) && (0 <? x) then Ret (set_cpos c (mkPos y (x - 1)), true)
    else Ret (c, false).

(** All the public mutating operations of [InputFieldContent], to speak of histories *)
Inductive cop :=
| OpSetCursor (p : Pos) | OpMakeSelection | OpUnselect | OpSetTail (p : Pos)
| OpPushChar (ch : char) | OpClear | OpInsertNewLine | OpInsertChar (ch : char)
| OpInsertStr (s : str) | OpSetStr (s : str) | OpDelLeft | OpSelectWord | OpDelBelow
| OpDelSelection | OpSwapLines (a b : nat) | OpLineUp | OpLineDown | OpRight
| OpLinesUp (n : nat) | OpLinesDown (n : nat) | OpLeft | OpToEnd | OpToStart
| OpToLineEnd | OpToLineStart | OpWordLeft | OpWordRight | OpDelWordLeft | OpDelWordRight.

Definition with_true (m : outcome content) : outcome (content * bool) :=
  c <- m ;; Ret (c, true).

(** Dispatch of an operation; the boolean is the one returned by the method ([true] for methods
    returning nothing) *)
Definition capply (o : cop) (c : content) : outcome (content * bool) :=
  match o with
  | OpSetCursor p => with_true (set_cursor_pos c p)
  | OpMakeSelection => Ret (make_selection c, true)
  | OpUnselect => Ret (unselect c, true)
  | OpSetTail p => with_true (set_selection_tail c p)
  | OpPushChar ch => with_true (push_char c ch)
  | OpClear => Ret (clear c, true)
  | OpInsertNewLine => with_true (insert_new_line c)
  | OpInsertChar ch => with_true (insert_char c ch)
  | OpInsertStr s => with_true (insert_str c s)
  | OpSetStr s => with_true (set_str c s)
  | OpDelLeft => del_char_left c
  | OpSelectWord => select_word_around c
  | OpDelBelow => del_char_below c
  | OpDelSelection => del_selection c
  | OpSwapLines a b => swap_lines c a b
  | OpLineUp => move_current_line_up c
  | OpLineDown => move_current_line_down c
  | OpRight => move_right c
  | OpLinesUp n => move_lines_up c n
  | OpLinesDown n => move_lines_down c n
  | OpLeft => move_left c
  | OpToEnd => move_to_end c
  | OpToStart => Ret (move_to_start c)
  | OpToLineEnd => move_to_line_end c
  | OpToLineStart => Ret (move_to_line_start c)
  | OpWordLeft => move_word_left c
  | OpWordRight => move_word_right c
  | OpDelWordLeft => del_word_left c
  | OpDelWordRight => del_word_right c
  end.

(** A history of operations *)
Fixpoint crun (ops : list cop) (c : content) : outcome content :=
  match ops with
  | [] => Ret c
  | o :: r => '(c', _) <- capply o c ;; crun r c'
  end.

End WithUnicode.
