(** * Vocabulary for the looks of what is read on a terminal *)
From Verif Require Import Base M_Style M_Fit M_Wrap S_Wrap M_Text M_View S_View M_Render S_Render S_Border S_Pen S_Paint S_Read S_Cells S_Local S_Whole.
Set Implicit Arguments.
Open Scope nat_scope.

(** What is seen in a cell: a char and its look, told for its first column *)
Definition look_cell (s : seen) : list (char * pen) := match s with Part c 0 p => [(c, p)] | Part _ _ _ => [] | Nothing b => [(32%N, mkPen Reset b 0)] end.
Definition look_row (t : term) (x y w : nat) : list (char * pen) := flat_map (fun i => look_cell (t_cell t i y)) (seq x w).
Definition look_block (t : term) (x y w h : nat) : list (char * pen) := flat_map (fun i => look_row t x (y + i) w) (seq 0 h).

(** The look of styles put one over another, from the first one: the last color which is given for the text, the last one for the background, and all the
    attributes. The attribute which resets makes the colors the default ones. *)
Definition last_color (l : list (option Color)) : Color := fold_left (fun a o => match o with Some c => c | None => a end) l Reset.
Definition look_of (l : list CStyle) : pen :=
  let a := fold_left N.lor (map attrs l) 0%N in
  if attrs_has a AReset then mkPen Reset Reset a else mkPen (last_color (map fg l)) (last_color (map bg l)) a.
(** The style of the lines of a kind *)
Definition style_for (k : MadSkin) (kind : CompositeKind) : CStyle :=
  match kind with KCode => ls_cs (code_block k) | KHeader n => ls_cs (nth (n - 1) (headers k) (paragraph k)) | _ => ls_cs (paragraph k) end.
(** A char of the source: over the style of its line, the styles of what it's in *)
Definition styles_over (k : MadSkin) (f : bool * bool * bool * bool) : list CStyle :=
  let '(b, i, c, s) := f in
  (if i then [italic k] else []) ++ (if s then [strikeout k] else []) ++ (if b then [bold k] else []) ++ (if c then [inline_code k] else []).
Definition source_looks (k : MadSkin) (kind : CompositeKind) (cs : list Compound) : list (char * pen) :=
  flat_map (fun c => map (fun ch => (ch, look_of (style_for k kind :: styles_over k (c_bold c, c_italic c, c_code c, c_strikeout c)))) (src c)) cs.
Definition char_look (c : StyledChar) : char * pen := (snd (sc_cache c), look_of [fst (sc_cache c)]).
(** Before the text of a line, on its row number [i] *)
Definition mark_looks (k : MadSkin) (kind : CompositeKind) (i : nat) : list (char * pen) :=
  match kind, i with
  | KListItem _, 0 => [char_look (bullet k); (32%N, look_of [ls_cs (paragraph k)])]
  | KQuote, _ => [char_look (quote_mark k); (32%N, look_of [ls_cs (paragraph k)])]
  | _, _ => []
  end.
(** The chars which take some place *)
Definition placed_of (u : unicode) (l : list (char * pen)) : list (char * pen) := filter (fun c => 0 <? chw u (fst c)) l.
(** The source doesn't have the char of the ellipsis, whose style may be another one *)
Definition no_ellipsis (l : MLine) : Prop :=
  match l with
  | MNormal c => ~ In c_ellipsis (text_of (mc_compounds c))
  | MTableRow cells => Forall (fun c => ~ In c_ellipsis (text_of (mc_compounds c))) cells
  | _ => True
  end.
(** What is seen on the rows [y], …, [y + l_rows p - 1] for a source line, in the columns from [x] to [x + w - 1].
    The text is seen with its looks, after its mark. The blanks on both sides of it have the look of its line, or, farther, of paragraphs.
    A line of code is in [bw] columns with its look. *)
Definition looks_line (u : unicode) (k : MadSkin) (tm : term) (p : Laid) (bw : nat) (l : MLine) (x y w : nat) : Prop :=
  let far := (32%N, look_of [ls_cs (paragraph k)]) in
  match l with
  | MNormal c => let kind := kind_of (mc_style c) in let near := (32%N, look_of [style_for k kind]) in
      exists parts, length parts = l_rows p /\ thinned u (source_looks k kind (mc_compounds c)) (concat parts)
      /\ (forall i part, nth_error parts i = Some part -> exists a b b' a',
           look_row tm x (y + i) w = repeat far a ++ repeat near b ++ placed_of u (mark_looks k kind i ++ part) ++ repeat near b' ++ repeat far a'
           /\ (of_code l = true -> a = l_left p /\ b = 0 /\ sumw (chw u) (map fst part) + b' = bw))
      /\ (of_code l = true -> parts = [source_looks k kind (mc_compounds c)])
  | MTableRow cells => let x := x + l_left p in let ws := l_columns p in
      (forall j, j < length ws -> visible_of u (look_block tm (x + edge ws j + 1) y (nth j ws 0) (l_rows p))
         = visible_of u (match nth_error cells j with Some c => source_looks k KParagraph (mc_compounds c) | None => [] end))
      /\ (forall j d, j <= length ws -> d < l_rows p -> look_row tm (x + edge ws j) (y + d) 1 = [(vertical (table_border_chars k), look_of [ls_cs (table k)])])
  | MTableRule _ => l_rows p = 1 /\ exists pos, look_row tm (x + l_left p) y (table_line_width (l_columns p)) = map (fun c => (c, look_of [ls_cs (table k)])) (rule_text k (l_columns p) pos)
  | _ => l_rows p = 1 /\ look_row tm x y w = repeat (sc_char (horizontal_rule k), look_of [sc_style (horizontal_rule k)]) w
  end.
(** The lines of a same block of code are in the same number of columns *)
Definition same_blocks (text : list MLine) (bws : list nat) : Prop :=
  forall i l l' b b', nth_error text i = Some l -> nth_error text (S i) = Some l' -> nth_error bws i = Some b -> nth_error bws (S i) = Some b' ->
  of_code l = true -> of_code l' = true -> b = b'.
