(** * Model of src/line.rs, src/tbl.rs, src/code.rs, hard_wrap_lines of src/fit/wrap.rs, and src/text.rs *)
From Verif Require Import Base M_Style M_Fit M_Wrap M_TblFit.
Set Implicit Arguments.

(** src/tbl.rs:26-30 *)
Inductive RelativePosition := Top | Other | Bottom.
(** src/tbl.rs:37-41 *)
Record FmtTableRule := mkRule { position : RelativePosition; widths : list nat; aligns : list Alignment }.
(** src/line.rs:19-24; a [FmtTableRow] (src/tbl.rs:20-22) is the list of its cells *)
Inductive FmtLine :=
| Normal (fc : FmtComposite)
| TableRow (cells : list FmtComposite)
| TableRule (rule : FmtTableRule)
| HorizontalRule.

(** minimad's [Line] *)
Inductive MLine :=
| MNormal (c : MComposite) | MTableRow (cells : list MComposite) | MTableRule (cells : list Alignment) | MHorizontalRule | MCodeFence.

(** src/line.rs:30-42 and src/tbl.rs:59-68 *)
Definition line_from (u : unicode) (k : MadSkin) (l : MLine) : FmtLine :=
  match l with
  | MNormal c => Normal (fc_from u k c)
  | MTableRow cells => TableRow (map (fc_from u k) cells)
  | MTableRule cells => TableRule (mkRule Other [] cells)
  | MHorizontalRule => HorizontalRule
  | MCodeFence => HorizontalRule
  end.
(** src/line.rs:43-50 *)
Definition line_visible_length (l : FmtLine) : nat :=
  match l with
  | Normal fc => visible_length fc
  | TableRow cells => fold_left (fun s c => s + visible_length c) cells 0
  | TableRule r => 1 + fold_left (fun s w => s + w + 1) (widths r) 0
  | HorizontalRule => 0
  end.

(** ** src/tbl.rs *)

(** the loop of src/tbl.rs:47-54 *)
Fixpoint push_cols (ws : list nat) (als : list Alignment) (ics : list nat) : list nat * list Alignment :=
  match ics with
  | [] => (ws, als)
  | ic :: r => push_cols (if length ws <=? ic then ws ++ [0] else ws)
                 (if length als <=? ic then als ++ [Unspecified] else als) r
  end.
(** src/tbl.rs:44-55 *)
Definition set_nbcols (r : FmtTableRule) (nbcols : nat) : FmtTableRule :=
  let '(ws, als) := push_cols (firstn nbcols (widths r)) (firstn nbcols (aligns r)) (seq 0 nbcols) in
  mkRule (position r) ws als.

Definition with_spacing (fc : FmtComposite) (sp : option Spacing) : FmtComposite :=
  mkFC (fc_kind fc) (fc_compounds fc) (visible_length fc) sp.

(** src/tbl.rs:98-104: the cells of a row are seen, the missing ones are added *)
Fixpoint see_row (tf : TblFit) (cells : list FmtComposite) (ics : list nat) : outcome (TblFit * list FmtComposite) :=
  match ics with
  | [] => Ret (tf, cells)
  | ic :: r =>
      if length cells <=? ic then see_row tf (cells ++ [fc_new]) r
      else c <- idx cells ic ;; see_row (see_cell tf ic (visible_length c)) cells r
  end.
(** the loop of src/tbl.rs:96-110, on the lines of the table *)
Fixpoint see_lines (nbcols : nat) (tf : TblFit) (lines : list FmtLine) : outcome (TblFit * list FmtLine) :=
  match lines with
  | [] => Ret (tf, [])
  | TableRow cells :: r =>
      '(tf, cells) <- see_row tf cells (seq 0 nbcols) ;;
      '(tf, r') <- see_lines nbcols tf r ;; Ret (tf, TableRow cells :: r')
  | TableRule rule :: r =>
      '(tf, r') <- see_lines nbcols tf r ;; Ret (tf, TableRule (set_nbcols rule nbcols) :: r')
  | _ => Panic
  end.

(** the loop of src/tbl.rs:131-151 *)
Fixpoint wrap_cells (u : unicode) (k : MadSkin) (ws : list nat) (cells : list FmtComposite) (to_add : list (list FmtComposite))
    (ics : list nat) : outcome (list FmtComposite * list (list FmtComposite)) :=
  match ics with
  | [] => Ret (cells, to_add)
  | ic :: r =>
      if length cells <=? ic then wrap_cells u k ws (cells ++ [fc_new]) to_add r else
      let to_add := to_add ++ [[]] in
      c <- idx cells ic ;;
      w <- idx ws ic ;;
      if w <? visible_length c then
        o <- hard_wrap_composite u k c w ;;
        match o with
        | Some (first :: others) =>
            t <- idx to_add ic ;;
            wrap_cells u k ws (set_nth ic first cells) (set_nth ic (t ++ others) to_add) r
        | _ => Panic
        end
      else wrap_cells u k ws cells to_add r
  end.
(** src/tbl.rs:154-161 *)
Fixpoint pick_cells (i_nl : nat) (to_add : list (list FmtComposite)) : outcome (list FmtComposite * list (list FmtComposite)) :=
  match to_add with
  | [] => Ret ([], [])
  | cell :: r =>
      '(x, cell) <- (if i_nl <? length cell then vec_remove i_nl cell else Ret (fc_new, cell)) ;;
      '(xs, r') <- pick_cells i_nl r ;; Ret (x :: xs, cell :: r')
  end.
(** the loop of src/tbl.rs:152-165, giving the lines and the height *)
Fixpoint insert_rows (nbcols ir nb_new_lines : nat) (to_add : list (list FmtComposite)) (lines : list FmtLine) (height : nat)
    : outcome (list FmtLine * nat) :=
  match nb_new_lines with
  | 0 => Ret (lines, height)
  | S i_nl =>
      '(cells, picked) <- pick_cells i_nl (firstn nbcols to_add) ;;
      lines <- vec_insert (ir + 1) (TableRow cells) lines ;;
      insert_rows nbcols ir i_nl (picked ++ skipn nbcols to_add) lines (height + 1)
  end.
(** the loop of src/tbl.rs:126-167; [n] is the number of lines still to visit, the next one being at [start + n - 1] *)
Fixpoint wrap_rows (u : unicode) (k : MadSkin) (ws : list nat) (nbcols start : nat) (n : nat) (lines : list FmtLine) (height : nat)
    : outcome (list FmtLine * nat) :=
  match n with
  | 0 => Ret (lines, height)
  | S n =>
      let ir := start + n in
      l <- idx lines ir ;;
      match l with
      | TableRow cells =>
          '(cells, to_add) <- wrap_cells u k ws (firstn nbcols cells) [] (seq 0 nbcols) ;;
          let lines := set_nth ir (TableRow cells) lines in
          let nb := fold_left (fun m c => Nat.max m (length c)) to_add 0 in
          '(lines, height) <- insert_rows nbcols ir nb to_add lines height ;;
          wrap_rows u k ws nbcols start n lines height
      | _ => wrap_rows u k ws nbcols start n lines height
      end
  end.

(** src/tbl.rs:175-180 *)
Fixpoint space_cells (ws : list nat) (als : list Alignment) (cells : list FmtComposite) (ics : list nat) : outcome (list FmtComposite) :=
  match ics with
  | [] => Ret cells
  | ic :: r =>
      w <- idx ws ic ;;
      a <- idx als ic ;;
      c <- idx cells ic ;;
      space_cells ws als (set_nth ic (with_spacing c (Some (mkSpacing w a))) cells) r
  end.
(** [dst[..n].clone_from_slice(&src[..n])] *)
Definition copy_slice {A} (n : nat) (dst src : list A) : outcome (list A) :=
  if (n <=? length dst) && (n <=? length src) then Ret (firstn n src ++ skipn n dst) else Panic.
(** the loop of src/tbl.rs:171-198; [irs] are the indices to visit *)
Fixpoint align_lines (cols_removed : bool) (ws : list nat) (nbcols start height : nat) (als : list Alignment) (irs : list nat)
    (lines : list FmtLine) : outcome (list FmtLine) :=
  match irs with
  | [] => Ret lines
  | ir :: r =>
      l <- idx lines ir ;;
      match l with
      | TableRow cells =>
          cells <- space_cells ws als cells (seq 0 nbcols) ;;
          align_lines cols_removed ws nbcols start height als r (set_nth ir (TableRow cells) lines)
      | TableRule rule =>
          let rule := if cols_removed then set_nbcols rule nbcols else rule in
          last <- csub (start + height) 1 ;;
          let pos := if ir =? start then Top else if ir =? last then Bottom else position rule in
          rws <- copy_slice nbcols (widths rule) ws ;;
          als <- copy_slice nbcols als (aligns rule) ;;
          align_lines cols_removed ws nbcols start height als r (set_nth ir (TableRule (mkRule pos rws (aligns rule))) lines)
      | _ => Panic
      end
  end.

(** src/tbl.rs:77-81 *)
Record Table := mkTable { tb_start : nat; tb_height : nat; tb_nbcols : nat }.
(** src/tbl.rs:85-199 *)
Definition fix_columns (u : unicode) (k : MadSkin) (t : Table) (lines : list FmtLine) (width : nat) : outcome (list FmtLine) :=
  let nbcols := tb_nbcols t in
  let start := tb_start t in
  let height := tb_height t in
  if (nbcols =? 0) || (width =? 0) then Ret lines else
  o <- tf_new nbcols width ;;
  '(lines, nbcols, ws, cols_removed) <-
    match o with
    | Some tf =>
        '(tf, seen) <- see_lines nbcols tf (firstn height (skipn start lines)) ;;
        res <- tf_fit tf ;;
        Ret (firstn start lines ++ seen ++ skipn height (skipn start lines), nbcols, col_widths res, false)
    | None => w <- csub width 1 ;; Ret (lines, w / 4, repeat 3 (w / 4), true)
    end ;;
  '(lines, height) <- wrap_rows u k ws nbcols start height lines height ;;
  align_lines cols_removed ws nbcols start height (repeat Center nbcols) (seq start height) lines.

(** The loops of [find_tables] (src/tbl.rs:206-243) and of [find_blocks] (src/code.rs:45-66) are the same: find the runs of
    lines having a size, with the biggest of those sizes *)
Fixpoint find_runs {A} (size : A -> option nat) (idx : nat) (current : option Table) (lines : list A) : list Table :=
  match lines with
  | [] => match current with Some c => [c] | None => [] end
  | l :: r =>
      match size l with
      | Some n =>
          let c := match current with
                   | Some c => mkTable (tb_start c) (tb_height c + 1) (Nat.max (tb_nbcols c) n)
                   | None => mkTable idx 1 n
                   end in
          find_runs size (S idx) (Some c) r
      | None =>
          match current with
          | Some c => c :: find_runs size (S idx) None r
          | None => find_runs size (S idx) None r
          end
      end
  end.
(** src/tbl.rs:208-238 *)
Definition table_size (l : FmtLine) : option nat :=
  match l with TableRule r => Some (length (aligns r)) | TableRow cells => Some (length cells) | _ => None end.
(** src/tbl.rs:203-245 *)
Definition find_tables (lines : list FmtLine) : list Table := find_runs table_size 0 None lines.

(** src/tbl.rs:252-256 *)
Definition fix_all_tables (u : unicode) (k : MadSkin) (lines : list FmtLine) (width : nat) : outcome (list FmtLine) :=
  fold_left (fun lines t => ls <- lines ;; fix_columns u k t ls width) (rev (find_tables lines)) (Ret lines).

(** ** src/code.rs *)

(** src/code.rs:27-35 *)
Definition code_line_length (l : FmtLine) : option nat :=
  match l with
  | Normal fc => match fc_kind fc with KCode => Some (visible_length fc) | _ => None end
  | _ => None
  end.
(** src/code.rs:42-68; a [CodeBlock] (src/code.rs:8-12) has, as a table, a start, a height, and a width instead of [nbcols] *)
Definition find_blocks (lines : list FmtLine) : list Table := find_runs code_line_length 0 None lines.
(** src/code.rs:15-24 *)
Definition justify_line (width : nat) (l : FmtLine) : FmtLine :=
  match l with Normal fc => Normal (with_spacing fc (Some (mkSpacing width ALeft))) | x => x end.
Definition justify (b : Table) (lines : list FmtLine) : list FmtLine :=
  firstn (tb_start b) lines ++ map (justify_line (tb_nbcols b)) (firstn (tb_height b) (skipn (tb_start b) lines))
  ++ skipn (tb_height b) (skipn (tb_start b) lines).
(** src/code.rs:72-77 *)
Definition justify_blocks (lines : list FmtLine) : list FmtLine :=
  fold_left (fun lines b => justify b lines) (find_blocks lines) lines.

(** ** hard_wrap_lines: src/fit/wrap.rs:131-153; [None] is the [InsufficientWidthError] *)
Fixpoint hard_wrap_lines (u : unicode) (k : MadSkin) (lines : list FmtLine) (width : nat) : outcome (option (list FmtLine)) :=
  match lines with
  | [] => Ret (Some [])
  | Normal fc :: r =>
      ls <- line_style k (fc_kind fc) ;;
      let '(lm, rm) := margins_in ls (Some width) in
      if visible_length fc + lm + rm <=? width then
        o <- hard_wrap_lines u k r width ;;
        Ret (option_map (fun r' => Normal fc :: r') o)
      else
        w <- csub width lm ;;
        w <- csub w rm ;;
        o <- hard_wrap_composite u k fc w ;;
        match o with
        | None => Ret None
        | Some fcs => o <- hard_wrap_lines u k r width ;; Ret (option_map (fun r' => map Normal fcs ++ r') o)
        end
  | l :: r => o <- hard_wrap_lines u k r width ;; Ret (option_map (fun r' => l :: r') o)
  end.

(** ** src/text.rs *)

(** src/text.rs:30-34, without the skin *)
Record FmtText := mkText { txt_lines : list FmtLine; txt_width : option nat }.
(** src/text.rs:52-71; [usize_max] stands for [usize::MAX] *)
Definition from_text (u : unicode) (k : MadSkin) (usize_max : nat) (text : list MLine) (width : option nat) : outcome FmtText :=
  let lines := map (line_from u k) text in
  lines <- fix_all_tables u k lines (match width with Some w => w | None => usize_max end) ;;
  let lines := justify_blocks lines in
  match width with
  | Some w =>
      if 3 <=? w then
        o <- hard_wrap_lines u k lines w ;;
        match o with Some lines => Ret (mkText lines width) | None => Panic end
      else Ret (mkText lines width)
  | None => Ret (mkText lines width)
  end.
(** src/text.rs:83-85 *)
Definition set_rendering_width (t : FmtText) (width : nat) : FmtText := mkText (txt_lines t) (Some width).
(** src/text.rs:86-90 *)
Definition content_width (t : FmtText) : nat := fold_left (fun cw l => Nat.max cw (line_visible_length l)) (txt_lines t) 0.
