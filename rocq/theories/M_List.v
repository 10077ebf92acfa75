(** * Model of src/views/list_view.rs

    The closures (filter, order, cells) are functions. Counts, scroll and indexes (usize) are [nat]; widths of columns (usize) and
    screen positions (u16) are [N]. Writing the whole list is giving the commands queued. *)
From Verif Require Import Base M_Style M_Fit M_View.
Set Implicit Arguments.
Open Scope nat_scope.

(** src/views/list_view.rs:33-37; the width is the number of chars: see [cell_new] *)
Record ListViewCell := mkCell { con : str; cell_style : CStyle; cell_width : nat }.
(** src/views/list_view.rs:80-83 *)
Definition cell_new (c : str) (style : CStyle) : ListViewCell := mkCell c style (length c).

(** src/views/list_view.rs:43-49; [lc_width] and [lc_align] are the spacing *)
Record ListViewColumn (T : Type) := mkColumn {
  lc_title : str; lc_min : N; lc_max : N; lc_width : N; lc_align : Alignment; extract : T -> ListViewCell
}.
(** src/views/list_view.rs:87-103 *)
Definition column_new {T} (title : str) (min_width max_width : N) (ex : T -> ListViewCell) : ListViewColumn T :=
  mkColumn title min_width max_width min_width Center ex.
(** src/views/list_view.rs:104-107 *)
Definition with_align {T} (c : ListViewColumn T) (a : Alignment) : ListViewColumn T :=
  mkColumn (lc_title c) (lc_min c) (lc_max c) (lc_width c) a (extract c).
Definition set_width {T} (c : ListViewColumn T) (w : N) : ListViewColumn T :=
  mkColumn (lc_title c) (lc_min c) (lc_max c) w (lc_align c) (extract c).
Definition lc_spacing {T} (c : ListViewColumn T) : Spacing := mkSpacing (N.to_nat (lc_width c)) (lc_align c).

(** src/views/list_view.rs:51-54 *)
Record Row (T : Type) := mkRow { data : T; displayed : bool }.

(** src/views/list_view.rs:65-77; a [Title] is the list of the indexes of its columns *)
Record ListView (T : Type) := mkLV {
  titles : list (list nat);
  columns : list (ListViewColumn T);
  rows : list (Row T);
  lv_area : Area;
  lv_scroll : nat;
  lv_skin : MadSkin;
  filter : option (T -> bool);
  displayed_rows_count : nat;
  row_order : option (T -> T -> comparison);
  selection : option nat;
  selection_background : Color
}.

Definition c_vbar : char := 9474%N. (* '│' *)
Definition c_tee : char := 9516%N. (* '┬' *)
Definition c_cross : char := 9532%N. (* '┼' *)
Definition c_hbar : char := 9472%N. (* '─' *)

Fixpoint str_eqb (a b : str) : bool :=
  match a, b with
  | [], [] => true
  | x :: a, y :: b => N.eqb x y && str_eqb a b
  | _, _ => false
  end.

(** src/views/list_view.rs:117-130. [rev_titles] are the titles already made, the last one first *)
Fixpoint make_titles {T} (all : list (ListViewColumn T)) (cols : list (ListViewColumn T)) (i : nat) (rev_titles : list (list nat))
    : outcome (list (list nat)) :=
  match cols with
  | [] => Ret (rev rev_titles)
  | c :: r =>
      match rev_titles with
      | last :: before =>
          f <- idx last 0 ;;
          first <- idx all f ;;
          if str_eqb (lc_title first) (lc_title c) then make_titles all r (i + 1) ((last ++ [i]) :: before)
          else make_titles all r (i + 1) ([i] :: rev_titles)
      | [] => make_titles all r (i + 1) ([i] :: rev_titles)
      end
  end.

(** src/views/list_view.rs:116-144 *)
Definition lv_new {T} (area : Area) (cols : list (ListViewColumn T)) (k : MadSkin) : outcome (ListView T) :=
  ts <- make_titles cols cols 0 [] ;;
  Ret (mkLV ts cols [] area 0 k None 0 None None (gray 5)).

(** The fields which are changed, the others being kept *)
Definition with_rows {T} (v : ListView T) r count := 
  mkLV (titles v) (columns v) r (lv_area v) (lv_scroll v) (lv_skin v) (filter v) count (row_order v) (selection v) (selection_background v).
Definition with_scroll {T} (v : ListView T) s := 
  mkLV (titles v) (columns v) (rows v) (lv_area v) s (lv_skin v) (filter v) (displayed_rows_count v) (row_order v) (selection v) (selection_background v).
Definition with_selection {T} (v : ListView T) s := 
  mkLV (titles v) (columns v) (rows v) (lv_area v) (lv_scroll v) (lv_skin v) (filter v) (displayed_rows_count v) (row_order v) s (selection_background v).
Definition with_filter {T} (v : ListView T) f := 
  mkLV (titles v) (columns v) (rows v) (lv_area v) (lv_scroll v) (lv_skin v) f (displayed_rows_count v) (row_order v) (selection v) (selection_background v).
Definition with_columns {T} (v : ListView T) c := 
  mkLV (titles v) c (rows v) (lv_area v) (lv_scroll v) (lv_skin v) (filter v) (displayed_rows_count v) (row_order v) (selection v) (selection_background v).
(** the area is a public field *)
Definition with_area {T} (v : ListView T) a := 
  mkLV (titles v) (columns v) (rows v) a (lv_scroll v) (lv_skin v) (filter v) (displayed_rows_count v) (row_order v) (selection v) (selection_background v).

(** src/views/list_view.rs:147-149 *)
Definition lv_sort {T} (v : ListView T) (order : T -> T -> comparison) : ListView T :=
  mkLV (titles v) (columns v) (rows v) (lv_area v) (lv_scroll v) (lv_skin v) (filter v) (displayed_rows_count v) (Some order) (selection v) (selection_background v).
(** src/views/list_view.rs:152-158 *)
Definition tbody_height16 {T} (v : ListView T) : N :=
  if (2 <? a_height (lv_area v))%N then (a_height (lv_area v) - 2)%N else a_height (lv_area v).
Definition tbody_height {T} (v : ListView T) : nat := N.to_nat (tbody_height16 v).
(** src/views/list_view.rs:164-171 *)
Definition lv_scrollbar {T} (v : ListView T) : outcome (option (N * N)) :=
  compute_scrollbar U16 (N.of_nat (lv_scroll v) mod U16) (N.of_nat (displayed_rows_count v) mod U16) (tbody_height16 v) (a_top (lv_area v)).

(** src/views/list_view.rs:347-349 *)
Definition do_scroll_show_bottom {T} (v : ListView T) : bool := displayed_rows_count v <=? lv_scroll v + tbody_height v.
(** src/views/list_view.rs:351-358 *)
Definition scroll_to_bottom {T} (v : ListView T) : ListView T :=
  with_scroll v (if tbody_height v <? displayed_rows_count v then displayed_rows_count v - tbody_height v else 0).

(** [sort_by] is a stable sort: an insertion sort stands for it. (With a function which isn't a total order, the standard library doesn't
    tell what is done.) *)
Fixpoint sort_insert {A} (cmp : A -> A -> comparison) (a : A) (l : list A) : list A :=
  match l with
  | [] => [a]
  | b :: r => match cmp a b with Gt => b :: sort_insert cmp a r | _ => a :: b :: r end
  end.
Definition sort_by {A} (cmp : A -> A -> comparison) (l : list A) : list A := fold_right (sort_insert cmp) [] l.

(** src/views/list_view.rs:172-188 *)
Definition add_row {T} (v : ListView T) (d : T) : ListView T :=
  let stick_to_bottom := match row_order v with None => true | Some _ => false end && do_scroll_show_bottom v in
  let shown := match filter v with Some f => f d | None => true end in
  let v := if shown then with_rows v (rows v) (displayed_rows_count v + 1) else v in
  let v := if stick_to_bottom then scroll_to_bottom v else v in
  let v := with_rows v (rows v ++ [mkRow d shown]) (displayed_rows_count v) in
  match row_order v with
  | Some order => with_rows v (sort_by (fun a b => order (data a) (data b)) (rows v)) (displayed_rows_count v)
  | None => v
  end.
(** src/views/list_view.rs:192-197 *)
Definition clear_rows {T} (v : ListView T) : ListView T := with_selection (with_scroll (with_rows v [] 0) 0) None.
(** src/views/list_view.rs:199-201 *)
Definition row_counts {T} (v : ListView T) : nat * nat := (displayed_rows_count v, length (rows v)).

(** [as i32] from usize; i32 operations are checked *)
Definition as_i32 (n : N) : Z :=
  let m := (Z.of_N n mod 4294967296)%Z in if (m <? 2147483648)%Z then m else (m - 4294967296)%Z.
Definition i32 (z : Z) : outcome Z := if ((-2147483648 <=? z) && (z <? 2147483648))%Z then Ret z else Panic.
Definition U64 : N := 18446744073709551616.
(** [as usize] from i32, usize having 64 bits *)
Definition as_usize (z : Z) : N := Z.to_N (z mod Z.of_N U64).
Fixpoint sum_i32 (l : list Z) (acc : Z) : outcome Z :=
  match l with [] => Ret acc | z :: r => a <- i32 (acc + z) ;; sum_i32 r a end.
(** the loop of src/views/list_view.rs:214-220 *)
Fixpoint widen {T} (cols : list (ListViewColumn T)) (excess : Z) : outcome (list (ListViewColumn T)) :=
  match cols with
  | [] => Ret []
  | c :: r =>
      room <- subN (lc_max c) (lc_min c) ;;
      let d := Z.min (as_i32 room) excess in
      e <- i32 (excess - d) ;;
      w <- (if (lc_min c + as_usize d <? U64)%N then Ret (lc_min c + as_usize d)%N else Panic) ;;
      rest <- widen r e ;;
      Ret (set_width c w :: rest)
  end.
(** src/views/list_view.rs:204-224; the number of columns is supposed to fit in an i32 *)
Definition update_dimensions {T} (v : ListView T) : outcome (ListView T) :=
  let available := (Z.of_N (a_width (lv_area v)) - (Z.of_nat (length (columns v)) - 1) - 1)%Z in
  sum_min <- sum_i32 (map (fun c => as_i32 (lc_min c)) (columns v)) 0 ;;
  if (available <=? sum_min)%Z then Ret (with_columns v (map (fun c => set_width c (lc_min c)) (columns v)))
  else
    excess <- i32 (available - sum_min) ;;
    cols <- widen (columns v) excess ;;
    Ret (with_columns v cols).

(** src/views/list_view.rs:225-236 *)
Definition set_filter {T} (v : ListView T) (f : T -> bool) : ListView T :=
  let rs := map (fun r => mkRow (data r) (f (data r))) (rows v) in
  with_filter (with_scroll (with_rows v rs (length (List.filter (@displayed T) rs))) 0) (Some f).
(** src/views/list_view.rs:237-243 *)
Definition remove_filter {T} (v : ListView T) : ListView T :=
  with_filter (with_rows v (map (fun r => mkRow (data r) true) (rows v)) (length (rows v))) None.

(** src/views/list_view.rs:431-443 *)
Definition make_selection_visible {T} (v : ListView T) : outcome (ListView T) :=
  if displayed_rows_count v <=? tbody_height v then Ret v else
  match selection v with
  | None => Ret v
  | Some sel =>
      if sel <=? lv_scroll v then Ret (with_scroll v (if 2 <? sel then sel - 2 else 0))
      else if lv_scroll v + tbody_height v <=? sel + 1 then
        s <- csub sel (tbody_height v) ;;
        Ret (with_scroll v (s + 2))
      else Ret v
  end.
(** src/views/list_view.rs:361-374; [n] is an i32, and so is its opposite *)
Definition lv_try_scroll_lines {T} (v : ListView T) (n : Z) : outcome (ListView T) :=
  v' <- (if (n <? 0)%Z then
           m <- i32 (- n) ;;
           let lines := Z.to_nat m in
           Ret (with_scroll v (if lv_scroll v <=? lines then 0 else lv_scroll v - lines))
         else
           m <- csub (displayed_rows_count v) (tbody_height v) ;;
           Ret (with_scroll v (Nat.min (lv_scroll v + Z.to_nat n) (m + 1)))) ;;
  make_selection_visible v'.
(** src/views/list_view.rs:377-379 *)
Definition lv_try_scroll_pages {T} (v : ListView T) (n : Z) : outcome (ListView T) :=
  lines <- i32 (n * Z.of_N (tbody_height16 v)) ;;
  lv_try_scroll_lines v lines.

(** The first index of [candidates] whose row is displayed, if any *)
Fixpoint first_displayed {T} (rs : list (Row T)) (candidates : list nat) : outcome (option nat) :=
  match candidates with
  | [] => Ret None
  | i :: r => row <- idx rs i ;; if displayed row then Ret (Some i) else first_displayed rs r
  end.
(** src/views/list_view.rs:381-404; the second loop is run when the first one isn't or doesn't find a row, and then panics if there's no selection *)
Definition try_select_next {T} (v : ListView T) (up : bool) : outcome (ListView T) :=
  let len := length (rows v) in
  if displayed_rows_count v =? 0 then Ret v else
  found <- (if (displayed_rows_count v =? 1) || match selection v with None => true | _ => false end
            then first_displayed (rows v) (map (fun i => (i + lv_scroll v) mod len) (seq 0 len))
            else Ret None) ;;
  match found with
  | Some i => make_selection_visible (with_selection v (Some i))
  | None =>
      if len =? 0 then Ret v else
      match selection v with
      | None => Panic
      | Some sel =>
          found <- first_displayed (rows v) (map (fun i => ((if up then len - 1 - i else i + 1) + sel) mod len) (seq 0 len)) ;;
          match found with
          | Some i => make_selection_visible (with_selection v (Some i))
          | None => Ret v
          end
      end
  end.
(** src/views/list_view.rs:406-415 *)
Definition select_first_line {T} (v : ListView T) : outcome (ListView T) :=
  found <- first_displayed (rows v) (seq 0 (length (rows v))) ;;
  match found with
  | Some i => make_selection_visible (with_selection v (Some i))
  | None => Ret (with_selection v None)
  end.
(** src/views/list_view.rs:417-426 *)
Definition select_last_line {T} (v : ListView T) : outcome (ListView T) :=
  found <- first_displayed (rows v) (rev (seq 0 (length (rows v)))) ;;
  match found with
  | Some i => make_selection_visible (with_selection v (Some i))
  | None => Ret (with_selection v None)
  end.
(** src/views/list_view.rs:444-446 *)
Definition get_selection {T} (v : ListView T) : outcome (option T) :=
  match selection v with
  | Some sel => r <- idx (rows v) sel ;; Ret (Some (data r))
  | None => Ret None
  end.
(** src/views/list_view.rs:447-449 *)
Definition has_selection {T} (v : ListView T) : bool := match selection v with Some _ => true | None => false end.
(** src/views/list_view.rs:450-452 *)
Definition unselect {T} (v : ListView T) : ListView T := with_selection v None.

(** ** Drawing *)

Fixpoint map_out {A B} (f : A -> outcome B) (l : list A) : outcome (list B) :=
  match l with [] => Ret [] | a :: r => b <- f a ;; rest <- map_out f r ;; Ret (b :: rest) end.
(** the pieces, with [sep] between them *)
Fixpoint join {A} (sep : list A) (l : list (list A)) : list A :=
  match l with
  | [] => []
  | x :: r => x ++ match r with [] => [] | _ => sep ++ join sep r end
  end.

(** src/views/list_view.rs:256-276 *)
Definition title_cmds {T} (v : ListView T) (t : list nat) : outcome (list cmd) :=
  cols <- map_out (idx (columns v)) t ;;
  width <- csub (sum (map (fun c => N.to_nat (lc_width c)) cols) + length t) 1 ;;
  f <- idx t 0 ;;
  first <- idx (columns v) f ;;
  h <- idx (headers (lv_skin v)) 0 ;;
  Ret (write_str (mkSpacing width Center) (lc_title first) (ls_cs h)).
Definition title_line {T} (v : ListView T) : outcome (list cmd) :=
  ts <- map_out (title_cmds v) (titles v) ;;
  Ret (join (sc_queue (sc_new (ls_cs (table (lv_skin v))) c_vbar)) ts).
(** src/views/list_view.rs:279-291 *)
Definition separator_cmds {T} (v : ListView T) (t : list nat) : outcome (list cmd) :=
  let style := ls_cs (table (lv_skin v)) in
  cols <- map_out (idx (columns v)) t ;;
  Ret (join (sc_queue (sc_new style c_tee)) (map (fun c => concat (repeat (sc_queue (sc_new style c_hbar)) (N.to_nat (lc_width c)))) cols)).
Definition separator_line {T} (v : ListView T) : outcome (list cmd) :=
  ts <- map_out (separator_cmds v) (titles v) ;;
  Ret (join (sc_queue (sc_new (ls_cs (table (lv_skin v))) c_cross)) ts).
(** src/views/list_view.rs:303-321: the cells of the row [d] *)
Definition row_cmds {T} (v : ListView T) (selected : bool) (d : T) : list cmd :=
  join ((if selected then [SetBg (selection_background v)] else []) ++ sc_queue (sc_new (ls_cs (table (lv_skin v))) c_vbar))
    (map (fun c => let cell := extract c d in
                   write_counted_str (lc_spacing c) (con cell) (cell_width cell)
                     (if selected then cs_set_bg (cell_style cell) (selection_background v) else cell_style cell)) (columns v)).
(** src/views/list_view.rs:297-326: the next displayed row from [i], with the index which follows it; panics if [i] is out of the rows.
    [rs] are the rows from [i]. *)
Fixpoint next_row {T} (v : ListView T) (rs : list (Row T)) (i : nat) : list cmd * nat :=
  match rs with
  | [] => ([ClearUntilNewLine], i)
  | r :: rest =>
      if displayed r then (row_cmds v (match selection v with Some s => s =? i | None => false end) (data r), i + 1)
      else next_row v rest (i + 1)
  end.
Definition next_row_at {T} (v : ListView T) (i : nat) : outcome (list cmd * nat) :=
  if i <=? length (rows v) then Ret (next_row v (skipn i (rows v)) i) else Panic.
(** src/views/list_view.rs:292-336 *)
Fixpoint row_lines {T} (v : ListView T) (sx : N) (sb : option (N * N)) (y : N) (n : nat) (i : nat) : outcome (list cmd) :=
  match n with
  | O => Ret []
  | S n =>
      ay <- add16 (a_top (lv_area v)) y ;;
      '(row, i) <- next_row_at v i ;;
      let bar := match sb with
                 | Some (sctop, scbottom) =>
                     MoveTo sx ay :: (if ((sctop <=? y - 2) && (y - 2 <=? scbottom))%N then sc_queue (thumb (scrollbar (lv_skin v)))
                                      else sc_queue (track (scrollbar (lv_skin v))))
                 | None => []
                 end in
      others <- row_lines v sx sb (y + 1) n i ;;
      Ret (MoveTo (a_left (lv_area v)) ay :: row ++ bar ++ others)
  end.
(** src/views/list_view.rs:245-338 *)
Definition lv_write_on {T} (v : ListView T) : outcome (list cmd) :=
  let a := lv_area v in
  sx <- add16 (a_left a) (a_width a) ;;
  l1 <- title_line v ;;
  y1 <- add16 (a_top a) 1 ;;
  l2 <- separator_line v ;;
  sb <- lv_scrollbar v ;;
  l3 <- row_lines v sx sb 2 (N.to_nat (a_height a) - 2) (lv_scroll v) ;;
  Ret (MoveTo (a_left a) (a_top a) :: l1 ++ MoveTo (a_left a) y1 :: l2 ++ l3).

(** ** Histories *)

Inductive lv_op (T : Type) :=
| LvAdd (d : T) | LvClear | LvFilter (f : T -> bool) | LvNoFilter | LvSort (o : T -> T -> comparison)
| LvNext (up : bool) | LvFirst | LvLast | LvUnselect
| LvLines (n : Z) | LvPages (n : Z) | LvBottom | LvVisible
| LvArea (a : Area) | LvDimensions.
Arguments LvClear {T}. Arguments LvNoFilter {T}. Arguments LvNext {T}. Arguments LvFirst {T}. Arguments LvLast {T}. Arguments LvUnselect {T}.
Arguments LvLines {T}. Arguments LvPages {T}. Arguments LvBottom {T}. Arguments LvVisible {T}. Arguments LvArea {T}. Arguments LvDimensions {T}.
Definition lv_apply {T} (v : ListView T) (o : lv_op T) : outcome (ListView T) :=
  match o with
  | LvAdd d => Ret (add_row v d)
  | LvClear => Ret (clear_rows v)
  | LvFilter f => Ret (set_filter v f)
  | LvNoFilter => Ret (remove_filter v)
  | LvSort o => Ret (lv_sort v o)
  | LvNext up => try_select_next v up
  | LvFirst => select_first_line v
  | LvLast => select_last_line v
  | LvUnselect => Ret (unselect v)
  | LvLines n => lv_try_scroll_lines v n
  | LvPages n => lv_try_scroll_pages v n
  | LvBottom => Ret (scroll_to_bottom v)
  | LvVisible => make_selection_visible v
  | LvArea a => Ret (with_area v a)
  | LvDimensions => update_dimensions v
  end.
Fixpoint lv_run {T} (v : ListView T) (ops : list (lv_op T)) : outcome (ListView T) :=
  match ops with [] => Ret v | o :: r => v' <- lv_apply v o ;; lv_run v' r end.
