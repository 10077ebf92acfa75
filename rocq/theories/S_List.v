(** * Vocabulary for list views *)
From Verif Require Import Base M_Style M_Fit M_View S_Fit M_Render S_Render M_List.
From Coq Require Export Permutation Sorting.
Set Implicit Arguments.
Open Scope nat_scope.

(** ** What a history tells *)

(** The rows given since the last clear, in order *)
Definition given {T} (ops : list (lv_op T)) : list T :=
  fold_left (fun l o => match o with LvAdd d => l ++ [d] | LvClear => [] | _ => l end) ops [].
(** The current filter *)
Definition current_filter {T} (ops : list (lv_op T)) : T -> bool :=
  fold_left (fun f o => match o with LvFilter f => f | LvNoFilter => fun _ => true | _ => f end) ops (fun _ => true).
(** The current order *)
Definition current_order {T} (ops : list (lv_op T)) : option (T -> T -> comparison) :=
  fold_left (fun f o => match o with LvSort f => Some f | _ => f end) ops None.

Definition is_displayed {T} (v : ListView T) (i : nat) : Prop := exists r, nth_error (rows v) i = Some r /\ displayed r = true.
Definition is_hidden {T} (v : ListView T) (i : nat) : Prop := exists r, nth_error (rows v) i = Some r /\ displayed r = false.
Definition displayed_b {T} (v : ListView T) (i : nat) : bool := match nth_error (rows v) i with Some r => displayed r | None => false end.
(** The counter and the selection are right *)
Definition lv_ok {T} (v : ListView T) : Prop :=
  displayed_rows_count v = length (List.filter (@displayed T) (rows v))
  /\ (forall s, selection v = Some s -> s < length (rows v)).

(** The rows seen: as many displayed rows as there are lines under the title and separator, from the scroll *)
Definition seen_rows {T} (v : ListView T) : list nat :=
  firstn (N.to_nat (a_height (lv_area v)) - 2)
    (List.filter (displayed_b v) (seq (lv_scroll v) (length (rows v) - lv_scroll v))).

(** Only the selection and the scroll may change *)
Definition same_rows {T} (v v' : ListView T) : Prop := exists s sel, v' = with_scroll (with_selection v sel) s.

(** ** Orders *)
Record total_order {A} (cmp : A -> A -> comparison) : Prop := {
  ord_sym : forall a b, cmp b a = CompOpp (cmp a b);
  ord_trans : forall a b c, cmp a b <> Gt -> cmp b c <> Gt -> cmp a c <> Gt
}.
Definition ordered {A} (cmp : A -> A -> comparison) (l : list A) : Prop := StronglySorted (fun a b => cmp a b <> Gt) l.
Definition same_as {A} (cmp : A -> A -> comparison) (a b : A) : bool := match cmp a b with Eq => true | _ => false end.
(** The rows which are the same for the order are in the same sequence in both lists *)
Definition stable {A} (cmp : A -> A -> comparison) (l l' : list A) : Prop :=
  forall a, List.filter (same_as cmp a) l = List.filter (same_as cmp a) l'.

(** ** Columns *)
Definition widths_of {T} (cols : list (ListViewColumn T)) : list nat := map (fun c => N.to_nat (lc_width c)) cols.
(** The position where a column starts, a separator preceding each one but the first *)
Definition col_start (ws : list nat) (i : nat) : nat := sum (map S (firstn i ws)).
(** The number of chars of a line *)
Definition line_len (ws : list nat) : nat := sum ws + (length ws - 1).
Definition sub {A} (l : list A) (from len : nat) : list A := firstn len (skipn from l).
(** The columns from [a] to [b] (excluded) share a title, and can't be extended *)
Definition title_run (ts : list str) (a b : nat) : Prop :=
  a < b <= length ts
  /\ (forall i, a <= i < b -> nth_error ts i = nth_error ts a)
  /\ (0 < a -> nth_error ts (a - 1) <> nth_error ts a)
  /\ (b < length ts -> nth_error ts b <> nth_error ts a).
(** A text put in [w] columns: cut, or aligned with spaces *)
Definition cell_drawn (align : Alignment) (w : nat) (s : str) (cs : CStyle) (d : list (char * CStyle)) : Prop :=
  exists t, d = map (fun c => (c, cs)) t
    /\ (w <= length s -> t = firstn w s)
    /\ (length s < w -> exists lp rp, shared align (length s) w lp rp /\ t = repeat 32%N lp ++ s ++ repeat 32%N rp).
(** Cells are made by [cell_new] *)
Definition cells_ok {T} (v : ListView T) : Prop :=
  forall c d, In c (columns v) -> cell_width (extract c d) = length (con (extract c d)).

(** The background of every char written, [cur] being the one of the terminal before. The current one is set by [SetBg]; a style with a
    background or an attribute gives the terminal its default one back after the text (crossterm, style.rs, [PrintStyledContent]). *)
Fixpoint grounds (cur : option Color) (l : list cmd) : list (option Color) :=
  match l with
  | [] => []
  | Print s :: r => map (fun _ => cur) s ++ grounds cur r
  | Styled cs s :: r =>
      let own := match bg cs with Some b => Some b | None => cur end in
      map (fun _ => own) s ++ grounds (match bg cs with None => if N.eqb (attrs cs) 0 then cur else None | Some _ => None end) r
  | SetBg c :: r => grounds (Some c) r
  | _ :: r => grounds cur r
  end.
