(** * Properties C01 to C11: the content of an input field

    Statements use the vocabulary of [S_Content]. Contents are quantified by [valid],
    which [C01_histories_are_safe] proves of every content reached by a history of operations. *)
From Verif Require Import Base Demo M_Content S_Content L_Content L_Content2 L_Content3 L_Content4.

(** ** C01 *)

(** From an empty content, whatever the operations and their arguments, no call panics (nor loops)
    and the content stays well formed; [set_selection_tail] is excluded, see below. *)
Theorem C01_histories_are_safe_partial : forall u ops,
  (forall p, ~ In (OpSetTail p) ops) ->
  exists c, crun u ops content_default = Ret c /\ valid c.
Proof. intros u ops H. exact (crun_valid u ops H valid_default). Qed.
Print Assumptions C01_histories_are_safe_partial.

(** One step, from any well formed content *)
Theorem C01_each_operation_is_safe_partial : forall u o c,
  (forall p, o <> OpSetTail p) -> valid c -> exists c' b, capply u o c = Ret (c', b) /\ valid c'.
Proof. exact capply_valid. Qed.
Print Assumptions C01_each_operation_is_safe_partial.

Definition c01_ops : list cop :=
  [OpInsertStr [97;98;10;99;100;10;101]%N; OpLinesUp 1; OpMakeSelection; OpRight; OpRight; OpDelSelection;
   OpLineUp; OpDelWordLeft; OpSelectWord; OpDelBelow; OpSetStr [120;10;10;121]%N; OpDelLeft; OpSwapLines 0 1].
Example C01_example :
  (forall p, ~ In (OpSetTail p) c01_ops) /\
  crun demo c01_ops content_default = Ret (mkContent (mkPos 2 0) None [[]; [120%N]; []]).
Proof. split; [intros p H; repeat (destruct H as [H|H]; [discriminate|]); exact H | vm_compute; reflexivity]. Qed.

(** The full property is false: [set_selection_tail] checks the tail against the line of the cursor,
    not against the line of the tail, and deleting the selection later panics. *)
Theorem C01_histories_are_safe_refuted : exists u ops, crun u ops content_default = Panic.
Proof.
  exists demo, [OpInsertStr [10;97;98;99;100;101;102]%N; OpSetTail (mkPos 0 5); OpLinesUp 1; OpDelSelection].
  vm_compute. reflexivity.
Qed.
Print Assumptions C01_histories_are_safe_refuted.

(** ** C02 *)

Theorem C02_from_string : forall s, exists c,
  content_from s = Ret c /\ valid c /\ to_string c = typed s /\ cursor c = length (typed s).
Proof.
  intros s. destruct (content_from_spec s) as (c & A & B & C & D). exists c. rewrite to_string_spec. auto.
Qed.
Print Assumptions C02_from_string.

Theorem C02_iteration_is_display : forall c, valid c -> content_chars c = Ret (to_string c).
Proof. intros c V. rewrite to_string_spec. exact (content_chars_spec V). Qed.
Print Assumptions C02_iteration_is_display.

Theorem C02_is_str : forall c s, valid c ->
  exists b, is_str c s = Ret b /\ (b = true <-> to_string c = s).
Proof.
  intros c s V. rewrite to_string_spec, (is_str_spec s V). eexists. split; [reflexivity|].
  destruct (list_eq_dec N.eq_dec (text c) s); split; congruence.
Qed.
Print Assumptions C02_is_str.

Theorem C02_set_str : forall c s, valid c ->
  exists c', set_str c s = Ret c' /\ valid c'
  /\ (to_string c = s -> c' = c)
  /\ (to_string c <> s -> to_string c' = typed s /\ cursor c' = length (typed s) /\ ctail c' = None).
Proof.
  intros c s V. destruct (set_str_spec s V) as (c' & A & B & C & D). exists c'. rewrite !to_string_spec.
  split; [assumption|]. split; [assumption|]. split; [assumption|]. intros N. destruct (D N) as (E & F & G).
  rewrite <- E. auto.
Qed.
Print Assumptions C02_set_str.

Theorem C02_is_empty : forall c, valid c ->
  exists b, is_empty c = Ret b /\ (b = true <-> to_string c = []).
Proof.
  intros c V. rewrite to_string_spec, (is_empty_spec V). eexists. split; [reflexivity|].
  destruct (text c); split; congruence.
Qed.
Print Assumptions C02_is_empty.

(** Adding a char at the end, cursor and selection being kept *)
Theorem C02_push_char : forall c ch, valid c -> exists c', push_char c ch = Ret c' /\ valid c'
  /\ to_string c' = to_string c ++ typed [ch] /\ cpos c' = cpos c /\ ctail c' = ctail c.
Proof. intros c ch V. rewrite to_string_spec. destruct (push_char_spec ch V) as (c' & H). exists c'. rewrite to_string_spec. exact H. Qed.
Print Assumptions C02_push_char.

Example C02_example : content_from [97;13;10;8;98]%N = Ret (mkContent (mkPos 1 1) None [[97%N]; [98%N]])
  /\ to_string (mkContent (mkPos 1 1) None [[97%N]; [98%N]]) = [97;10;98]%N.
Proof. split; vm_compute; reflexivity. Qed.

(** ** C03 *)

Theorem C03_insert_char : forall c ch, valid c ->
  exists c', insert_char c ch = Ret c' /\ valid c' /\ inserted c c' (typed [ch])
             /\ (ch <> c_nl -> ctail c' = ctail c).
Proof. intros c ch V. exact (insert_char_spec ch V). Qed.
Print Assumptions C03_insert_char.

Theorem C03_insert_new_line : forall c, valid c ->
  exists c', insert_new_line c = Ret c' /\ valid c' /\ inserted c c' [c_nl].
Proof. exact insert_new_line_spec. Qed.
Print Assumptions C03_insert_new_line.

Theorem C03_insert_str : forall s c, valid c ->
  exists c', insert_str c s = Ret c' /\ valid c' /\ inserted c c' (typed s).
Proof. exact insert_str_spec. Qed.
Print Assumptions C03_insert_str.

Definition c_ex : content := mkContent (mkPos 1 1) (Some (mkPos 0 1)) [[97;98]; [99;100]; []]%N.
Example C03_example : valid c_ex /\ text c_ex = [97;98;10;99;100;10]%N /\ cursor c_ex = 4.
Proof. split; [apply validb_ok; reflexivity|]. split; reflexivity. Qed.

(** ** C04 *)

Theorem C04_delete_left : forall c, valid c ->
  (cursor c = 0 -> del_char_left c = Ret (c, false)) /\
  (0 < cursor c -> exists c', del_char_left c = Ret (c', true) /\ valid c' /\ tail_kept c c'
     /\ removed c c' (cursor c - 1) (cursor c) /\ cursor c' = cursor c - 1).
Proof. exact del_char_left_spec. Qed.
Print Assumptions C04_delete_left.

(** At the end of the text, nothing must be removed: false when the last of several lines is empty *)
Theorem C04_delete_below_partial : forall c, valid c ->
  (cursor c < length (text c) ->
     exists c', del_char_below c = Ret (c', true) /\ valid c' /\ tail_kept c c'
     /\ removed c c' (cursor c) (S (cursor c)) /\ cpos c' = cpos c /\ cursor c' = cursor c) /\
  (cursor c = length (text c) -> ~ last_line_empty c -> del_char_below c = Ret (c, false)) /\
  (cursor c = length (text c) -> last_line_empty c ->
     exists c', del_char_below c = Ret (c', true) /\ valid c' /\ tail_kept c c'
     /\ text c = text c' ++ [c_nl] /\ cursor c' = length (text c')).
Proof. exact del_char_below_spec. Qed.
Print Assumptions C04_delete_below_partial.

(** On an empty last line there is nothing at the cursor, but [del_char_below] removes the line break before it *)
Theorem C04_delete_below_refuted : exists c c',
  valid c /\ cursor c = length (text c) /\ del_char_below c = Ret (c', true) /\ text c' <> text c.
Proof.
  exists (mkContent (mkPos 1 0) None [[97%N]; []]), (mkContent (mkPos 0 1) None [[97%N]]).
  split; [apply validb_ok; reflexivity|]. split; [reflexivity|]. split; [vm_compute; reflexivity|discriminate].
Qed.
Print Assumptions C04_delete_below_refuted.

Theorem C04_type_then_delete : forall c ch c1, valid c -> ch <> c_cr -> ch <> c_bs -> insert_char c ch = Ret c1 ->
  exists c2, del_char_left c1 = Ret (c2, true) /\ text c2 = text c /\ cursor c2 = cursor c.
Proof. exact type_then_delete. Qed.
Print Assumptions C04_type_then_delete.

Example C04_example : valid c_ex /\ 0 < cursor c_ex < length (text c_ex).
Proof. split; [apply validb_ok; reflexivity|]. vm_compute. lia. Qed.

(** ** C05 *)

Theorem C05_move_right : forall c, valid c ->
  (cursor c < length (text c) -> exists c', move_right c = Ret (c', true) /\ valid c'
      /\ same_text c c' /\ cursor c' = S (cursor c)) /\
  (cursor c = length (text c) -> move_right c = Ret (c, false)).
Proof. exact move_right_spec. Qed.
Print Assumptions C05_move_right.

Theorem C05_move_left : forall c, valid c ->
  (0 < cursor c -> exists c', move_left c = Ret (c', true) /\ valid c'
      /\ same_text c c' /\ S (cursor c') = cursor c) /\
  (cursor c = 0 -> move_left c = Ret (c, false)).
Proof. exact move_left_spec. Qed.
Print Assumptions C05_move_left.

Theorem C05_can_move : forall c, valid c ->
  can_move_right c = Ret (cursor c <? length (text c)) /\ can_move_left c = (0 <? cursor c).
Proof. intros c V. exact (conj (can_move_right_spec V) (can_move_left_spec V)). Qed.
Print Assumptions C05_can_move.

Theorem C05_left_undoes_right : forall c c1, valid c -> move_right c = Ret (c1, true) -> move_left c1 = Ret (c, true).
Proof. exact move_left_right. Qed.
Print Assumptions C05_left_undoes_right.

Theorem C05_right_undoes_left : forall c c1, valid c -> move_left c = Ret (c1, true) -> move_right c1 = Ret (c, true).
Proof. exact move_right_left. Qed.
Print Assumptions C05_right_undoes_left.

Theorem C05_to_end : forall c, valid c ->
  exists c' b, move_to_end c = Ret (c', b) /\ valid c' /\ same_text c c'
  /\ cursor c' = length (text c) /\ (b = false <-> cursor c = length (text c)).
Proof. exact move_to_end_spec. Qed.
Print Assumptions C05_to_end.

Theorem C05_to_start : forall c, valid c ->
  exists c' b, move_to_start c = (c', b) /\ valid c' /\ same_text c c'
  /\ cursor c' = 0 /\ (b = false <-> cursor c = 0).
Proof. exact move_to_start_spec. Qed.
Print Assumptions C05_to_start.

Theorem C05_to_line_end : forall c, valid c ->
  exists c' b l, move_to_line_end c = Ret (c', b) /\ valid c' /\ same_text c c'
  /\ nth_error (clines c) (py (cpos c)) = Some l
  /\ cpos c' = mkPos (py (cpos c)) (length l) /\ (b = false <-> px (cpos c) = length l).
Proof. exact move_to_line_end_spec. Qed.
Print Assumptions C05_to_line_end.

Theorem C05_to_line_start : forall c, valid c ->
  exists c' b, move_to_line_start c = (c', b) /\ valid c' /\ same_text c c'
  /\ cpos c' = mkPos (py (cpos c)) 0 /\ (b = false <-> px (cpos c) = 0).
Proof. exact move_to_line_start_spec. Qed.
Print Assumptions C05_to_line_start.

(** Setting the cursor: the exact position if it exists, else the end of the text or of the line *)
Theorem C05_set_cursor : forall c p, valid c ->
  exists c', set_cursor_pos c p = Ret c' /\ valid c' /\ same_text c c'
  /\ (valid_pos (clines c) p -> cpos c' = p)
  /\ (length (clines c) <= py p -> cursor c' = length (text c))
  /\ (forall l, nth_error (clines c) (py p) = Some l -> cpos c' = mkPos (py p) (min (px p) (length l))).
Proof. intros c p V. exact (set_cursor_pos_spec p V). Qed.
Print Assumptions C05_set_cursor.

Example C05_example : move_right (mkContent (mkPos 0 2) None [[97;98]; [99]]%N) = Ret (mkContent (mkPos 1 0) None [[97;98]; [99]]%N, true)
  /\ valid (mkContent (mkPos 0 2) None [[97;98]; [99]]%N).
Proof. split; [vm_compute; reflexivity|apply validb_ok; reflexivity]. Qed.

(** ** C06 *)

Theorem C06_up : forall u c n, valid c ->
  (py (cpos c) = 0 -> move_lines_up u c n = Ret (c, false)) /\
  (0 < py (cpos c) -> exists c', move_lines_up u c n = Ret (c', true) /\ valid c' /\ same_text c c'
     /\ vertical_to u c c' (py (cpos c) - n)).
Proof. intros u c n V. exact (move_lines_up_spec u n V). Qed.
Print Assumptions C06_up.

Theorem C06_down : forall u c n, valid c ->
  (py (cpos c) + 1 = length (clines c) -> move_lines_down u c n = Ret (c, false)) /\
  (py (cpos c) + 1 < length (clines c) -> exists c', move_lines_down u c n = Ret (c', true) /\ valid c' /\ same_text c c'
     /\ vertical_to u c c' (min (py (cpos c) + n) (length (clines c) - 1))).
Proof. intros u c n V. exact (move_lines_down_spec u n V). Qed.
Print Assumptions C06_down.

(** the wide char 概 covers the columns of two narrow ones *)
Example C06_example : let c := mkContent (mkPos 0 1) None [[27010;97]; [98;99;100]]%N in
  valid c /\ move_lines_down demo c 3 = Ret (mkContent (mkPos 1 2) None [[27010;97]; [98;99;100]]%N, true).
Proof. split; [apply validb_ok; reflexivity|vm_compute; reflexivity]. Qed.

(** ** C07 *)

Theorem C07_word_left : forall u c, valid c ->
  (px (cpos c) = 0 -> move_word_left u c = Ret (c, false)) /\
  (0 < px (cpos c) -> exists c' l, move_word_left u c = Ret (c', true) /\ valid c' /\ same_text c c'
     /\ nth_error (clines c) (py (cpos c)) = Some l
     /\ py (cpos c') = py (cpos c) /\ word_left_target u l (px (cpos c)) (px (cpos c'))).
Proof. exact move_word_left_spec. Qed.
Print Assumptions C07_word_left.

Theorem C07_word_right : forall u c l, valid c -> nth_error (clines c) (py (cpos c)) = Some l ->
  (px (cpos c) = length l -> move_word_right u c = Ret (c, false)) /\
  (px (cpos c) < length l -> exists c', move_word_right u c = Ret (c', true) /\ valid c' /\ same_text c c'
     /\ py (cpos c') = py (cpos c) /\ word_right_target u l (px (cpos c)) (px (cpos c'))).
Proof. exact move_word_right_spec. Qed.
Print Assumptions C07_word_right.

Theorem C07_delete_word_left : forall u c, valid c ->
  (px (cpos c) = 0 -> del_word_left u c = Ret (c, false)) /\
  (0 < px (cpos c) -> exists c' l, del_word_left u c = Ret (c', true) /\ valid c' /\ tail_kept c c'
     /\ nth_error (clines c) (py (cpos c)) = Some l
     /\ py (cpos c') = py (cpos c) /\ word_left_target u l (px (cpos c)) (px (cpos c'))
     /\ line_replaced c c' (firstn (px (cpos c')) l ++ skipn (px (cpos c)) l)).
Proof. exact del_word_left_spec. Qed.
Print Assumptions C07_delete_word_left.

Theorem C07_delete_word_right : forall u c l, valid c -> nth_error (clines c) (py (cpos c)) = Some l ->
  (px (cpos c) < length l -> exists c' e, del_word_right u c = Ret (c', true) /\ valid c' /\ tail_kept c c'
     /\ word_del_end u l (px (cpos c)) e
     /\ line_replaced c c' (firstn (px (cpos c)) l ++ skipn e l)
     /\ py (cpos c') = py (cpos c)
     /\ (alnum_at u l (e - 1) -> px (cpos c') = px (cpos c) - 1)
     /\ (~ alnum_at u l (e - 1) -> px (cpos c') = px (cpos c))) /\
  (px (cpos c) = length l -> 0 < length l -> exists c', del_word_right u c = Ret (c', true) /\ valid c'
     /\ same_text c c' /\ cpos c' = mkPos (py (cpos c)) (px (cpos c) - 1)) /\
  (length l = 0 -> del_word_right u c = Ret (c, false)).
Proof. exact del_word_right_spec. Qed.
Print Assumptions C07_delete_word_right.

Example C07_example : let c := mkContent (mkPos 0 6) None [[97;98;32;99;100;101;102]]%N in
  valid c /\ del_word_left demo c = Ret (mkContent (mkPos 0 3) None [[97;98;32;102]]%N, true)
  /\ move_word_left demo c = Ret (mkContent (mkPos 0 3) None [[97;98;32;99;100;101;102]]%N, true).
Proof. split; [apply validb_ok; reflexivity|]. split; vm_compute; reflexivity. Qed.

(** ** C08 *)

Theorem C08_selection_is_ordered : forall c, valid c ->
  valid_pos (clines c) (rmin (selection c)) /\ valid_pos (clines c) (rmax (selection c))
  /\ pos_le (rmin (selection c)) (rmax (selection c))
  /\ match ctail c with
     | None => selection c = mkRange (cpos c) (cpos c)
     | Some t => selection c = mkRange t (cpos c) \/ selection c = mkRange (cpos c) t
     end.
Proof.
  intros c V. destruct (selection_ends V) as (A & B & C). repeat split; try assumption.
  pose proof (selection_is c) as S. destruct (ctail c); tauto.
Qed.
Print Assumptions C08_selection_is_ordered.

(** [pos_le] is the order of the offsets in the text *)
Theorem C08_reading_order : forall c p q, valid_pos (clines c) p -> valid_pos (clines c) q ->
  (pos_le p q <-> offset c p <= offset c q).
Proof. exact pos_le_offset. Qed.
Print Assumptions C08_reading_order.

Theorem C08_contains : forall r x y, pos_le (rmin r) (rmax r) ->
  (range_contains r x y = true <-> pos_le (rmin r) (mkPos y x) /\ pos_le (mkPos y x) (rmax r)).
Proof. exact range_contains_spec. Qed.
Print Assumptions C08_contains.

Theorem C08_selection_string : forall c, valid c ->
  selection_string c = Ret (slice (offset c (rmin (selection c))) (S (offset c (rmax (selection c)))) (to_string c)).
Proof. intros c V. rewrite to_string_spec. exact (selection_string_spec V). Qed.
Print Assumptions C08_selection_string.

(** [set_selection_tail] changes only the tail; a tail below the last line becomes the end of the content; another one keeps its line,
    and its column is limited by the length of the line of the cursor *)
Theorem C08_set_tail : forall c t l, valid c -> nth_error (clines c) (py (cpos c)) = Some l -> exists c' t',
  set_selection_tail c t = Ret c' /\ clines c' = clines c /\ cpos c' = cpos c /\ ctail c' = Some t'
  /\ (length (clines c) <= py t -> exists pre last, clines c = pre ++ [last] /\ t' = mkPos (length pre) (length last))
  /\ (py t < length (clines c) -> py t' = py t /\ px t' <= px t /\ px t' <= length l /\ (px t <= length l -> px t' = px t)
      /\ (length l <= px t -> px t' = length l)).
Proof.
  intros c t l V El. unfold set_selection_tail. destruct (Nat.leb_spec (length (clines c)) (py t)) as [L|L].
  - destruct (valid_end V) as (pre & la & E1 & ->). cbn [bind]. eexists. eexists. split; [reflexivity|]. do 3 (split; [reflexivity|]).
    split; [eauto|lia].
  - unfold idx. rewrite El. cbn [bind]. eexists. eexists. split; [reflexivity|]. do 3 (split; [reflexivity|]). cbn [px py]. split; [lia|]. intros _. repeat split; lia.
Qed.
Print Assumptions C08_set_tail.

Example C08_example : selection c_ex = mkRange (mkPos 0 1) (mkPos 1 1) /\ selection_string c_ex = Ret [98;10;99;100]%N /\ valid c_ex.
Proof. split; [reflexivity|]. split; [vm_compute; reflexivity|apply validb_ok; reflexivity]. Qed.

(** ** C09

    The full property (exactly the selected text is removed) is false of multi-line selections and of an
    in-line selection going to the end of a line which isn't the last one. Proved: it holds in the other
    cases, and in all cases there's no panic, nothing but line feeds is lost out of the selection. *)

Theorem C09_inline_partial : forall c l, valid c ->
  py (rmin (selection c)) = py (rmax (selection c)) -> px (rmin (selection c)) < px (rmax (selection c)) ->
  nth_error (clines c) (py (rmax (selection c))) = Some l ->
  (px (rmax (selection c)) < length l \/ (0 < px (rmin (selection c)) /\ S (py (rmax (selection c))) = length (clines c))) ->
  exists c', del_selection c = Ret (c', true)
  /\ text c' = firstn (offset c (rmin (selection c))) (text c) ++ skipn (S (offset c (rmax (selection c)))) (text c)
  /\ cpos c' = rmin (selection c) /\ cursor c' = offset c (rmin (selection c)).
Proof. exact del_selection_inline. Qed.
Print Assumptions C09_inline_partial.

Theorem C09_whole_lines_partial : forall c l, valid c ->
  rmin (selection c) <> rmax (selection c) ->
  px (rmin (selection c)) = 0 -> nth_error (clines c) (py (rmax (selection c))) = Some l ->
  px (rmax (selection c)) = length l ->
  (S (py (rmax (selection c))) < length (clines c) \/ py (rmin (selection c)) = 0) ->
  exists c', del_selection c = Ret (c', true)
  /\ text c' = firstn (offset c (rmin (selection c))) (text c) ++ skipn (S (offset c (rmax (selection c)))) (text c)
  /\ cpos c' = rmin (selection c) /\ cursor c' = offset c (rmin (selection c)).
Proof. exact del_selection_whole_lines. Qed.
Print Assumptions C09_whole_lines_partial.

Theorem C09_nothing_else_lost_partial : forall c, valid c ->
  exists c' b, del_selection c = Ret (c', b) /\ valid c' /\
  (rmin (selection c) <> rmax (selection c) ->
     b = true /\ ctail c' = None
     /\ outside_kept c c' (offset c (rmin (selection c))) (S (offset c (rmax (selection c))))
     /\ (valid_pos (clines c') (rmin (selection c)) -> cpos c' = rmin (selection c))) /\
  (rmin (selection c) = rmax (selection c) -> del_selection c = del_char_below c).
Proof. exact del_selection_spec. Qed.
Print Assumptions C09_nothing_else_lost_partial.

Theorem C09_wide_selection : forall c, valid c ->
  (has_wide_selection c = true <-> rmin (selection c) <> rmax (selection c)).
Proof. exact has_wide_selection_spec. Qed.
Print Assumptions C09_wide_selection.

(** "abc/def" with the selection from b to e: "a/ef" remains instead of "af" *)
Theorem C09_multiline_refuted : exists c c' s,
  valid c /\ selection_string c = Ret s /\ del_selection c = Ret (c', true)
  /\ length (text c') + length s <> length (text c)
  /\ text c' <> firstn (offset c (rmin (selection c))) (text c) ++ skipn (S (offset c (rmax (selection c)))) (text c).
Proof.
  exists (mkContent (mkPos 1 1) (Some (mkPos 0 1)) [[97;98;99]; [100;101;102]]%N).
  exists (mkContent (mkPos 0 1) None [[97]; [101;102]]%N), [98;99;10;100;101]%N.
  split; [apply validb_ok; reflexivity|]. split; [vm_compute; reflexivity|]. split; [vm_compute; reflexivity|].
  split; [vm_compute; discriminate|vm_compute; discriminate].
Qed.
Print Assumptions C09_multiline_refuted.

(** Cut and paste doesn't restore the text, even on one line: the selected line feed isn't removed *)
Theorem C09_cut_paste_refuted : exists c c' c'' s,
  valid c /\ selection_string c = Ret s /\ del_selection c = Ret (c', true)
  /\ insert_str c' s = Ret c'' /\ text c'' <> text c.
Proof.
  exists (mkContent (mkPos 0 3) (Some (mkPos 0 1)) [[97;98;99]; [100]]%N).
  exists (mkContent (mkPos 0 1) None [[97]; [100]]%N).
  exists (mkContent (mkPos 1 0) None [[97;98;99]; []; [100]]%N), [98;99;10]%N.
  split; [apply validb_ok; reflexivity|]. repeat (split; [vm_compute; reflexivity|]). vm_compute. discriminate.
Qed.
Print Assumptions C09_cut_paste_refuted.

Example C09_example : let c := mkContent (mkPos 0 2) (Some (mkPos 0 1)) [[97;98;99;100]; [101]]%N in
  valid c /\ del_selection c = Ret (mkContent (mkPos 0 1) None [[97;100]; [101]]%N, true).
Proof. split; [apply validb_ok; reflexivity|vm_compute; reflexivity]. Qed.

(** ** C10

    The full property says that the cursor stays on the same char of the moved line: false when the
    neighbour line is shorter than the column of the cursor. *)

Theorem C10_line_up_partial : forall c, valid c ->
  (py (cpos c) = 0 -> move_current_line_up c = Ret (c, false)) /\
  (forall y', py (cpos c) = S y' -> exists c' l0, move_current_line_up c = Ret (c', true) /\ valid c'
     /\ lines_swapped y' (S y') (clines c) (clines c') /\ py (cpos c') = y'
     /\ nth_error (clines c) y' = Some l0 /\ px (cpos c') = min (px (cpos c)) (length l0)
     /\ tail_kept c c').
Proof. exact move_current_line_up_spec. Qed.
Print Assumptions C10_line_up_partial.

Theorem C10_line_down_partial : forall c, valid c ->
  (py (cpos c) + 1 = length (clines c) -> move_current_line_down c = Ret (c, false)) /\
  (py (cpos c) + 1 < length (clines c) -> exists c' l0, move_current_line_down c = Ret (c', true) /\ valid c'
     /\ lines_swapped (py (cpos c)) (py (cpos c) + 1) (clines c) (clines c') /\ py (cpos c') = py (cpos c) + 1
     /\ nth_error (clines c) (py (cpos c) + 1) = Some l0 /\ px (cpos c') = min (px (cpos c)) (length l0)
     /\ tail_kept c c').
Proof. exact move_current_line_down_spec. Qed.
Print Assumptions C10_line_down_partial.

Theorem C10_up_then_down_partial : forall c c1, valid c -> move_current_line_up c = Ret (c1, true) ->
  exists c2, move_current_line_down c1 = Ret (c2, true) /\ clines c2 = clines c /\ py (cpos c2) = py (cpos c)
  /\ (forall l, nth_error (clines c) (py (cpos c) - 1) = Some l -> px (cpos c) <= length l -> cpos c2 = cpos c).
Proof. exact line_up_down. Qed.
Print Assumptions C10_up_then_down_partial.

Theorem C10_swap_lines : forall c a b, valid c ->
  ((a = b \/ length (clines c) <= a \/ length (clines c) <= b) -> swap_lines c a b = Ret (c, false)) /\
  (a <> b -> a < length (clines c) -> b < length (clines c) ->
     exists c', swap_lines c a b = Ret (c', true) /\ valid c' /\ lines_swapped a b (clines c) (clines c')
     /\ py (cpos c') = py (cpos c)
     /\ (exists l, nth_error (clines c') (py (cpos c)) = Some l /\ px (cpos c') = min (px (cpos c)) (length l))
     /\ tail_kept c c').
Proof. intros c a b V. exact (swap_lines_spec a b V). Qed.
Print Assumptions C10_swap_lines.

(** The cursor does not stay on its char when the neighbour line is shorter *)
Theorem C10_cursor_refuted : exists c c',
  valid c /\ move_current_line_up c = Ret (c', true) /\ px (cpos c') <> px (cpos c).
Proof.
  exists (mkContent (mkPos 1 3) None [[97]; [98;99;100]]%N), (mkContent (mkPos 0 1) None [[98;99;100]; [97]]%N).
  split; [apply validb_ok; reflexivity|]. split; [vm_compute; reflexivity|discriminate].
Qed.
Print Assumptions C10_cursor_refuted.

Example C10_example : valid c_ex /\
  move_current_line_up c_ex = Ret (mkContent (mkPos 0 1) (Some (mkPos 0 1)) [[99;100]; [97;98]; []]%N, true).
Proof. split; [apply validb_ok; reflexivity|vm_compute; reflexivity]. Qed.

(** ** C11 *)

Theorem C11_select_word : forall u c l, valid c -> nth_error (clines c) (py (cpos c)) = Some l ->
  (~ word_char_at u l (px (cpos c)) -> select_word_around u c = Ret (c, false)) /\
  (word_char_at u l (px (cpos c)) -> exists c' s, select_word_around u c = Ret (c', true) /\ valid c'
     /\ clines c' = clines c /\ ctail c' = Some (mkPos (py (cpos c)) s) /\ py (cpos c') = py (cpos c)
     /\ s <= px (cpos c) <= px (cpos c')
     /\ (forall i, s <= i <= px (cpos c') -> word_char_at u l i)
     /\ (forall i, s = S i -> ~ word_char_at u l i)
     /\ ~ word_char_at u l (S (px (cpos c')))).
Proof. exact select_word_spec. Qed.
Print Assumptions C11_select_word.

Example C11_example : let c := mkContent (mkPos 0 4) None [[97;32;98;95;99;33]]%N in
  valid c /\ select_word_around demo c = Ret (mkContent (mkPos 0 4) (Some (mkPos 0 2)) [[97;32;98;95;99;33]]%N, true).
Proof. split; [apply validb_ok; reflexivity|vm_compute; reflexivity]. Qed.
