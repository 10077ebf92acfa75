(** * A list shows its picture in exactly its cells (C118) *)
From Verif Require Import Base L_Base Demo M_Style M_Fit M_View S_View L_View S_Fit L_Fit M_Render S_Render L_Render M_List S_List L_List L_List2.
From Verif Require Import S_Pen S_Paint S_Read S_ListRead S_Look S_ListLook S_ListDrawn P_List P_ListRead P_ListLook.
From Verif Require P_Paint P_Pen P_Look.
Set Implicit Arguments.
Open Scope nat_scope.

(** ** Drawings one after another *)
Lemma draws_same u (P Q : nat -> nat -> Prop) out : (forall x y, P x y <-> Q x y) -> draws u P out -> draws u Q out.
Proof. intros H (p & D). exists p. intros t T. destruct (D t T) as (D1 & D2). split; [exact D1|]. intros x y. specialize (H x y). specialize (D2 x y). tauto. Qed.
Lemma draws_nothing u : draws u (fun _ _ => False) [].
Proof. exists (fun _ _ => Nothing Reset). intros t T. split; [exact T|]. intros x y. split; [intros []|reflexivity]. Qed.
Lemma draws_both u (P Q : nat -> nat -> Prop) a b : (forall x y, Q x y \/ ~ Q x y) -> draws u P a -> draws u Q b -> draws u (fun x y => P x y \/ Q x y) (a ++ b).
Proof.
  intros DQ (pa & A) (pb & B). set (t0 := mkTerm (fun _ _ => Nothing Reset) 0 0 pen0). exists (t_cell (term_run u t0 (a ++ b))). intros t T. rewrite !P_Paint.term_run_app.
  destruct (A t T) as (A1 & A2). destruct (A t0 eq_refl) as (A3 & A4). destruct (B _ A1) as (B1 & B2). destruct (B _ A3) as (B3 & B4). split; [exact B1|]. intros x y.
  specialize (A2 x y). specialize (A4 x y). specialize (B2 x y). specialize (B4 x y). destruct (DQ x y) as [q|q].
  - split; [|tauto]. intros _. rewrite (proj1 B2 q), (proj1 B4 q). reflexivity.
  - rewrite (proj2 B2 q), (proj2 B4 q). split; [|tauto]. intros [p|p]; [|contradiction]. rewrite (proj1 A2 p), (proj1 A4 p). reflexivity.
Qed.
Lemma draws_lines u (P : nat -> nat -> nat -> Prop) (f : nat -> list cmd) : (forall j x y, P j x y \/ ~ P j x y) -> forall n s, (forall j, s <= j < s + n -> draws u (P j) (f j)) ->
  draws u (fun x y => exists j, s <= j < s + n /\ P j x y) (flat_map f (seq s n)).
Proof.
  intros DP. assert (Dec : forall n s x y, (exists j, s <= j < s + n /\ P j x y) \/ ~ exists j, s <= j < s + n /\ P j x y).
  { induction n as [|n IH]; intros s x y; [right; intros (j & L & _); lia|]. destruct (DP s x y) as [p|p]; [left; exists s; split; [lia|exact p]|]. destruct (IH (S s) x y) as [(j & L & q)|q].
    - left. exists j. split; [lia|exact q].
    - right. intros (j & L & r). destruct (Nat.eq_dec j s) as [->|N]; [contradiction|]. apply q. exists j. split; [lia|exact r]. }
  induction n as [|n IH]; intros s H; [apply draws_same with (2 := draws_nothing u); intros x y; split; [intros []|intros (j & L & _); lia]|].
  cbn [seq flat_map]. eapply draws_same; [|apply draws_both; [apply (Dec n (S s))|apply H; lia|apply IH; intros j L; apply H; lia]]. intros x y. cbn beta. split.
  - intros [p|(j & L & p)]; [exists s; split; [lia|exact p]|exists j; split; [lia|exact p]].
  - intros (j & L & p). destruct (Nat.eq_dec j s) as [->|N]; [left; exact p|right; exists j; split; [lia|exact p]].
Qed.
(** Chars of one column in a line, and the end of a line which is cleared *)
Lemma draws_inline u X Y out : Forall inline out -> thin u (map fst (drawn out)) -> pen_after pen0 out = pen0 ->
  draws u (fun x y => y = N.to_nat Y /\ N.to_nat X <= x < N.to_nat X + length (drawn out)) (MoveTo X Y :: out).
Proof.
  intros F H P. exists (fun x _ => cell_of (nth (x - N.to_nat X) (inked pen0 out) (None, pen0))). intros t T. split; [rewrite P_Paint.run_pen, T; exact P|].
  change (term_run u t (MoveTo X Y :: out)) with (term_run u (mkTerm (t_cell t) (N.to_nat X) (N.to_nat Y) (t_pen t)) out).
  destruct (@inline_run u out (mkTerm (t_cell t) (N.to_nat X) (N.to_nat Y) (t_pen t)) F H) as (A & _). cbn [t_x t_y t_pen t_cell] in A. intros x y. rewrite A, T.
  destruct (in_line _ _ _ _ _) eqn:E; [apply in_line_iff in E; split; [reflexivity|tauto]|]. split; [|reflexivity]. intros K. apply in_line_iff in K. congruence.
Qed.
Lemma draws_clear u X Y : draws u (fun x y => y = N.to_nat Y /\ N.to_nat X <= x) [MoveTo X Y; ClearUntilNewLine].
Proof.
  exists (fun _ _ => Nothing Reset). intros t T. split; [exact T|]. intros x y. cbn. rewrite T. cbn [p_bg pen0]. destruct (Nat.eqb_spec y (N.to_nat Y)), (Nat.leb_spec (N.to_nat X) x); cbn [andb]; (split; [intros K|intros K]); try reflexivity; exfalso; lia.
Qed.

(** Whatever was on the terminal, a list shows the same picture in its cells and changes no other one *)
Theorem C118_list : forall u T (v : ListView T) sb, well_titled v -> drawable u v -> lv_scroll v <= length (rows v) -> lv_scrollbar v = Ret sb ->
  exists out, lv_write_on v = Ret out /\ draws u (cells_of_list v (has_bar sb)) out.
Proof.
  intros u T v sb Ht (Hh & Hc & (Hn & Hsc & Hl) & H1 & H2 & H3 & Hw) Hs Hsb. set (a := lv_area v) in *.
  destruct (C70_drawn Ht Hh H1 H2 H3 Hs Hsb) as (title & sep & Et & Es & E). eexists. split; [exact E|]. clear E. fold a.
  destruct (C47_title Ht Hh) as (title' & Et' & Lt & _). assert (title' = title) as -> by congruence. destruct (C47_separator Ht) as (sep' & Es' & Ls & _). assert (sep' = sep) as -> by congruence.
  match goal with |- draws u _ (?m :: title ++ ?n :: sep ++ ?r) => change (m :: title ++ n :: sep ++ r) with ((m :: title) ++ (n :: sep) ++ r) end.
  set (n := length (seen_rows v)). set (lines := N.to_nat (a_height a) - 2). set (left := N.to_nat (a_left a)). set (top := N.to_nat (a_top a)). set (w := line_len (widths_of (columns v))) in *.
  set (line := fun j x y => (y = top + 2 + j /\ left <= x /\ (x < left + w \/ n <= j)) \/ (has_bar sb = true /\ y = top + 2 + j /\ x = left + N.to_nat (a_width a))).
  assert (Ln : n <= lines) by (unfold n, lines, seen_rows; rewrite firstn_length; fold a; lia).
  eapply draws_same with (P := fun x y => (y = N.to_nat (a_top a) /\ N.to_nat (a_left a) <= x < N.to_nat (a_left a) + length (drawn title)) \/ ((y = N.to_nat (a_top a + 1) /\ N.to_nat (a_left a) <= x < N.to_nat (a_left a) + length (drawn sep)) \/ exists j, 0 <= j < 0 + lines /\ line j x y)).
  - intros x y. rewrite Lt, Ls. fold w left. unfold cells_of_list. fold a. cbv zeta. fold left top lines w n. replace (N.to_nat (a_top a + 1)) with (top + 1) by (unfold top; lia). fold top. unfold line. split.
    + intros [K|[K|(j & K1 & [(K2 & K3 & K4)|K2])]]; [left; lia|left; lia| |destruct K2 as (K2 & K3); right; right; split; [exact K2|lia]].
      destruct (Nat.lt_ge_cases j n); [left; lia|right; left; lia].
    + intros [(K1 & K2)|[(K1 & K2)|(K1 & K2 & K3)]].
      * destruct (Nat.eq_dec y top); [left; lia|]. destruct (Nat.eq_dec y (top + 1)); [right; left; lia|]. right. right. exists (y - (top + 2)). split; [lia|]. left. split; [lia|]. split; [lia|]. left. lia.
      * right. right. exists (y - (top + 2)). split; [lia|]. left. split; [lia|]. split; [lia|]. right. lia.
      * right. right. exists (y - (top + 2)). split; [lia|]. right. split; [exact K1|]. lia.
  - assert (DL : forall j x y, line j x y \/ ~ line j x y) by (intros j x y; unfold line; destruct (has_bar sb); lia).
    assert (Dx : forall k x y, (exists j, 0 <= j < k /\ line j x y) \/ ~ exists j, 0 <= j < k /\ line j x y).
    { induction k as [|k IH]; intros x y; [right; intros (j & L & _); lia|]. destruct (DL k x y) as [p|p]; [left; exists k; split; [lia|exact p]|]. destruct (IH x y) as [(j & L & q)|q]; [left; exists j; split; [lia|exact q]|].
      right. intros (j & L & r). destruct (Nat.eq_dec j k) as [->|N]; [contradiction|]. apply q. exists j. split; [lia|exact r]. }
    apply draws_both.
    + intros x y. destruct (Dx lines x y) as [p|p]; [left; right; exact p|].
      assert (D : (y = N.to_nat (a_top a + 1) /\ N.to_nat (a_left a) <= x < N.to_nat (a_left a) + length (drawn sep)) \/ ~ (y = N.to_nat (a_top a + 1) /\ N.to_nat (a_left a) <= x < N.to_nat (a_left a) + length (drawn sep))) by lia.
      destruct D as [D|D]; [left; left; exact D|right; tauto].
    + apply draws_inline; [eapply title_inline, Et|eapply title_thin; eauto; intros c Ic; apply Hl, Ic|exact (proj2 (title_faithful _ Et))].
    + apply draws_both; [apply (Dx lines)|apply draws_inline; [eapply separator_inline, Es|eapply separator_thin; eauto|exact (proj2 (separator_faithful _ Es))]|].
      apply draws_lines; [exact DL|]. intros j Lj. match goal with |- draws u _ (?m :: ?c ++ ?b) => change (m :: c ++ b) with ((m :: c) ++ b) end. unfold line. apply draws_both.
      * intros x y. destruct (has_bar sb); lia.
      * destruct (nth_error (seen_rows v) j) as [i|] eqn:Ej.
        -- assert (j < n) by (apply nth_error_Some; congruence). destruct (seen_row _ _ Ej) as (r & Er). rewrite Er. set (sel := match selection v with Some s => s =? i | None => false end).
           destruct (C47_row sel (data r) Hc) as (Lo & _). fold w in Lo. eapply draws_same; [|apply draws_inline; [apply row_inline|apply row_thin; auto; intros c Ic; apply Hl; [exact Ic|eapply nth_error_In, Er]|apply row_pen]].
           intros x y. cbn beta. rewrite Lo. fold left. unfold top. lia.
        -- apply nth_error_None in Ej. fold n in Ej. eapply draws_same; [|apply draws_clear]. intros x y. cbn beta. fold left. unfold top. lia.
      * destruct sb as [(q & b)|]; [|apply draws_same with (2 := draws_nothing u); intros x y; cbn; intuition discriminate].
        set (bb := ((q <=? N.of_nat j) && (N.of_nat j <=? b))%N). assert (Sth : thin u (map fst (drawn (sc_queue (if bb then thumb (scrollbar (lv_skin v)) else track (scrollbar (lv_skin v))))))).
        { inversion Hsc as [|? ? Q1 Q2]; subst. inversion Q2; subst. destruct bb; repeat constructor; assumption. }
        eapply draws_same; [|apply draws_inline; [apply sc_inline|exact Sth|apply sc_pen]]. intros x y. cbn beta. assert (length (drawn (sc_queue (if bb then thumb (scrollbar (lv_skin v)) else track (scrollbar (lv_skin v))))) = 1) as -> by reflexivity.
        cbn [has_bar]. unfold left, top. lia.
Qed.
Print Assumptions C118_list.
(** In particular a list drawn where another one was (as the same list after some operations) hides it when all its cells are covered *)
Theorem C118_again : forall u T (v v' : ListView T) sb sb' tm, well_titled v -> drawable u v -> lv_scroll v <= length (rows v) -> lv_scrollbar v = Ret sb ->
  well_titled v' -> drawable u v' -> lv_scroll v' <= length (rows v') -> lv_scrollbar v' = Ret sb' -> t_pen tm = pen0 ->
  (forall x y, cells_of_list v (has_bar sb) x y -> cells_of_list v' (has_bar sb') x y) ->
  exists out out', lv_write_on v = Ret out /\ lv_write_on v' = Ret out' /\ same_view (term_run u tm (out ++ out')) (term_run u tm out').
Proof.
  intros u T v v' sb sb' tm A1 A2 A3 A4 B1 B2 B3 B4 TP C. destruct (C118_list A1 A2 A3 A4) as (out & E & (p & D)). destruct (C118_list B1 B2 B3 B4) as (out' & E' & (p' & D')). exists out, out'. split; [exact E|]. split; [exact E'|].
  rewrite P_Paint.term_run_app. destruct (D tm TP) as (D1 & D2). destruct (D' tm TP) as (D3 & D4). destruct (D' _ D1) as (D5 & D6). split; [congruence|]. intros x y.
  assert (Dec : cells_of_list v' (has_bar sb') x y \/ ~ cells_of_list v' (has_bar sb') x y) by (unfold cells_of_list; cbv zeta; destruct (has_bar sb'); lia).
  destruct Dec as [I|I]; [rewrite (proj1 (D6 x y) I), (proj1 (D4 x y) I); reflexivity|]. rewrite (proj2 (D6 x y) I), (proj2 (D4 x y) I). apply (proj2 (D2 x y)). intros K. apply I, C, K.
Qed.
(** When the columns are as wide as the area, of at least 2 lines, all the area is covered. When the rows fill it too and there's no scrollbar, only the area is. *)
Theorem C118_area : forall T (v : ListView T) b x y, line_len (widths_of (columns v)) = N.to_nat (a_width (lv_area v)) -> (2 <= a_height (lv_area v))%N ->
  (inside (lv_area v) x y -> cells_of_list v b x y)
  /\ (b = false -> length (seen_rows v) = N.to_nat (a_height (lv_area v)) - 2 -> cells_of_list v b x y <-> inside (lv_area v) x y).
Proof.
  intros T v b x y W H. assert (Ln : length (seen_rows v) <= N.to_nat (a_height (lv_area v)) - 2) by (unfold seen_rows; rewrite firstn_length; lia).
  unfold cells_of_list, inside, S_View.cell_in. cbv zeta. rewrite W. clear W. split; [lia|]. intros -> E. rewrite E. lia.
Qed.
Print Assumptions C118_again.
Print Assumptions C118_area.

(** The cells changed by the list of [C107_example] on a terminal full of x: 11 columns for the title, the separator and the 3 rows, and everything from the left side (here up to 20 columns) on the 2 lines without row *)
Definition changed_in (v : ListView N) (w h : nat) : list (list bool) :=
  match lv_write_on v with
  | Ret out => map (fun y => map (fun x => match t_cell (term_run demo P_Paint.full_term out) x y with Part 120%N _ _ => false | _ => true end) (seq 0 w)) (seq 0 h)
  | _ => []
  end.
Example C118_example : changed_in chosen_lv 20 8 = repeat (false :: repeat true 11 ++ repeat false 8) 5 ++ repeat (false :: repeat true 19) 2 ++ [repeat false 20]
  /\ line_len (widths_of (columns chosen_lv)) = 11 /\ lv_area chosen_lv = mkArea 1 0 12 7.
Proof. split; [vm_compute; reflexivity|]. split; vm_compute; reflexivity. Qed.
Example C118_hypotheses : well_titled chosen_lv /\ drawable demo chosen_lv /\ lv_scroll chosen_lv <= length (rows chosen_lv) /\ lv_scrollbar chosen_lv = Ret None.
Proof. destruct C107_hypotheses as (H1 & H2 & H3 & H4 & _). auto. Qed.
