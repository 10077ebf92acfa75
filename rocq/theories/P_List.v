(** * Properties C43 to C48 and C70: list views *)
From Verif Require Import Base L_Base Demo M_Style M_Fit M_View L_View S_Fit L_Fit M_Render S_Render L_Render M_List S_List L_List L_List2.
Set Implicit Arguments.
Open Scope nat_scope.

(** ** C43 List view counters and selection are always consistent *)

(** After any history, the rows are those given since the last clear, each one is displayed when the current filter accepts it, the counts
    are right, and reading the selection doesn't panic. *)
Theorem C43_consistent : forall T area cols k (v0 v : ListView T) ops,
  lv_new area cols k = Ret v0 -> lv_run v0 ops = Ret v ->
  Permutation (map (@data T) (rows v)) (given ops)
  /\ Forall (fun r => displayed r = current_filter ops (data r)) (rows v)
  /\ row_counts v = (length (List.filter (current_filter ops) (given ops)), length (given ops))
  /\ (exists s, get_selection v = Ret s /\ (has_selection v = true <-> s <> None)).
Proof.
  intros T area cols k v0 v ops H0 E. pose proof (history _ _ _ _ H0 E) as [[Hc Hs] I2 I3 I4 I5]. split; [exact I2|]. split; [exact I5|]. split.
  - unfold row_counts. rewrite Hc. f_equal.
    + rewrite <- (filter_len_perm (current_filter ops) I2). clear - I5. induction (rows v) as [|r rs IH]; [reflexivity|]. inversion I5; subst. cbn.
      rewrite H1. destruct (current_filter ops (data r)); cbn; rewrite IH; auto.
    + rewrite <- (Permutation_length I2), map_length. reflexivity.
  - unfold get_selection, has_selection. destruct (selection v) as [s|] eqn:Es.
    + destruct (@idx_lt _ (rows v) s (Hs s eq_refl)) as (r & Er). rewrite Er, bind_ret. eexists. split; [reflexivity|]. split; [discriminate|reflexivity].
    + eexists. split; [reflexivity|]. split; [discriminate|congruence].
Qed.
Print Assumptions C43_consistent.
(** Without an order, the rows are in the order in which they were given *)
Theorem C43_in_order : forall T area cols k (v0 v : ListView T) ops,
  lv_new area cols k = Ret v0 -> lv_run v0 ops = Ret v -> current_order ops = None -> map (@data T) (rows v) = given ops.
Proof.
  intros T area cols k v0 v ops H0. revert v. induction ops as [|o ops IH] using rev_ind; intros v E Ho.
  - cbn in E. injection E as <-. unfold lv_new in H0. apply bind_Ret_inv in H0 as (ts & _ & H0). injection H0 as <-. reflexivity.
  - apply run_snoc in E as (w & Ew & E). rewrite current_order_snoc in Ho.
    assert (Ho' : current_order ops = None) by (destruct o; congruence). specialize (IH w Ew Ho'). rewrite given_snoc.
    assert (Hn : nav o -> map (@data T) (rows v) = given ops) by (intros Hnav; destruct (@nav_same _ _ _ _ Hnav E) as (s & sel & ->); exact IH).
    pose proof (history _ _ _ _ H0 Ew) as [_ _ I3 _ _].
    destruct o; try (apply Hn; exact I); try discriminate; cbn in E; try (injection E as <-; cbn; rewrite ?map_map; first [reflexivity|exact IH]).
    + injection E as <-. destruct (add_row_eq w d) as (s & ->). cbn. rewrite I3, Ho', map_app, IH. reflexivity.
    + unfold update_dimensions in E. apply bind_Ret_inv in E as (s & _ & E). destruct (_ <=? _)%Z; [injection E as <-; exact IH|].
      apply bind_Ret_inv in E as (e & _ & E). apply bind_Ret_inv in E as (c & _ & E). injection E as <-. exact IH.
Qed.
Print Assumptions C43_in_order.

Definition demo_cols : list (ListViewColumn N) :=
  [column_new [65; 66]%N 2 5 (fun n => cell_new [n; n + 1; n + 2]%N cs_default);
   column_new [67]%N 1 3 (fun n => cell_new [n]%N cs_default);
   column_new [67]%N 3 3 (fun n => cell_new [n; 45; n]%N cs_default)].
Definition demo_lv (h : N) : ListView N := match lv_new (mkArea 0 0 20 h) demo_cols skin_default with Ret v => v | _ => mkLV [] [] [] (mkArea 0 0 0 0) 0 skin_default None 0 None None (gray 0) end.
Definition abc (n : nat) : list (lv_op N) := map (fun i => LvAdd (97 + N.of_nat i)%N) (seq 0 n).
Definition report (o : outcome (ListView N)) : option (list (N * bool) * nat * option nat * nat) :=
  match o with Ret v => Some (map (fun r => (data r, displayed r)) (rows v), displayed_rows_count v, selection v, lv_scroll v) | _ => None end.
Example C43_example : report (lv_run (demo_lv 10) (abc 4 ++ [LvFilter N.even; LvNext false; LvAdd 101%N; LvAdd 102%N; LvClear; LvNoFilter; LvAdd 99%N; LvAdd 100%N; LvLast; LvFilter N.even]))
  = Some ([(99, false); (100, true)]%N, 1, Some 1, 0).
Proof. vm_compute. reflexivity. Qed.
(** A filter may leave a hidden row selected *)
Example C43_selection_hidden : exists ops v, lv_run (demo_lv 10) ops = Ret v /\ selection v = Some 0 /\ is_hidden v 0.
Proof. exists (abc 2 ++ [LvFirst; LvFilter N.even]). eexists. split; [vm_compute; reflexivity|]. split; [reflexivity|]. eexists. split; reflexivity. Qed.


(** ** C44 Selecting next or previous walks the displayed rows cyclically *)

Theorem C44_nothing : forall T (v : ListView T) up, displayed_rows_count v = 0 -> try_select_next v up = Ret v.
Proof. intros T v up H. unfold try_select_next. rewrite H. reflexivity. Qed.
Print Assumptions C44_nothing.
(** From a selection, the row selected is the closest one among those displayed, in the given direction, going on at the other end. The
    selection itself comes last. The selected row is then made visible. *)
Theorem C44_next : forall T (v : ListView T) up sel, lv_ok v -> displayed_rows_count v <> 0 -> selection v = Some sel ->
  let n := length (rows v) in let at_ d := (if up : bool then sel + (n - d) else sel + d) mod n in
  exists d, 1 <= d <= n /\ is_displayed v (at_ d) /\ (forall d', 1 <= d' < d -> is_hidden v (at_ d'))
    /\ try_select_next v up = make_selection_visible (with_selection v (Some (at_ d))).
Proof. intros T v up sel Hok Hn Hs n at_. pose proof (next_spec up Hok Hn) as F. rewrite Hs in F. exact F. Qed.
Print Assumptions C44_next.
(** Without selection, the first displayed row not before the scroll is selected *)
Theorem C44_first : forall T (v : ListView T) up, lv_ok v -> displayed_rows_count v <> 0 -> selection v = None ->
  let n := length (rows v) in let at_ d := (lv_scroll v + d) mod n in
  exists d, d < n /\ is_displayed v (at_ d) /\ (forall d', d' < d -> is_hidden v (at_ d'))
    /\ try_select_next v up = make_selection_visible (with_selection v (Some (at_ d))).
Proof. intros T v up Hok Hn Hs n at_. pose proof (next_spec up Hok Hn) as F. rewrite Hs in F. exact F. Qed.
Print Assumptions C44_first.
Theorem C44_first_line : forall T (v : ListView T), lv_ok v ->
  (displayed_rows_count v = 0 -> select_first_line v = Ret (with_selection v None))
  /\ (displayed_rows_count v <> 0 -> exists i, is_displayed v i /\ (forall j, j < i -> is_hidden v j)
        /\ select_first_line v = make_selection_visible (with_selection v (Some i))).
Proof. exact select_first_spec. Qed.
Print Assumptions C44_first_line.
Theorem C44_last_line : forall T (v : ListView T), lv_ok v ->
  (displayed_rows_count v = 0 -> select_last_line v = Ret (with_selection v None))
  /\ (displayed_rows_count v <> 0 -> exists i, is_displayed v i /\ (forall j, i < j < length (rows v) -> is_hidden v j)
        /\ select_last_line v = make_selection_visible (with_selection v (Some i))).
Proof. exact select_last_spec. Qed.
Print Assumptions C44_last_line.
(** The views one gets satisfy the hypothesis, and making the selection visible changes nothing but the scroll *)
Theorem C44_reachable : forall T area cols k (v0 v : ListView T) ops, lv_new area cols k = Ret v0 -> lv_run v0 ops = Ret v -> lv_ok v.
Proof. intros. eapply lh_ok, history; eassumption. Qed.
Print Assumptions C44_reachable.
Theorem C44_only_scroll : forall T (v v' : ListView T), make_selection_visible v = Ret v' -> exists s, v' = with_scroll v s.
Proof. exact msv_same. Qed.
Print Assumptions C44_only_scroll.
Example C44_example : map (fun ops => match lv_run (demo_lv 20) (abc 6 ++ LvFilter N.even :: ops) with Ret v => selection v | _ => None end)
    [[LvNext false]; [LvNext false; LvNext false]; [LvNext true; LvNext true]; [LvLast]; [LvLast; LvNext false]; [LvFirst; LvNext true]]
  = [Some 1; Some 3; Some 5; Some 5; Some 1; Some 5].
Proof. vm_compute. reflexivity. Qed.

(** ** C45 The selected row of a list view is kept visible without panic *)

(** In an area of at least 5 lines, a displayed selected row is among the rows seen after it's made visible. When all rows can be seen at
    once, it must not be before the scroll (see [C45_all_fit_refuted]). *)
Theorem C45_visible_partial : forall T (v v' : ListView T) sel, lv_ok v -> (5 <= a_height (lv_area v))%N ->
  selection v = Some sel -> is_displayed v sel -> (displayed_rows_count v <= tbody_height v -> lv_scroll v <= sel) ->
  make_selection_visible v = Ret v' -> In sel (seen_rows v').
Proof.
  intros T v v' sel [Hc _] Hh Hs (r & Er & Hd) Hfit E.
  assert (Lsel : sel < length (rows v)) by (apply nth_error_Some; congruence).
  assert (Eb : forall s, displayed_b (with_scroll v s) sel = true) by (intros s; unfold displayed_b; cbn; rewrite Er; exact Hd).
  assert (Ht : tbody_height v = N.to_nat (a_height (lv_area v)) - 2) by (unfold tbody_height, tbody_height16; rewrite (proj2 (N.ltb_lt _ _)) by lia; lia).
  assert (G : forall s, s <= sel -> sel - s < tbody_height v -> In sel (seen_rows (with_scroll v s))).
  { intros s Ls L. unfold seen_rows. apply seen_in; [cbn; lia|apply Eb|]. eapply Nat.le_lt_trans; [apply filter_len_le|]. rewrite seq_length. cbn. lia. }
  unfold make_selection_visible in E. destruct (Nat.leb_spec (displayed_rows_count v) (tbody_height v)) as [L|L].
  - injection E as <-. specialize (Hfit L). replace v with (with_scroll v (lv_scroll v)) by (destruct v; reflexivity).
    unfold seen_rows. apply seen_in; [cbn; lia|apply Eb|]. cbn [with_scroll lv_scroll lv_area]. rewrite <- Ht.
    eapply Nat.lt_le_trans; [|exact L]. rewrite Hc, <- filter_seq_rows. change (fun i => match nth_error (rows v) i with Some r => displayed r | None => false end) with (displayed_b v).
    change (displayed_b (with_scroll v (lv_scroll v))) with (displayed_b v).
    replace (length (rows v)) with (lv_scroll v + ((sel - lv_scroll v) + (1 + (length (rows v) - sel - 1)))) by lia.
    rewrite !seq_app, !filter_app, !app_length. replace (0 + lv_scroll v + (sel - lv_scroll v)) with sel by lia. cbn [seq List.filter].
    assert (Eb0 : displayed_b v sel = true) by exact (Eb 0). rewrite Eb0. cbn. lia.
  - rewrite Hs in E. destruct (Nat.leb_spec sel (lv_scroll v)) as [L1|L1].
    + injection E as <-. destruct (Nat.ltb_spec 2 sel); apply G; lia.
    + destruct (Nat.leb_spec (lv_scroll v + tbody_height v) (sel + 1)) as [L2|L2].
      * apply bind_Ret_inv in E as (m & E1 & E). apply csub_inv in E1 as [L3 ->]. injection E as <-. apply G; lia.
      * injection E as <-. replace v with (with_scroll v (lv_scroll v)) by (destruct v; reflexivity). apply G; lia.
Qed.
Print Assumptions C45_visible_partial.
(** The scroll is changed only when the selection is too near of a border, and then there are at least two rows before it, or one after it *)
Theorem C45_visible_scroll : forall T (v v' : ListView T) sel, selection v = Some sel -> make_selection_visible v = Ret v' ->
  lv_scroll v' =
    if displayed_rows_count v <=? tbody_height v then lv_scroll v
    else if sel <=? lv_scroll v then sel - 2
    else if lv_scroll v + tbody_height v - 1 <=? sel then sel + 2 - tbody_height v
    else lv_scroll v.
Proof.
  intros T v v' sel Hs E. unfold make_selection_visible in E. rewrite Hs in E. destruct (Nat.leb_spec (displayed_rows_count v) (tbody_height v)); [injection E as <-; reflexivity|].
  destruct (Nat.leb_spec sel (lv_scroll v)); [injection E as <-; cbn [with_scroll lv_scroll]; destruct (Nat.ltb_spec 2 sel); lia|].
  destruct (Nat.leb_spec (lv_scroll v + tbody_height v) (sel + 1)), (Nat.leb_spec (lv_scroll v + tbody_height v - 1) sel); try lia; [|injection E as <-; reflexivity].
  apply bind_Ret_inv in E as (m & E1 & E). apply csub_inv in E1 as [L3 ->]. injection E as <-. cbn [with_scroll lv_scroll]. lia.
Qed.
Print Assumptions C45_visible_scroll.
Example C45_visible_scroll_example : match lv_run (demo_lv 7) (abc 20 ++ [LvLast; LvFirst; LvNext false; LvNext false; LvNext false; LvNext true]) with Ret v => (selection v, lv_scroll v, tbody_height v) | _ => (None, 0, 0) end
  = (Some 2, 0, 5).
Proof. vm_compute. reflexivity. Qed.
(** It panics in exactly one case: at the top of a list which can't be seen whole, selecting the last visible row *)
Theorem C45_visible_panics : forall T (v : ListView T), make_selection_visible v = Panic <->
  2 <= tbody_height v < displayed_rows_count v /\ lv_scroll v = 0 /\ selection v = Some (tbody_height v - 1).
Proof.
  intros T v. unfold make_selection_visible. destruct (Nat.leb_spec (displayed_rows_count v) (tbody_height v)) as [L|L]; [split; [discriminate|lia]|].
  destruct (selection v) as [sel|]; [|split; [discriminate|intros (_ & _ & H); discriminate]].
  destruct (Nat.leb_spec sel (lv_scroll v)) as [L1|L1]; [split; [discriminate|intros (H & H1 & H2); injection H2 as ->; lia]|].
  destruct (Nat.leb_spec (lv_scroll v + tbody_height v) (sel + 1)) as [L2|L2]; [|split; [discriminate|intros (H & H1 & H2); injection H2 as ->; lia]].
  unfold csub. destruct (Nat.leb_spec (tbody_height v) sel); cbn.
  - split; [discriminate|]. intros (H' & H1 & H2). injection H2 as ->. lia.
  - split; [intros _|reflexivity]. split; [lia|]. split; [lia|]. f_equal. lia.
Qed.
Print Assumptions C45_visible_panics.
(** Selecting the previous row may panic (subtraction underflow) *)
Theorem C45_select_panic_refuted : exists ops, lv_run (demo_lv 5) ops <> Panic /\ lv_run (demo_lv 5) (ops ++ [LvNext false]) = Panic.
Proof. exists (abc 4 ++ [LvUnselect; LvLines (-4)%Z; LvNext false; LvNext false]). split; [vm_compute; discriminate|vm_compute; reflexivity]. Qed.
Print Assumptions C45_select_panic_refuted.
(** With the visible lines reduced to one or two, the selected row isn't seen *)
Theorem C45_small_refuted : exists h ops v sel, (3 <= h)%N /\ lv_run (demo_lv h) ops = Ret v /\ selection v = Some sel /\ is_displayed v sel /\ lv_scroll v <= length (rows v) /\ ~ In sel (seen_rows v).
Proof.
  exists 4%N, (abc 6 ++ [LvLast; LvNext true]). eexists. exists 4. split; [lia|]. split; [vm_compute; reflexivity|].
  split; [reflexivity|]. split; [eexists; split; reflexivity|]. split; [vm_compute; lia|]. vm_compute. intuition discriminate.
Qed.
Print Assumptions C45_small_refuted.
(** When the list can just be seen whole, it can be scrolled of one line, and then selecting the first row doesn't show it *)
Theorem C45_all_fit_refuted : exists ops v, lv_run (demo_lv 6) ops = Ret v /\ selection v = Some 0 /\ is_displayed v 0 /\ ~ In 0 (seen_rows v).
Proof.
  exists (abc 4 ++ [LvLines 1%Z; LvFirst]). eexists. split; [vm_compute; reflexivity|].
  split; [reflexivity|]. split; [eexists; split; reflexivity|]. vm_compute. intuition discriminate.
Qed.
Print Assumptions C45_all_fit_refuted.

(** Scrolling of [n] lines *)
Theorem C45_scroll_down : forall T (v : ListView T) n, (0 <= n)%Z ->
  lv_try_scroll_lines v n =
    if displayed_rows_count v <? tbody_height v then Panic
    else make_selection_visible (with_scroll v (Nat.min (lv_scroll v + Z.to_nat n) (displayed_rows_count v - tbody_height v + 1))).
Proof.
  intros T v n Hn. unfold lv_try_scroll_lines. rewrite (proj2 (Z.ltb_ge _ _) Hn). unfold csub.
  destruct (Nat.ltb_spec (displayed_rows_count v) (tbody_height v)); [rewrite (proj2 (Nat.leb_gt _ _)) by lia; reflexivity|].
  rewrite (proj2 (Nat.leb_le _ _)) by lia. reflexivity.
Qed.
Print Assumptions C45_scroll_down.
Theorem C45_scroll_up : forall T (v : ListView T) n, (-2147483648 < n < 0)%Z ->
  lv_try_scroll_lines v n = make_selection_visible (with_scroll v (lv_scroll v - Z.to_nat (- n))).
Proof.
  intros T v n Hn. unfold lv_try_scroll_lines. rewrite (proj2 (Z.ltb_lt n 0)) by lia. unfold i32.
  rewrite (proj2 (Z.leb_le _ _)), (proj2 (Z.ltb_lt _ _)) by lia. cbn [andb bind]. f_equal. f_equal. destruct (Nat.leb_spec (lv_scroll v) (Z.to_nat (- n))); lia.
Qed.
Print Assumptions C45_scroll_up.
Theorem C45_scroll_pages : forall T (v : ListView T) n,
  let lines := (n * Z.of_nat (tbody_height v))%Z in
  lv_try_scroll_pages v n = if ((-2147483648 <=? lines) && (lines <? 2147483648))%Z then lv_try_scroll_lines v lines else Panic.
Proof.
  intros T v n lines. unfold lv_try_scroll_pages. replace (Z.of_N (tbody_height16 v)) with (Z.of_nat (tbody_height v)) by (unfold tbody_height; lia). fold lines. unfold i32.
  destruct (_ && _)%Z; reflexivity.
Qed.
Print Assumptions C45_scroll_pages.
Example C45_scroll_example :
  map (fun n => match lv_run (demo_lv 12) (abc 30 ++ [LvUnselect; LvLines (-20)%Z; n]) with Ret v => lv_scroll v | _ => 0 end)
    [LvLines 5; LvLines 100; LvPages 1; LvPages (-1)]%Z = [5; 21; 10; 0].
Proof. vm_compute. reflexivity. Qed.
(** Scrolling down a list shorter than its area panics *)
Theorem C45_scroll_panic_refuted : exists ops, lv_run (demo_lv 12) (ops : list (lv_op N)) <> Panic /\ lv_run (demo_lv 12) (ops ++ [LvLines 1%Z]) = Panic.
Proof. exists (abc 3). split; [vm_compute; discriminate|vm_compute; reflexivity]. Qed.
Print Assumptions C45_scroll_panic_refuted.
(** Scrolling of [i32::MIN] lines panics *)
Theorem C45_scroll_min_refuted : exists v : ListView N, lv_ok v /\ tbody_height v < displayed_rows_count v /\ lv_try_scroll_lines v (-2147483648)%Z = Panic.
Proof.
  exists (match lv_run (demo_lv 6) (abc 8) with Ret v => v | _ => demo_lv 6 end).
  split; [split; [reflexivity|vm_compute; discriminate]|]. split; [vm_compute; lia|vm_compute; reflexivity].
Qed.
Print Assumptions C45_scroll_min_refuted.

(** As long as the area isn't empty, the scroll stays among the rows (it's at most just after the last one) *)
Theorem C45_in_rows : forall T area cols k (v0 v : ListView T) ops,
  lv_new area cols k = Ret v0 -> (0 < a_height area)%N -> (forall a, In (LvArea a) ops -> (0 < a_height a)%N) ->
  lv_run v0 ops = Ret v -> lv_scroll v <= length (rows v).
Proof.
  intros T area cols k v0 v ops H0 Ha Hops E.
  assert (G : forall ops v, (forall a, In (LvArea a) ops -> (0 < a_height a)%N) -> lv_run v0 ops = Ret v -> 0 < tbody_height v /\ lv_scroll v <= length (rows v)); [|apply (G ops); assumption].
  clear v ops Hops E. intros ops. induction ops as [|o ops IH] using rev_ind; intros v Hops E.
  - cbn in E. injection E as <-. unfold lv_new in H0. apply bind_Ret_inv in H0 as (ts & _ & H0). injection H0 as <-.
    unfold tbody_height, tbody_height16. cbn. destruct (N.ltb_spec 2 (a_height area)); lia.
  - apply run_snoc in E as (w & Ew & E). destruct (IH w ltac:(intros; apply Hops, in_or_app; left; assumption) Ew) as [I1 I2].
    pose proof (lh_ok (history _ _ _ _ H0 Ew)) as Hok. pose proof Hok as [Hc Hs].
    assert (Hcl : displayed_rows_count w <= length (rows w)) by (rewrite Hc; apply filter_len_le).
    assert (Mv : forall x x' : ListView T, rows x = rows w -> lv_area x = lv_area w -> lv_scroll x <= length (rows x) -> lv_ok x -> make_selection_visible x = Ret x' ->
              0 < tbody_height x' /\ lv_scroll x' <= length (rows x')).
    { intros x x' Er Ea Hx [_ Hsx] Ex. assert (Et : tbody_height x = tbody_height w) by (unfold tbody_height, tbody_height16; rewrite Ea; reflexivity).
      unfold make_selection_visible in Ex. destruct (_ <=? _); [injection Ex as <-; lia|]. destruct (selection x) as [sel|]; [|injection Ex as <-; lia].
      specialize (Hsx sel eq_refl). destruct (sel <=? _); [injection Ex as <-; split; [change (0 < tbody_height x); lia|]; cbn [with_scroll lv_scroll rows]; destruct (2 <? sel); lia|].
      destruct (_ <=? _); [|injection Ex as <-; lia]. apply bind_Ret_inv in Ex as (m & E1 & Ex). apply csub_inv in E1 as [L3 ->]. injection Ex as <-.
      split; [change (0 < tbody_height x); lia|]. cbn. lia. }
    assert (Sc : forall n, lv_try_scroll_lines w n = Ret v -> 0 < tbody_height v /\ lv_scroll v <= length (rows v)).
    { intros n En. unfold lv_try_scroll_lines in En. apply bind_Ret_inv in En as (x & E1 & En). destruct (n <? 0)%Z; apply bind_Ret_inv in E1 as (m & Em & E1); injection E1 as <-.
      - eapply Mv; [| | | |exact En]; try reflexivity; [|exact Hok]. cbn [with_scroll lv_scroll rows]. destruct (_ <=? _); lia.
      - apply csub_inv in Em as [L3 ->]. eapply Mv; [| | | |exact En]; try reflexivity; [|exact Hok]. cbn. lia. }
    destruct o; cbn in E.
    + injection E as <-. rewrite <- (Permutation_length (add_row_rows w d)), app_length. cbn [length]. split; [destruct (add_row_eq w d) as (s & ->); exact I1|].
      rewrite add_row_eq_full. cbn [lv_scroll]. unfold add_scroll. set (n := displayed_rows_count w + _).
      assert (Hn : n <= displayed_rows_count w + 1) by (unfold n; destruct (match filter w with Some f => f d | None => true end); lia).
      destruct (row_order w); [lia|]. destruct (do_scroll_show_bottom w); [|lia]. destruct (_ <? _); lia.
    + injection E as <-. split; [exact I1|]. cbn. lia.
    + injection E as <-. split; [exact I1|]. cbn. lia.
    + injection E as <-. split; [exact I1|]. cbn. rewrite map_length. exact I2.
    + injection E as <-. split; [exact I1|exact I2].
    + destruct (Nat.eq_dec (displayed_rows_count w) 0) as [Hz|Hz]; [unfold try_select_next in E; rewrite Hz in E; injection E as <-; split; assumption|].
      pose proof (next_spec up Hok Hz) as F. destruct (selection w); destruct F as (d & _ & D & _ & F); rewrite F in E;
        (eapply Mv; [| | | |exact E]; try reflexivity; [exact I2|apply sel_ok; [exact Hok|apply displayed_lt, D]]).
    + destruct (select_first_spec Hok) as [F G]. destruct (Nat.eq_dec (displayed_rows_count w) 0) as [Hz|Hz]; [rewrite (F Hz) in E; injection E as <-; split; assumption|].
      destruct (G Hz) as (i & D & _ & F'). rewrite F' in E. eapply Mv; [| | | |exact E]; try reflexivity; [exact I2|apply sel_ok; [exact Hok|apply displayed_lt, D]].
    + destruct (select_last_spec Hok) as [F G]. destruct (Nat.eq_dec (displayed_rows_count w) 0) as [Hz|Hz]; [rewrite (F Hz) in E; injection E as <-; split; assumption|].
      destruct (G Hz) as (i & D & _ & F'). rewrite F' in E. eapply Mv; [| | | |exact E]; try reflexivity; [exact I2|apply sel_ok; [exact Hok|apply displayed_lt, D]].
    + injection E as <-. split; [exact I1|exact I2].
    + apply (Sc n E).
    + unfold lv_try_scroll_pages in E. apply bind_Ret_inv in E as (l & _ & E). apply (Sc l E).
    + injection E as <-. split; [exact I1|]. cbn [scroll_to_bottom with_scroll lv_scroll rows]. destruct (_ <? _); lia.
    + eapply Mv; [| | | |exact E]; try reflexivity; assumption.
    + injection E as <-. split; [|exact I2]. specialize (Hops a ltac:(apply in_or_app; right; left; reflexivity)).
      unfold tbody_height, tbody_height16. cbn. destruct (N.ltb_spec 2 (a_height a)); lia.
    + unfold update_dimensions in E. apply bind_Ret_inv in E as (s & _ & E). destruct (_ <=? _)%Z; [injection E as <-; split; assumption|].
      apply bind_Ret_inv in E as (e & _ & E). apply bind_Ret_inv in E as (c & _ & E). injection E as <-. split; assumption.
Qed.
Print Assumptions C45_in_rows.
(** Scrolling when the area is empty puts the scroll out of the rows, which makes drawing panic once the area is larger *)
Theorem C45_in_rows_refuted : exists ops v, lv_run (demo_lv 0) ops = Ret v /\ length (rows v) < lv_scroll v /\ lv_write_on v = Panic.
Proof. exists (abc 3 ++ [LvLines 9%Z; LvArea (mkArea 0 0 20 6)]). eexists. split; [vm_compute; reflexivity|]. split; [vm_compute; lia|vm_compute; reflexivity]. Qed.
Print Assumptions C45_in_rows_refuted.

(** The bottom, when all rows are displayed *)
Theorem C45_bottom : forall T (v : ListView T), lv_ok v -> (3 <= a_height (lv_area v))%N -> rows v <> [] -> displayed_rows_count v = length (rows v) ->
  In (length (rows v) - 1) (seen_rows (scroll_to_bottom v))
  /\ (lv_scroll v < length (rows v) -> do_scroll_show_bottom v = true <-> In (length (rows v) - 1) (seen_rows v)).
Proof.
  intros T v [Hc _] Hh Hr Hd. assert (Hall : forall i, i < length (rows v) -> displayed_b v i = true).
  { intros i L. unfold displayed_b. destruct (nth_error (rows v) i) as [r|] eqn:E; [|apply nth_error_None in E; lia].
    rewrite Hd in Hc. assert (F : Forall (fun r => displayed r = true) (rows v)).
    { clear - Hc. revert Hc. generalize (rows v). intros l. induction l as [|r l IH]; intros E; [constructor|]. cbn in E. pose proof (filter_len_le (@displayed T) l).
      destruct (displayed r) eqn:D; [|cbn in E; lia]. constructor; [exact D|]. apply IH. cbn in E. lia. }
    rewrite Forall_forall in F. apply F. eapply nth_error_In, E. }
  assert (Ht : tbody_height v = N.to_nat (a_height (lv_area v)) - 2) by (unfold tbody_height, tbody_height16; rewrite (proj2 (N.ltb_lt _ _)) by lia; lia).
  assert (Hl : 0 < length (rows v)) by (destruct (rows v); cbn; [congruence|lia]).
  assert (S : forall s, s < length (rows v) -> (s + tbody_height v >= length (rows v) <-> In (length (rows v) - 1) (seen_rows (with_scroll v s)))).
  { intros s Ls. unfold seen_rows. cbn [with_scroll lv_scroll lv_area rows]. change (displayed_b (with_scroll v s)) with (displayed_b v). rewrite <- Ht.
    rewrite filter_all by (apply Forall_forall; intros i Hi; apply in_seq in Hi; apply Hall; lia).
    split; intros H.
    - rewrite firstn_all2 by (rewrite seq_length; lia). apply in_seq. lia.
    - assert (E : seq s (length (rows v) - s) = seq s (Nat.min (tbody_height v) (length (rows v) - s)) ++ skipn (tbody_height v) (seq s (length (rows v) - s))).
      { destruct (Nat.le_ge_cases (tbody_height v) (length (rows v) - s)).
        - rewrite Nat.min_l by assumption. replace (length (rows v) - s) with (tbody_height v + (length (rows v) - s - tbody_height v)) by lia.
          rewrite seq_app, skipn_app, seq_length, Nat.sub_diag. rewrite skipn_all2 by (rewrite seq_length; lia). reflexivity.
        - rewrite Nat.min_r, skipn_all2, app_nil_r by (rewrite ?seq_length; lia). reflexivity. }
      destruct (Nat.le_gt_cases (length (rows v)) (s + tbody_height v)); [lia|]. exfalso. rewrite E in H. rewrite firstn_app, seq_length in H.
      rewrite Nat.min_l in H by lia. rewrite Nat.sub_diag in H. cbn in H. rewrite app_nil_r in H. rewrite firstn_all2 in H by (rewrite seq_length; lia). apply in_seq in H. lia. }
  split.
  - unfold scroll_to_bottom. rewrite Hd. apply S; destruct (Nat.ltb_spec (tbody_height v) (length (rows v))); lia.
  - intros Ls. pose proof (S (lv_scroll v) Ls) as F. replace (with_scroll v (lv_scroll v)) with v in F by (destruct v; reflexivity). rewrite <- F.
    unfold do_scroll_show_bottom. rewrite Hd, Nat.leb_le. lia.
Qed.
Print Assumptions C45_bottom.
(** With a filter, the scroll counts displayed rows here and all rows elsewhere: the last row isn't seen *)
Theorem C45_bottom_refuted : exists ops v, lv_run (demo_lv 5) ops = Ret v /\ do_scroll_show_bottom v = true /\ rows v <> []
  /\ is_displayed v (length (rows v) - 1) /\ ~ In (length (rows v) - 1) (seen_rows v).
Proof.
  exists (abc 12 ++ [LvFilter N.even; LvBottom]). eexists. split; [vm_compute; reflexivity|]. split; [reflexivity|]. split; [discriminate|].
  split; [eexists; split; reflexivity|]. vm_compute. intuition discriminate.
Qed.
Print Assumptions C45_bottom_refuted.
Example C45_example : match lv_run (demo_lv 7) (abc 20 ++ [LvFirst; LvNext true; LvNext true]) with Ret v => (selection v, lv_scroll v, seen_rows v) | _ => (None, 0, []) end
  = (Some 18, 16, [16; 17; 18; 19]).
Proof. vm_compute. reflexivity. Qed.

(** A row added when the end of the list is shown is shown too, unless there's an order. Otherwise, the scroll isn't changed. *)
Theorem C45_add : forall T (v : ListView T) d, lv_ok v -> (3 <= a_height (lv_area v))%N -> displayed_rows_count v = length (rows v) ->
  match filter v with Some f => f d | None => true end = true -> row_order v = None -> do_scroll_show_bottom v = true ->
  In (length (rows v)) (seen_rows (add_row v d)).
Proof.
  intros T v d Hok Hh Hd Hf Ho Hb. pose proof (add_row_ok d Hok) as Hok'.
  assert (Er : rows (add_row v d) = rows v ++ [mkRow d true]) by (rewrite add_row_eq_full, Hf, Ho; reflexivity).
  assert (En : displayed_rows_count (add_row v d) = length (rows (add_row v d))) by (rewrite Er, app_length, add_row_eq_full, Hf; cbn; lia).
  assert (Ea : lv_area (add_row v d) = lv_area v) by (rewrite add_row_eq_full; reflexivity).
  destruct (C45_bottom Hok') as [H _]; [rewrite Ea; exact Hh|rewrite Er; destruct (rows v); discriminate|exact En|].
  replace (scroll_to_bottom (add_row v d)) with (add_row v d) in H.
  - rewrite Er, app_length in H. cbn [length] in H. rewrite Nat.add_sub in H. exact H.
  - unfold scroll_to_bottom. rewrite add_row_eq_full, Hf. unfold add_scroll. rewrite Ho, Hb. reflexivity.
Qed.
Print Assumptions C45_add.
Theorem C45_add_still : forall T (v : ListView T) d, row_order v <> None \/ do_scroll_show_bottom v = false -> lv_scroll (add_row v d) = lv_scroll v.
Proof.
  intros T v d H. rewrite add_row_eq_full. cbn [lv_scroll]. unfold add_scroll. destruct (row_order v); [reflexivity|]. destruct H as [H|H]; [congruence|]. rewrite H. reflexivity.
Qed.
Print Assumptions C45_add_still.
Example C45_add_example : map (fun ops => match lv_run (demo_lv 7) (abc 5 ++ ops) with Ret v => lv_scroll v | _ => 99 end)
  [[]; [LvAdd 110%N]; [LvAdd 110%N; LvAdd 111%N]; [LvAdd 110%N; LvLines (-1)%Z; LvAdd 111%N; LvAdd 112%N]] = [0; 1; 2; 0].
Proof. vm_compute. reflexivity. Qed.

(** ** C46 List view columns respect their bounds and the area *)

Definition zsum (l : list Z) : Z := fold_right Z.add 0%Z l.
Definition total {T} (f : ListViewColumn T -> N) (cols : list (ListViewColumn T)) : Z := zsum (map (fun c => Z.of_N (f c)) cols).
(** Bounds which are in order and can be i32 *)
Definition good_bounds {T} (c : ListViewColumn T) : Prop := (lc_min c <= lc_max c)%N /\ (lc_max c < 2147483648)%N.
(** [c'] is [c] with another width, in its bounds *)
Definition sized {T} (c c' : ListViewColumn T) : Prop := c' = set_width c (lc_width c') /\ (lc_min c <= lc_width c' <= lc_max c)%N.
(** A column is wider than its minimum only when those before it have their maximal width *)
Definition first_served {T} (cols : list (ListViewColumn T)) : Prop :=
  ForallOrdPairs (fun a b => (lc_min b < lc_width b)%N -> lc_width a = lc_max a) cols.

Lemma as_i32_small n : (n < 2147483648)%N -> as_i32 n = Z.of_N n.
Proof. intros H. unfold as_i32. rewrite Z.mod_small by lia. rewrite (proj2 (Z.ltb_lt _ _)) by lia. reflexivity. Qed.
Lemma i32_ok z : (-2147483648 <= z < 2147483648)%Z -> i32 z = Ret z.
Proof. intros H. unfold i32. rewrite (proj2 (Z.leb_le _ _)), (proj2 (Z.ltb_lt _ _)) by lia. reflexivity. Qed.
Lemma as_usize_small z : (0 <= z < 2147483648)%Z -> as_usize z = Z.to_N z.
Proof. intros H. unfold as_usize. rewrite Z.mod_small; [reflexivity|]. unfold U64. lia. Qed.
Lemma total_cons T (f : ListViewColumn T -> N) c cols : total f (c :: cols) = (Z.of_N (f c) + total f cols)%Z.
Proof. reflexivity. Qed.
Lemma total_nonneg T (f : ListViewColumn T -> N) cols : (0 <= total f cols)%Z.
Proof. induction cols as [|c cols IH]; [cbn; lia|]. rewrite total_cons. lia. Qed.
Lemma total_le T (cols : list (ListViewColumn T)) : Forall good_bounds cols -> (total (@lc_min T) cols <= total (@lc_max T) cols)%Z.
Proof. induction 1 as [|c cols [H1 H2] F IH]; [cbn; lia|]. rewrite !total_cons. lia. Qed.
Lemma sum_i32_ok T (cols : list (ListViewColumn T)) acc : Forall good_bounds cols -> (0 <= acc)%Z -> (acc + total (@lc_min T) cols < 2147483648)%Z ->
  sum_i32 (map (fun c => as_i32 (lc_min c)) cols) acc = Ret (acc + total (@lc_min T) cols)%Z.
Proof.
  intros F. revert acc. induction F as [|c cols [H1 H2] F IH]; intros acc Ha Hs; cbn [map sum_i32]; [f_equal; cbn; lia|].
  rewrite total_cons in *. pose proof (total_nonneg (@lc_min T) cols).
  rewrite as_i32_small by lia. rewrite i32_ok by lia. cbn [bind]. rewrite IH by lia. f_equal. lia.
Qed.
Lemma widen_ok T (cols : list (ListViewColumn T)) excess : Forall good_bounds cols -> (0 <= excess < 2147483648)%Z ->
  exists cols', widen cols excess = Ret cols' /\ Forall2 sized cols cols' /\ first_served cols'
    /\ total (@lc_width T) cols' = Z.min (total (@lc_min T) cols + excess) (total (@lc_max T) cols)
    /\ (excess = 0%Z -> Forall (fun c => lc_width c = lc_min c) cols').
Proof.
  intros F. revert excess. induction F as [|c cols [H1 H2] F IH]; intros ex He.
  - exists []. split; [reflexivity|]. split; [constructor|]. split; [constructor|]. split; [cbn; lia|constructor].
  - cbn [widen]. unfold subN. rewrite (proj2 (N.leb_le _ _) H1). cbn [bind]. rewrite as_i32_small by lia.
    set (d := Z.min (Z.of_N (lc_max c - lc_min c)) ex). assert (Hd : (0 <= d < 2147483648)%Z) by lia. rewrite i32_ok by lia. cbn [bind].
    rewrite as_usize_small by exact Hd. rewrite (proj2 (N.ltb_lt _ _)) by (unfold U64; lia). cbn [bind].
    destruct (IH (ex - d)%Z ltac:(lia)) as (cols' & E & S1 & S2 & S3 & S4). rewrite E. cbn [bind].
    exists (set_width c (lc_min c + Z.to_N d) :: cols'). split; [reflexivity|]. split; [constructor; [|exact S1]; split; [reflexivity|cbn; lia]|]. split.
    + constructor; [|exact S2]. destruct (Z.eq_dec (ex - d) 0) as [Hz|Hz].
      * specialize (S4 Hz). eapply Forall_impl; [|exact S4]. cbn. intros b Eb Hb. lia.
      * apply Forall_forall. intros b _ _. cbn. lia.
    + split.
      * rewrite !total_cons, S3. cbn [lc_width set_width]. pose proof (total_le F). lia.
      * intros Hz. constructor; [cbn; lia|]. apply S4. lia.
Qed.
(** The scrollbar and the separators being removed from the area, the columns get what's available, within their bounds, the first ones first *)
Theorem C46_widths_partial : forall T (v : ListView T), Forall good_bounds (columns v) -> (total (@lc_min T) (columns v) < 2147483648)%Z -> (a_width (lv_area v) < U16)%N ->
  let available := (Z.of_N (a_width (lv_area v)) - Z.of_nat (length (columns v) - 1) - 1)%Z in
  columns v <> [] ->
  exists cols, update_dimensions v = Ret (with_columns v cols) /\ Forall2 sized (columns v) cols /\ first_served cols
    /\ total (@lc_width T) cols = Z.max (total (@lc_min T) (columns v)) (Z.min available (total (@lc_max T) (columns v))).
Proof.
  intros T v F Hs Hw av Hne. unfold update_dimensions. rewrite sum_i32_ok by (auto; lia). cbn [bind]. rewrite Z.add_0_l.
  replace (Z.of_N (a_width (lv_area v)) - (Z.of_nat (length (columns v)) - 1) - 1)%Z with av by (unfold av; destruct (columns v); [congruence|cbn [length]; lia]).
  assert (H0 : (0 <= total (@lc_min T) (columns v))%Z) by apply total_nonneg.
  assert (Hmm : (total (@lc_min T) (columns v) <= total (@lc_max T) (columns v))%Z) by apply total_le, F.
  destruct (Z.leb_spec av (total (@lc_min T) (columns v))) as [L|L].
  - eexists. split; [reflexivity|]. split; [|split].
    + clear - F. induction F as [|c cols [H1 H2] F IH]; [constructor|]. constructor; [|exact IH]. split; [reflexivity|cbn; lia].
    + clear. unfold first_served. induction (columns v) as [|c cols IH]; [constructor|]. constructor; [|exact IH]. apply Forall_map, Forall_forall. cbn. intros; lia.
    + replace (total (@lc_width T) (map (fun c => set_width c (lc_min c)) (columns v))) with (total (@lc_min T) (columns v)) by (unfold total; rewrite map_map; reflexivity). lia.
  - unfold U16 in *. rewrite i32_ok by lia. cbn [bind]. destruct (@widen_ok T (columns v) (av - total (@lc_min T) (columns v))%Z F ltac:(lia)) as (cols & E & S1 & S2 & S3 & _).
    rewrite E. cbn [bind]. exists cols. split; [reflexivity|]. split; [exact S1|]. split; [exact S2|]. rewrite S3. lia.
Qed.
Print Assumptions C46_widths_partial.
Example C46_example :
  map (fun w => match lv_run (demo_lv 10) [LvArea (mkArea 0 0 w 10); LvDimensions] with Ret v => (map (@lc_width N) (columns v)) | _ => [] end) [4; 9; 11; 13; 40]%N
  = [[2; 1; 3]; [2; 1; 3]; [4; 1; 3]; [5; 2; 3]; [5; 3; 3]]%N.
Proof. vm_compute. reflexivity. Qed.
(** A column whose minimum is over its maximum panics *)
Theorem C46_min_over_max_refuted : exists v : ListView N, columns v <> [] /\ update_dimensions v = Panic.
Proof.
  exists (match lv_new (mkArea 0 0 20 10) [column_new [65]%N 5 3 (fun n => cell_new [n] cs_default)] skin_default with Ret v => v | _ => demo_lv 0 end).
  split; [discriminate|vm_compute; reflexivity].
Qed.
Print Assumptions C46_min_over_max_refuted.
(** A maximal width of [usize::MAX], meaning no maximum, makes the column that wide *)
Theorem C46_no_max_refuted : exists v v' : ListView N, (a_width (lv_area v) = 20)%N /\ update_dimensions v = Ret v'
  /\ map (fun c => (lc_min c, lc_max c, lc_width c)) (columns v') = [(2, U64 - 1, U64 - 1)]%N.
Proof.
  exists (match lv_new (mkArea 0 0 20 10) [column_new [65]%N 2 (U64 - 1) (fun n => cell_new [n] cs_default)] skin_default with Ret v => v | _ => demo_lv 0 end).
  eexists. split; [reflexivity|]. split; [vm_compute; reflexivity|vm_compute; reflexivity].
Qed.
Print Assumptions C46_no_max_refuted.

(** ** C48 Sorting a list view keeps order and selection *)

(** Adding a row puts it among the others so that they're sorted, the equal ones staying as they were, with the new one after them *)
Theorem C48_sorted : forall T (v : ListView T) d order, row_order v = Some order -> total_order order ->
  let new := mkRow d (match filter v with Some f => f d | None => true end) in
  let cmp a b := order (data a) (data b) in
  ordered cmp (rows (add_row v d)) /\ Permutation (rows v ++ [new]) (rows (add_row v d)) /\ stable cmp (rows v ++ [new]) (rows (add_row v d))
  /\ row_order (add_row v d) = Some order.
Proof.
  intros T v d order Ho Ht new cmp. assert (Hc : total_order cmp) by (destruct Ht as [H1 H2]; split; unfold cmp; [intros; apply H1|intros a b c; apply H2]).
  rewrite add_row_eq_full. cbn [rows row_order]. rewrite Ho. split; [apply sort_sorted, Hc|]. split; [apply sort_perm|]. split; [apply sort_stable, Hc|reflexivity].
Qed.
Print Assumptions C48_sorted.
(** Once rows are sorted, a new one is inserted, after those which aren't greater, and no other one moves *)
Theorem C48_inserted : forall T (v : ListView T) d order, row_order v = Some order -> total_order order ->
  let new := mkRow d (match filter v with Some f => f d | None => true end) in
  let cmp a b := order (data a) (data b) in
  ordered cmp (rows v) ->
  exists before after, rows v = before ++ after /\ rows (add_row v d) = before ++ new :: after
    /\ Forall (fun r => order (data r) d <> Gt) before /\ Forall (fun r => order (data r) d = Gt) after.
Proof.
  intros T v d order Ho Ht new cmp Hr. assert (Hc : total_order cmp) by (destruct Ht as [H1 H2]; split; unfold cmp; [intros; apply H1|intros a b c; apply H2]).
  destruct (sort_app_one new Hc Hr) as (l1 & l2 & E & Es & F1 & F2). exists l1, l2. split; [exact E|]. split; [|split; assumption].
  rewrite add_row_eq_full. cbn [rows]. rewrite Ho. exact Es.
Qed.
Print Assumptions C48_inserted.
(** Without an order the new row is the last one *)
Theorem C48_unsorted : forall T (v : ListView T) d, row_order v = None ->
  rows (add_row v d) = rows v ++ [mkRow d (match filter v with Some f => f d | None => true end)].
Proof. intros T v d Ho. rewrite add_row_eq_full. cbn [rows]. rewrite Ho. reflexivity. Qed.
Print Assumptions C48_unsorted.
(** No other operation moves rows *)
Theorem C48_kept : forall T (v v' : ListView T) o, (forall d, o <> LvAdd d) -> o <> LvClear -> lv_apply v o = Ret v' -> map (@data T) (rows v') = map (@data T) (rows v).
Proof.
  intros T v v' o Ha Hc E.
  assert (Hn : nav o -> map (@data T) (rows v') = map (@data T) (rows v)) by (intros Hnav; destruct (@nav_same _ _ _ _ Hnav E) as (s & sel & ->); reflexivity).
  destruct o; try (apply Hn; exact I); try congruence; cbn in E; try (injection E as <-; cbn; rewrite ?map_map; reflexivity).
  unfold update_dimensions in E. apply bind_Ret_inv in E as (s & _ & E). destruct (_ <=? _)%Z; [injection E as <-; reflexivity|].
  apply bind_Ret_inv in E as (e & _ & E). apply bind_Ret_inv in E as (c & _ & E). injection E as <-. reflexivity.
Qed.
Print Assumptions C48_kept.
(** With one order for the whole life of a list view, its rows are always sorted, equal ones being in the sequence they were given *)
Theorem C48_always : forall T area cols k (v0 v : ListView T) ops order, lv_new area cols k = Ret v0 -> total_order order ->
  (forall o, ~ In (LvSort o) ops) -> lv_run v0 (LvSort order :: ops) = Ret v ->
  ordered order (map (@data T) (rows v)) /\ stable order (given ops) (map (@data T) (rows v)).
Proof.
  intros T area cols k v0 v ops order H0 Ht Hs. cbn [lv_run lv_apply bind].
  assert (G : forall ops v, (forall o, ~ In (LvSort o) ops) -> lv_run (lv_sort v0 order) ops = Ret v ->
    row_order v = Some order /\ ordered order (map (@data T) (rows v)) /\ stable order (given ops) (map (@data T) (rows v))); [|intros E; apply (G ops v Hs E)].
  clear v ops Hs. intros ops. induction ops as [|o ops IH] using rev_ind; intros v Hs E.
  - cbn in E. injection E as <-. unfold lv_new in H0. apply bind_Ret_inv in H0 as (ts & _ & H0). injection H0 as <-. split; [reflexivity|]. split; [constructor|]. intros a. reflexivity.
  - apply run_snoc in E as (w & Ew & E). destruct (IH w ltac:(intros o' Ho'; apply (Hs o'), in_or_app; left; exact Ho') Ew) as (I1 & I2 & I3). rewrite given_snoc.
    assert (Hn : (forall d, o <> LvAdd d) -> o <> LvClear -> row_order v = row_order w ->
      row_order v = Some order /\ ordered order (map (@data T) (rows v)) /\ stable order (given ops) (map (@data T) (rows v))).
    { intros Ha Hc Ho. rewrite (@C48_kept _ _ _ _ Ha Hc E), Ho. auto. }
    assert (Hn' : nav o -> row_order v = row_order w) by (intros Hnav; destruct (@nav_same _ _ _ _ Hnav E) as (s & sel & ->); reflexivity).
    destruct o; try (apply Hn; [congruence|congruence|apply Hn'; exact I]); cbn in E; try (injection E as <-; apply Hn; [congruence|congruence|reflexivity]).
    + injection E as <-. pose proof (@C48_sorted _ w d order I1 Ht) as (S1 & S2 & S3 & S4). split; [exact S4|]. split.
      * clear - S1. induction S1 as [|r rs S1 IH H]; [constructor|]. cbn. constructor; [exact IH|]. apply Forall_map, H.
      * intros a. rewrite filter_app, I3, <- filter_app.
        specialize (S3 (mkRow a true)). apply (f_equal (map (@data T))) in S3. 
        assert (Fm : forall rs, map (@data T) (List.filter (same_as (fun a b => order (data a) (data b)) (mkRow a true)) rs) = List.filter (same_as order a) (map (@data T) rs)).
        { induction rs as [|r rs IHr]; [reflexivity|]. cbn [List.filter map].
          change (same_as (fun a b => order (data a) (data b)) (mkRow a true) r) with (same_as order a (data r)).
          destruct (same_as order a (data r)); cbn [map]; rewrite IHr; reflexivity. }
        rewrite !Fm, map_app in S3. exact S3.
    + injection E as <-. split; [exact I1|]. split; [constructor|]. intros a. reflexivity.
    + exfalso. apply (Hs o). apply in_or_app. right. left. reflexivity.
    + apply Hn; try congruence. unfold update_dimensions in E. apply bind_Ret_inv in E as (s & _ & E). destruct (_ <=? _)%Z; [injection E as <-; reflexivity|].
      apply bind_Ret_inv in E as (e & _ & E). apply bind_Ret_inv in E as (c & _ & E). injection E as <-. reflexivity.
Qed.
Print Assumptions C48_always.
(** The selected row stays selected when there's no order, or when the new row isn't put before it *)
Theorem C48_selection_partial : forall T (v : ListView T) d sel, selection v = Some sel -> sel < length (rows v) ->
  match row_order v with
  | None => True
  | Some order => total_order order /\ ordered (fun a b => order (data a) (data b)) (rows v)
                  /\ (forall r, nth_error (rows v) sel = Some r -> order (data r) d <> Gt)
  end -> get_selection (add_row v d) = get_selection v.
Proof.
  intros T v d sel Es Ls H. assert (Es' : selection (add_row v d) = Some sel) by (rewrite add_row_eq_full; exact Es).
  unfold get_selection. rewrite Es, Es'. destruct (@idx_lt _ (rows v) sel Ls) as (r & Er). rewrite Er. apply idx_inv in Er.
  assert (E : nth_error (rows (add_row v d)) sel = Some r); [|rewrite (idx_ret _ _ E); reflexivity].
  destruct (row_order v) as [o|] eqn:Eo.
  - destruct H as (Ht & Hr & Hd). specialize (Hd r Er). destruct (@C48_inserted _ v d o Eo Ht Hr) as (l1 & l2 & E1 & E2 & F1 & F2). rewrite E2. rewrite E1 in Er.
    destruct (Nat.lt_ge_cases sel (length l1)) as [L|L]; [rewrite nth_error_app1 in * by exact L; exact Er|].
    exfalso. rewrite nth_error_app2 in Er by exact L. apply nth_error_In in Er. rewrite Forall_forall in F2. specialize (F2 r Er). contradiction.
  - rewrite (@C48_unsorted _ v d Eo), nth_error_app1 by exact Ls. exact Er.
Qed.
Print Assumptions C48_selection_partial.
(** Adding a row before the selected one changes which row is selected *)
Theorem C48_selection_refuted : exists ops v v', lv_run (demo_lv 10) ops = Ret v /\ lv_apply v (LvAdd 98%N) = Ret v'
  /\ get_selection v = Ret (Some 100%N) /\ get_selection v' = Ret (Some 99%N).
Proof.
  exists [LvSort N.compare; LvAdd 100%N; LvAdd 97%N; LvAdd 99%N; LvLast]. eexists. eexists. split; [vm_compute; reflexivity|].
  split; [vm_compute; reflexivity|]. split; reflexivity.
Qed.
Print Assumptions C48_selection_refuted.
(** Setting an order doesn't sort the rows already there *)
Theorem C48_sort_later_refuted : exists ops v, lv_run (demo_lv 10) (ops ++ [LvSort N.compare]) = Ret v /\ ~ ordered N.compare (map (@data N) (rows v)).
Proof.
  exists [LvAdd 100%N; LvAdd 97%N]. eexists. split; [vm_compute; reflexivity|]. cbn. intros H. inversion H; subst. inversion H3; subst. apply H4. reflexivity.
Qed.
Print Assumptions C48_sort_later_refuted.
Definition by_half (a b : N) : comparison := N.compare (a / 2) (b / 2).
Example C48_example : total_order by_half /\ report (lv_run (demo_lv 10) [LvSort by_half; LvAdd 9%N; LvAdd 5%N; LvAdd 8%N; LvAdd 4%N; LvAdd 5%N; LvAdd 1%N])
  = Some ([(1, true); (5, true); (4, true); (5, true); (9, true); (8, true)]%N, 6, None, 0).
Proof.
  split; [|vm_compute; reflexivity]. split; unfold by_half.
  - intros a b. apply N.compare_antisym.
  - intros a b c H1 H2. rewrite N.compare_gt_iff in *. lia.
Qed.

(** ** C47 List view lines are aligned *)

(** The list views one gets have their titles grouped by runs of equal titles; the cells are still made by the functions given. *)
Theorem C47_reachable : forall T area cols k (v0 v : ListView T) ops, lv_new area cols k = Ret v0 -> lv_run v0 ops = Ret v ->
  well_titled v /\ lv_skin v = k /\ map (@lc_title T) (columns v) = map (@lc_title T) cols /\ map (@extract T) (columns v) = map (@extract T) cols.
Proof.
  intros T area cols k v0 v ops H0 E. split; [eapply well_titled_run; eassumption|]. revert v E. induction ops as [|o ops IH] using rev_ind; intros v E.
  - injection E as <-. destruct (lv_new_spec area cols k) as (ts & E0 & _). rewrite E0 in H0. injection H0 as <-. auto.
  - apply run_snoc in E as (w & Ew & E). specialize (IH w Ew). apply titles_kept in E as (_ & E2 & E3 & E4). rewrite E2, E3, E4. exact IH.
Qed.
Print Assumptions C47_reachable.
(** A new list view never panics *)
Theorem C47_new : forall T area (cols : list (ListViewColumn T)) k, exists v, lv_new area cols k = Ret v
  /\ columns v = cols /\ rows v = [] /\ lv_area v = area /\ lv_scroll v = 0 /\ selection v = None /\ lv_ok v.
Proof.
  intros. destruct (lv_new_spec area cols k) as (ts & E & _). eexists. split; [exact E|]. cbn. repeat (split; [reflexivity|]). discriminate.
Qed.
Print Assumptions C47_new.

(** The cells made by [cell_new] are counted in chars, so that the rows of columns made with it are those [C47_row] tells about; a new
    column has its minimal width, and its title and cells are centered *)
Theorem C47_cell : forall T (cols : list (ListViewColumn T)) area k v0, lv_new area cols k = Ret v0 ->
  (forall c d, In c cols -> exists s cs, extract c d = cell_new s cs) -> cells_ok v0.
Proof.
  intros T cols area k v0 E H c d Hc. destruct (lv_new_spec area cols k) as (ts & E0 & _). rewrite E0 in E. injection E as <-.
  destruct (H c d Hc) as (s & cs & ->). reflexivity.
Qed.
Print Assumptions C47_cell.
Theorem C47_new_parts : forall T (t : str) m mx (ex : T -> ListViewCell) s cs a,
  con (cell_new s cs) = s /\ cell_style (cell_new s cs) = cs /\ cell_width (cell_new s cs) = length s
  /\ let c := column_new t m mx ex in
     lc_title c = t /\ lc_min c = m /\ lc_max c = mx /\ lc_width c = m /\ lc_align c = Center /\ extract c = ex
     /\ lc_align (with_align c a) = a /\ lc_title (with_align c a) = t /\ lc_min (with_align c a) = m /\ lc_max (with_align c a) = mx
     /\ lc_width (with_align c a) = m /\ extract (with_align c a) = ex.
Proof. intros. repeat split. Qed.
Print Assumptions C47_new_parts.
Example C47_new_parts_example : cell_width (cell_new [97; 98]%N cs_default) = 2.
Proof. reflexivity. Qed.

(** A row is as long as its columns and the separators; each cell is at its place, the separator being just before *)
Theorem C47_row : forall T (v : ListView T) selected d, cells_ok v ->
  let ws := widths_of (columns v) in
  let line := drawn (row_cmds v selected d) in
  length line = line_len ws
  /\ forall i c, nth_error (columns v) i = Some c ->
       let w := N.to_nat (lc_width c) in
       let cell := extract c d in
       cell_drawn (lc_align c) w (con cell) (if selected : bool then cs_set_bg (cell_style cell) (selection_background v) else cell_style cell) (sub line (col_start ws i) w)
       /\ (0 < i -> nth_error line (col_start ws i - 1) = Some (c_vbar, ls_cs (table (lv_skin v)))).
Proof.
  intros T v selected d Hc ws line. unfold line. rewrite row_drawn. set (f := fun c : ListViewColumn T => _).
  assert (Hf : forall c, In c (columns v) -> length (snd (f c)) = N.to_nat (lc_width c)
            /\ cell_drawn (lc_align c) (N.to_nat (lc_width c)) (con (extract c d)) (if selected then cs_set_bg (cell_style (extract c d)) (selection_background v) else cell_style (extract c d)) (snd (f c))).
  { intros c Hi. unfold f. cbn [snd]. rewrite (Hc c d Hi). unfold lc_spacing.
    destruct (write_str_drawn (N.to_nat (lc_width c)) (lc_align c) (con (extract c d)) (if selected then cs_set_bg (cell_style (extract c d)) (selection_background v) else cell_style (extract c d))) as [D1 D2].
    split; assumption. }
  assert (Hw : map (fun sp => length (snd sp)) (map f (columns v)) = ws).
  { rewrite map_map. apply map_ext_in. intros c Hi. apply Hf, Hi. }
  split; [apply pieces_len, Hw|]. intros i c Ei. assert (Hi : In c (columns v)) by (eapply nth_error_In, Ei).
  assert (Ef : nth_error (map f (columns v)) i = Some (fst (f c), snd (f c))) by (rewrite (map_nth_error f _ _ Ei); destruct (f c); reflexivity).
  destruct (pieces_at _ _ Hw Ef) as [P1 P2]. destruct (Hf c Hi) as [F1 F2]. rewrite F1 in P1. cbv zeta. rewrite P1. split; [exact F2|exact P2].
Qed.
Print Assumptions C47_row.
(** The separator line has the same length, and its crossings are at the places of the separators of the rows *)
Theorem C47_separator : forall T (v : ListView T), well_titled v ->
  let ws := widths_of (columns v) in
  let cs := ls_cs (table (lv_skin v)) in
  let same_title i := nth_error (map (@lc_title T) (columns v)) i = nth_error (map (@lc_title T) (columns v)) (i - 1) in
  exists out, separator_line v = Ret out /\ length (drawn out) = line_len ws
    /\ forall i, i < length (columns v) ->
         sub (drawn out) (col_start ws i) (nth i ws 0) = repeat (c_hbar, cs) (nth i ws 0)
         /\ (0 < i -> same_title i -> nth_error (drawn out) (col_start ws i - 1) = Some (c_tee, cs))
         /\ (0 < i -> ~ same_title i -> nth_error (drawn out) (col_start ws i - 1) = Some (c_cross, cs)).
Proof.
  intros T v Ht ws cs same_title. destruct (separator_line_eq Ht) as (out & E & D). exists out. split; [exact E|]. rewrite D.
  pose proof (rule_widths v) as Hw. fold ws in Hw. split; [apply pieces_len, Hw|]. intros i Li. rewrite <- (len_cols v) in Li.
  pose proof (rule_nth v Li) as En. destruct (pieces_at _ _ Hw En) as [P1 P2]. rewrite repeat_length in P1. split; [exact P1|].
  fold cs in P2. unfold same_title. set (tts := map (@lc_title T) (columns v)) in *.
  destruct (nth_error tts i) as [x|] eqn:E1; [|apply nth_error_None in E1; lia].
  destruct (nth_error tts (i - 1)) as [y|] eqn:E2; [|apply nth_error_None in E2; lia].
  split; intros Hi Hs; specialize (P2 Hi); rewrite (proj2 (Nat.ltb_lt 0 i) Hi) in P2; cbn [andb] in P2.
  - injection Hs as ->. rewrite (proj2 (str_eqb_spec y y) eq_refl) in P2. exact P2.
  - destruct (str_eqb x y) eqn:Eq; [|exact P2]. apply str_eqb_spec in Eq. congruence.
Qed.
Print Assumptions C47_separator.
(** The title line has the same length too. Each run of columns with the same title has this title centered over it, with a
    separator before, at the place of the one before its first column. *)
Theorem C47_title : forall T (v : ListView T), well_titled v -> headers (lv_skin v) <> [] ->
  let ws := widths_of (columns v) in
  let tts := map (@lc_title T) (columns v) in
  exists out, title_line v = Ret out /\ length (drawn out) = line_len ws
    /\ forall a b tt, title_run tts a b -> nth_error tts a = Some tt ->
         let w := col_start ws b - 1 - col_start ws a in
         cell_drawn Center w tt (ls_cs (nth 0 (headers (lv_skin v)) ls_default)) (sub (drawn out) (col_start ws a) w)
         /\ (0 < a -> nth_error (drawn out) (col_start ws a - 1) = Some (c_vbar, ls_cs (table (lv_skin v)))).
Proof.
  intros T v Ht Hh ws tts. destruct (@titles_at T v Hh _ _ Ht) as (cs & E & Lc & St & At). fold ws tts in St, At.
  unfold title_line. rewrite E, bind_ret. eexists. split; [reflexivity|]. set (bar := (c_vbar, ls_cs (table (lv_skin v)))).
  rewrite (@drawn_join _ _ bar) by reflexivity. rewrite join_pieces, map_map. set (l := map _ cs).
  assert (Hw : map (fun sp => length (snd sp)) l = map (fun c => length (drawn c)) cs) by (unfold l; rewrite map_map; reflexivity).
  split.
  - rewrite (pieces_len _ Hw). destruct cs as [|c cs].
    + destruct (titles v) as [|g gs] eqn:Eg; [|discriminate]. unfold well_titled in Ht. rewrite Eg in Ht. inversion Ht. unfold ws, widths_of. destruct (columns v); [reflexivity|discriminate].
    + destruct (titles v) as [|g gs] eqn:Eg; [discriminate|]. specialize (St ltac:(discriminate)).
      assert (Hne : ws <> []). { intros Hz. unfold ws, widths_of in Hz. apply map_eq_nil in Hz. unfold well_titled in Ht. rewrite Eg, Hz in Ht. inversion Ht; subst. cbn in *. lia. }
      rewrite (col_start_all Hne) in St. change (col_start ws 0) with 0 in St. rewrite sum_S in St. unfold line_len in *. cbn [map length] in *. lia.
  - intros a b tt Hr Ett. set (w := col_start ws b - 1 - col_start ws a). destruct (runs_complete Ht Hr ltac:(lia)) as (q & Eq). destruct (At q a b Eq (proj1 Hr)) as (tt' & c & F1 & F2 & F3 & F4 & F5).
    assert (tt' = tt) by congruence. subst tt'.
    assert (En : nth_error l q = Some (bar, drawn c)) by (unfold l; rewrite (map_nth_error _ _ _ F2); reflexivity).
    destruct (pieces_at _ _ Hw En) as [P1 P2]. assert (Ec : col_start (map (fun c => length (drawn c)) cs) q = col_start ws a).
    { change (col_start ws 0) with 0 in F5. rewrite <- F5, Nat.add_0_r. unfold col_start. rewrite firstn_map. reflexivity. }
    rewrite Ec in P1, P2. rewrite F4 in P1. replace w with (col_start ws b - col_start ws a - 1) by (unfold w; lia). rewrite P1. split; [exact F3|].
    intros Ha. apply P2. destruct q as [|q]; [|lia]. exfalso. change (0 = col_start ws a) in F5.
    assert (Hp : 0 < col_start ws a). { unfold col_start. destruct Hr as ((H1 & H2) & _). pose proof (len_ws v) as Lw. fold ws tts in Lw. destruct ws as [|w0 ws']; [cbn in Lw; lia|]. destruct a; [lia|]. cbn. lia. }
    lia.
Qed.
Print Assumptions C47_title.

(** In columns rather than chars: all lines have the same width as long as no char is wide (or null) *)
Definition narrow (u : unicode) (s : str) : Prop := Forall (fun c => chw u c = 1) s.
Lemma narrow_width u d : (forall x, In x d -> chw u (fst x) = 1) -> drawn_width u d = length d.
Proof. induction d as [|x d IH]; intros H; [reflexivity|]. rewrite width_cons, H by (left; reflexivity). rewrite IH by (intros; apply H; right; assumption). reflexivity. Qed.
Lemma cell_narrow u al w s cs d : chw u 32%N = 1 -> narrow u s -> cell_drawn al w s cs d -> forall x, In x d -> chw u (fst x) = 1.
Proof.
  intros Hsp Hs (t & -> & H1 & H2) x Hx. apply in_map_iff in Hx as (c & <- & Hc). cbn [fst]. unfold narrow in Hs. rewrite Forall_forall in Hs. destruct (Nat.le_gt_cases w (length s)) as [L|L].
  - rewrite (H1 L) in Hc. apply Hs. rewrite <- (firstn_skipn w s). apply in_or_app. left. exact Hc.
  - destruct (H2 L) as (lp & rp & _ & ->). apply in_app_or in Hc as [Hc|Hc]; [apply repeat_spec in Hc as ->; exact Hsp|].
    apply in_app_or in Hc as [Hc|Hc]; [apply Hs, Hc|apply repeat_spec in Hc as ->; exact Hsp].
Qed.
Lemma pieces_in A (l : list (A * list A)) x : In x (pieces l) -> exists sp, In sp l /\ (x = fst sp \/ In x (snd sp)).
Proof.
  intros H. assert (B : In x (body l)) by (destruct l as [|[s p] r]; [contradiction|right; exact H]).
  unfold body in B. apply in_flat_map in B as (sp & H1 & H2). exists sp. split; [exact H1|]. destruct H2 as [H2|H2]; auto.
Qed.
Theorem C47_printed_partial : forall T (v : ListView T) u selected d, well_titled v -> headers (lv_skin v) <> [] -> cells_ok v ->
  narrow u [32; c_vbar; c_tee; c_cross; c_hbar]%N ->
  (forall c, In c (columns v) -> narrow u (lc_title c) /\ narrow u (con (extract c d))) ->
  exists t s, title_line v = Ret t /\ separator_line v = Ret s
    /\ printed u t = line_len (widths_of (columns v)) /\ printed u s = line_len (widths_of (columns v))
    /\ printed u (row_cmds v selected d) = line_len (widths_of (columns v)).
Proof.
  intros T v u selected d Ht Hh Hc Hn Hcols. unfold narrow in Hn. rewrite Forall_forall in Hn. assert (Hsp : chw u 32%N = 1) by (apply Hn; cbn; tauto).
  destruct (C47_title Ht Hh) as (t & Et & Lt & _). destruct (C47_separator Ht) as (s & Es & Ls & _). destruct (C47_row selected d Hc) as (Lr & _). cbv zeta in Lr.
  exists t, s. split; [exact Et|]. split; [exact Es|]. unfold printed. split; [|split].
  - rewrite <- Lt. apply narrow_width. intros x Hx. destruct (@titles_at T v Hh _ _ Ht) as (cs & E & Lc & St & At).
    unfold title_line in Et. rewrite E, bind_ret in Et. apply Ret_inj in Et. subst t. rewrite (@drawn_join _ _ (c_vbar, ls_cs (table (lv_skin v)))) in Hx by reflexivity.
    rewrite join_pieces, map_map in Hx. apply pieces_in in Hx as (sp & H1 & H2). apply in_map_iff in H1 as (c & <- & Hc1). destruct H2 as [->|H2]; [apply Hn; cbn; tauto|]. cbn [snd] in H2.
    apply In_nth_error in Hc1 as (q & Eq). assert (Lq : q < length (titles v)) by (rewrite <- Lc; apply nth_error_Some; congruence).
    destruct (nth_error (titles v) q) as [g|] eqn:Eg; [|apply nth_error_None in Eg; lia].
    destruct (runs_sound Ht ltac:(lia) g (nth_error_In _ _ Eg)) as (a & b & -> & Hr & _). destruct (At q a b Eg (proj1 Hr)) as (tt & c' & F1 & F2 & F3 & _).
    assert (c' = c) by congruence. subst c'. eapply cell_narrow; [exact Hsp| |exact F3|exact H2].
    apply nth_error_In in F1. apply in_map_iff in F1 as (col & <- & Hcol). apply Hcols, Hcol.
  - rewrite <- Ls. apply narrow_width. intros x Hx. destruct (separator_line_eq Ht) as (s' & E' & D). rewrite E' in Es. apply Ret_inj in Es. subst s'. rewrite D in Hx.
    apply pieces_in in Hx as (sp & H1 & H2). apply in_map_iff in H1 as (j & <- & _). destruct H2 as [->|H2].
    + cbn [fst]. destruct (_ && _); apply Hn; cbn; tauto.
    + cbn [snd] in H2. apply repeat_spec in H2 as ->. apply Hn. cbn. tauto.
  - rewrite <- Lr. apply narrow_width. intros x Hx. rewrite row_drawn in Hx. apply pieces_in in Hx as (sp & H1 & H2). apply in_map_iff in H1 as (c & <- & Hi).
    destruct H2 as [->|H2]; [apply Hn; cbn; tauto|]. cbn [snd] in H2. rewrite (Hc c d Hi) in H2.
    eapply cell_narrow; [exact Hsp|apply (Hcols c Hi)|eapply proj1, write_str_drawn|exact H2].
Qed.
Print Assumptions C47_printed_partial.
(** With wide chars, the rows don't have the width of the separator line: cells are measured in chars *)
Theorem C47_wide_refuted : exists (v : ListView N) s d, well_titled v /\ cells_ok v /\ separator_line v = Ret s /\ printed demo (row_cmds v false d) <> printed demo s.
Proof.
  exists (demo_lv 10). eexists. exists 27010%N. split; [|split; [|split; [vm_compute; reflexivity|vm_compute; discriminate]]].
  - eapply (@well_titled_run N (mkArea 0 0 20 10) demo_cols skin_default _ _ []); [|reflexivity]. vm_compute. reflexivity.
  - intros c d Hc. vm_compute in Hc. destruct Hc as [<-|[<-|[<-|[]]]]; reflexivity.
Qed.
Print Assumptions C47_wide_refuted.
Example C47_example :
  match title_line (demo_lv 10), separator_line (demo_lv 10) with
  | Ret t, Ret s => (map fst (drawn t), map fst (drawn s), map fst (drawn (row_cmds (demo_lv 10) true 48%N))) | _, _ => ([], [], []) end
  = ([65; 66; 9474; 32; 32; 67; 32; 32]%N, [9472; 9472; 9532; 9472; 9516; 9472; 9472; 9472]%N, [48; 49; 9474; 48; 9474; 48; 45; 48]%N).
Proof. vm_compute. reflexivity. Qed.
Example C47_example_run : title_run (map (@lc_title N) demo_cols) 1 3.
Proof.
  split; [cbn; lia|]. split; [|split; [discriminate|cbn; lia]]. intros i Hi. assert (i = 1 \/ i = 2) as [->| ->] by lia; reflexivity.
Qed.

(** ** C70 A list view is drawn in its area *)

(** The title and the separator are on the two first lines. Then come the displayed rows from the scroll, as many as there are lines, the
    selected one being marked. The lines without row are cleared. The scrollbar is drawn at the end of the lines. *)
Theorem C70_drawn : forall T (v : ListView T) sb, well_titled v -> headers (lv_skin v) <> [] ->
  let a := lv_area v in
  (a_left a + a_width a < U16)%N -> (a_top a + 1 < U16)%N -> (a_top a + a_height a <= U16)%N ->
  lv_scroll v <= length (rows v) -> lv_scrollbar v = Ret sb ->
  exists title sep, title_line v = Ret title /\ separator_line v = Ret sep
  /\ lv_write_on v = Ret (MoveTo (a_left a) (a_top a) :: title ++ MoveTo (a_left a) (a_top a + 1)%N :: sep
       ++ flat_map (fun j =>
            MoveTo (a_left a) (a_top a + 2 + N.of_nat j)%N
            :: match nth_error (seen_rows v) j with
               | Some i => match nth_error (rows v) i with
                           | Some r => row_cmds v (match selection v with Some s => s =? i | None => false end) (data r)
                           | None => []
                           end
               | None => [ClearUntilNewLine]
               end
            ++ match sb with
               | Some (t, b) => MoveTo (a_left a + a_width a)%N (a_top a + 2 + N.of_nat j)%N
                                :: sc_queue (if ((t <=? N.of_nat j) && (N.of_nat j <=? b))%N then thumb (scrollbar (lv_skin v)) else track (scrollbar (lv_skin v)))
               | None => []
               end) (seq 0 (N.to_nat (a_height a) - 2))).
Proof.
  intros T v sb Ht Hh a H1 H2 H3 Hs Hsb. destruct (C47_title Ht Hh) as (t & Et & _). destruct (C47_separator Ht) as (s & Es & _).
  exists t, s. split; [exact Et|]. split; [exact Es|]. unfold lv_write_on. fold a. unfold add16 at 1. rewrite (proj2 (N.ltb_lt _ _) H1), bind_ret, Et, bind_ret.
  unfold add16 at 1. rewrite (proj2 (N.ltb_lt _ _) H2), bind_ret, Es, bind_ret, Hsb, bind_ret.
  set (n := N.to_nat (a_height a) - 2).
  destruct n as [|n'] eqn:En; [cbn; rewrite app_nil_r; reflexivity|].
  pose proof (@row_lines_spec T v (a_left a + a_width a)%N sb (S n') 0 (lv_scroll v)) as R. cbn [N.of_nat] in R. fold a in R. change (2 + 0)%N with 2%N in R. rewrite R by (try exact Hs; lia).
  rewrite bind_ret. f_equal. f_equal. f_equal. f_equal. f_equal. rewrite !flat_map_concat_map. f_equal. apply map_ext_in. intros j Hj. apply in_seq in Hj.
  unfold line_out. fold a. cbn [Nat.add]. apply f_equal. assert (E : nth_error (seen_rows v) j = nth_error (later v (lv_scroll v)) j).
  { unfold seen_rows. fold a. fold (later v (lv_scroll v)). fold n. rewrite En. clear - Hj. revert j Hj. generalize (S n'). generalize (later v (lv_scroll v)).
    intros l. induction l as [|x l IH]; intros [|n] j Hj; try lia; [destruct j; reflexivity|]. destruct j as [|j]; [reflexivity|]. cbn. apply IH. lia. }
  rewrite E. apply f_equal2; [unfold row_out; destruct (nth_error (later v (lv_scroll v)) j); reflexivity|].
  unfold bar_out. fold a. destruct sb as [[t0 b0]|]; [|reflexivity]. cbn [app]. destruct (_ && _); reflexivity.
Qed.
Print Assumptions C70_drawn.
(** The selected row is marked: every char of it has the background of the selection, whatever the terminal had before; only the separators
    may have another one, when the skin gives it. Every char of the other rows has its own background. *)
Theorem C70_row_marked : forall T (v : ListView T) cur d,
  grounds cur (row_cmds v true d)
    = map (fun x => match bg (snd x) with Some b => Some b | None => Some (selection_background v) end) (drawn (row_cmds v true d))
  /\ (bg (ls_cs (table (lv_skin v))) = None -> Forall (fun b => b = Some (selection_background v)) (grounds cur (row_cmds v true d)))
  /\ grounds None (row_cmds v false d) = map (fun x => bg (snd x)) (drawn (row_cmds v false d)).
Proof.
  intros T v cur d.
  assert (W : forall sp s w cs, exists t, write_counted_str sp s w cs = [Styled cs t]).
  { intros. unfold write_counted_str, cs_queue. destruct (_ <=? _); [eexists; reflexivity|]. destruct (completions_for sp w). eexists; reflexivity. }
  assert (A : forall cur0, grounds cur0 (row_cmds v true d)
    = map (fun x => match bg (snd x) with Some b => Some b | None => Some (selection_background v) end) (drawn (row_cmds v true d))).
  { unfold row_cmds. induction (columns v) as [|c l IH]; intros cur0; [reflexivity|].
    cbn [map join]. destruct (W (lc_spacing c) (con (extract c d)) (cell_width (extract c d)) (cs_set_bg (cell_style (extract c d)) (selection_background v))) as (t & ->).
    cbn [app grounds drawn flat_map]. unfold cs_set_bg at 1 2. cbn [bg]. rewrite map_app, map_map. f_equal.
    destruct l as [|c2 l]; [reflexivity|]. cbn [map] in *. cbn [app sc_queue sc_new sc_cache fst snd grounds drawn flat_map map].
    apply f_equal. apply IH. }
  split; [apply A|]. split.
  - intros Hb. rewrite A. apply Forall_map. rewrite Forall_forall. intros [ch cs] Hi. cbn [snd].
    assert (bg cs = Some (selection_background v) \/ bg cs = None) as [->| ->]; [|reflexivity..]. revert Hi. clear A. unfold row_cmds. induction (columns v) as [|c l IH]; [intros []|].
    cbn [map join]. destruct (W (lc_spacing c) (con (extract c d)) (cell_width (extract c d)) (cs_set_bg (cell_style (extract c d)) (selection_background v))) as (t & ->).
    cbn [app drawn flat_map]. rewrite in_app_iff, in_map_iff. intros [(x & Ex & _)|Hi]; [injection Ex as _ <-; left; reflexivity|].
    destruct l as [|c2 l]; [destruct Hi|]. cbn [map] in *. cbn [app sc_queue sc_new sc_cache fst snd flat_map map] in Hi. destruct Hi as [Ex|Hi]; [injection Ex as _ <-; right; exact Hb|exact (IH Hi)].
  - assert (Z : forall cs : CStyle, match bg cs with Some _ => None | None => if N.eqb (attrs cs) 0 then None else None end = @None Color).
    { intros cs. destruct (bg cs); [reflexivity|]. destruct (N.eqb (attrs cs) 0); reflexivity. }
    unfold row_cmds. clear A. induction (columns v) as [|c l IH]; [reflexivity|]. cbn [map join].
    destruct (W (lc_spacing c) (con (extract c d)) (cell_width (extract c d)) (cell_style (extract c d))) as (t & ->).
    cbn [app grounds drawn flat_map]. rewrite map_app, map_map. cbn [snd].
    replace (match bg (cell_style (extract c d)) with Some b => Some b | None => None end) with (bg (cell_style (extract c d))) by (destruct (bg _); reflexivity). f_equal.
    rewrite Z.
    destruct l as [|c2 l]; [reflexivity|]. cbn [map] in *. cbn [app sc_queue sc_new sc_cache fst snd grounds drawn flat_map map].
    apply f_equal2; [destruct (bg (ls_cs (table (lv_skin v)))); reflexivity|].
    rewrite Z. exact IH.
Qed.
Print Assumptions C70_row_marked.
(** Drawing panics only because of the coordinates, of a wrong scroll (see [C45_in_rows]) or of the scrollbar *)
Theorem C70_scrollbar_no_panic : forall T (v : ListView T),
  lv_scroll v <= displayed_rows_count v -> (N.of_nat (displayed_rows_count v) < U16)%N -> (a_top (lv_area v) + 2 * a_height (lv_area v) + 1 < U16)%N ->
  exists sb, lv_scrollbar v = Ret sb /\ (sb = None <-> displayed_rows_count v <= tbody_height v).
Proof.
  intros T v Hs Hd Ht. unfold lv_scrollbar. rewrite !N.mod_small by lia. set (s := N.of_nat (lv_scroll v)). set (c := N.of_nat (displayed_rows_count v)). 
  assert (Hh : (tbody_height16 v <= a_height (lv_area v))%N) by (unfold tbody_height16; destruct (N.ltb_spec 2 (a_height (lv_area v))); lia).
  unfold tbody_height. set (h := tbody_height16 v) in *. rewrite compute_scrollbar_eq.
  destruct (N.leb_spec c h) as [L|L]; [exists None; split; [reflexivity|]; split; [intros _; lia|reflexivity]|].
  assert (Hc : (0 < c)%N) by lia. assert (B1 : (s * h / c <= h)%N) by (apply N.div_le_upper_bound; [lia|]; subst s c; nia).
  assert (B2 : (h * h / c <= h)%N) by (apply N.div_le_upper_bound; [lia|]; nia).
  assert (B3 : (tb_of s c h <= h + 1)%N) by (unfold tb_of; cbv zeta; destruct (_ && _); lia).
  assert (B4 : (bot_of s c h (a_top (lv_area v)) < U16)%N).
  { unfold bot_of. assert (B5 : (a_top (lv_area v) + tb_of s c h + h * h / c < U16)%N).
    { destruct (N.eq_dec h 0) as [Hz|Hz]; [rewrite Hz in *; rewrite N.mul_0_l in *; destruct (0 / c)%N eqn:Z0; lia|].
      assert (B6 : (h * h / c < h)%N) by (apply N.div_lt_upper_bound; [lia|]; nia). lia. }
    destruct (_ && _); lia. }
  exists (Some ((a_top (lv_area v) + tb_of s c h)%N, bot_of s c h (a_top (lv_area v)))). rewrite (proj2 (N.ltb_lt _ _)) by lia. rewrite (proj2 (N.ltb_lt _ _) B4).
  split; [reflexivity|]. split; [discriminate|lia].
Qed.
Print Assumptions C70_scrollbar_no_panic.
Definition demo_drawn : ListView N := match lv_run (match lv_new (mkArea 3 0 12 5) demo_cols skin_default with Ret v => v | _ => demo_lv 0 end) (abc 4 ++ [LvFilter (fun n => negb (n =? 98)%N); LvLast]) with Ret v => v | _ => demo_lv 0 end.
Example C70_example : lv_scroll demo_drawn = 0 /\ seen_rows demo_drawn = [0; 2; 3] /\ lv_scrollbar demo_drawn = Ret None
  /\ match lv_write_on demo_drawn with
     | Ret out => List.filter (fun c => match c with MoveTo _ _ => true | _ => false end) out = [MoveTo 3 0; MoveTo 3 1; MoveTo 3 2; MoveTo 3 3; MoveTo 3 4]%N
     | _ => False end.
Proof. vm_compute. auto. Qed.
Example C70_row_marked_example : columns demo_drawn <> [] /\ bg (ls_cs (table (lv_skin demo_drawn))) = None
  /\ Forall (fun b => b = Some (selection_background demo_drawn)) (grounds (Some (gray 3)) (row_cmds demo_drawn true 97%N)) /\ 5 < length (drawn (row_cmds demo_drawn true 97%N)).
Proof. split; [vm_compute; discriminate|]. split; [reflexivity|]. split; [apply C70_row_marked; reflexivity|vm_compute; lia]. Qed.
(** The scrollbar is out of the area *)
Theorem C70_column_refuted : exists (v : ListView N) out x y, lv_write_on v = Ret out /\ In (MoveTo x y) out /\ ~ (x < a_left (lv_area v) + a_width (lv_area v))%N.
Proof.
  exists (match lv_run (demo_lv 6) (abc 9) with Ret v => v | _ => demo_lv 0 end). eexists. exists 20%N, 2%N. split; [vm_compute; reflexivity|]. split; [|vm_compute; discriminate].
  repeat (first [left; reflexivity|right]).
Qed.
Print Assumptions C70_column_refuted.
(** So is the separator line when the height is 1 *)
Theorem C70_height_refuted : exists (v : ListView N) out x y, lv_write_on v = Ret out /\ In (MoveTo x y) out /\ ~ (y < a_top (lv_area v) + a_height (lv_area v))%N.
Proof.
  exists (demo_lv 1). eexists. exists 0%N, 1%N. split; [vm_compute; reflexivity|]. split; [|vm_compute; discriminate].
  repeat (first [left; reflexivity|right]).
Qed.
Print Assumptions C70_height_refuted.
(** The place of the thumb counts the top of the area twice: with an area which isn't at the top of the screen, there may be no thumb *)
Theorem C70_thumb_refuted : exists (v : ListView N) t b out, lv_scrollbar v = Ret (Some (t, b)) /\ lv_write_on v = Ret out
  /\ forall c, In c out -> ~ In c (sc_queue (thumb (scrollbar (lv_skin v)))).
Proof.
  exists (match lv_new (mkArea 0 10 20 8) demo_cols (let k := skin_default in mkSkin (paragraph k) (bold k) (italic k) (strikeout k) (inline_code k) (code_block k) (headers k)
     (mkSB (sc_nude 46%N) (sc_nude 35%N)) (table k) (bullet k) (quote_mark k) (horizontal_rule k) (ellipsis k) (table_border_chars k) (indent_mode k)) with
     | Ret v => match lv_run v (abc 12) with Ret v => v | _ => v end | _ => demo_lv 0 end).
  eexists. eexists. eexists. split; [vm_compute; reflexivity|]. split; [vm_compute; reflexivity|].
  match goal with |- forall c, In c ?out -> _ => assert (F : forallb (fun c => match c with Styled _ s => negb (str_eqb s [35%N]) | _ => true end) out = true) by (vm_compute; reflexivity) end.
  rewrite forallb_forall in F. intros c Hc Hq. specialize (F c Hc). vm_compute in Hq. destruct Hq as [<-|[]]. discriminate F.
Qed.
Print Assumptions C70_thumb_refuted.
(** With a filter, the scrollbar mixes an index among all rows with a number of displayed ones: the thumb is below its track *)
Theorem C70_filter_refuted : exists ops v t b, lv_run (demo_lv 7) ops = Ret v /\ lv_scrollbar v = Ret (Some (t, b)) /\ ~ (t < a_top (lv_area v) + a_height (lv_area v))%N.
Proof.
  exists (abc 40 ++ [LvFilter (fun n => (110 <? n)%N && (N.even n || N.eqb n 127))%N; LvLast]). eexists. eexists. eexists. split; [vm_compute; reflexivity|].
  split; [vm_compute; reflexivity|vm_compute; discriminate].
Qed.
Print Assumptions C70_filter_refuted.
