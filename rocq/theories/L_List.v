(** * Lemmas on list views *)
From Verif Require Import Base L_Base M_Style M_Fit M_View L_View S_Fit L_Fit M_Render S_Render L_Render M_List S_List.
Set Implicit Arguments.
Open Scope nat_scope.

(** ** Search *)
Lemma first_displayed_spec T (v : ListView T) cands : (forall i, In i cands -> i < length (rows v)) ->
  match first_displayed (rows v) cands with
  | Ret None => forall i, In i cands -> is_hidden v i
  | Ret (Some i) => exists d, nth_error cands d = Some i /\ is_displayed v i /\ forall d' j, d' < d -> nth_error cands d' = Some j -> is_hidden v j
  | _ => False
  end.
Proof.
  induction cands as [|c cands IH]; intros H; cbn [first_displayed]; [intros i []|].
  destruct (@idx_lt _ (rows v) c (H c (or_introl eq_refl))) as [r Er]. rewrite Er, bind_ret. apply idx_inv in Er.
  destruct (displayed r) eqn:Ed.
  - exists 0. split; [reflexivity|]. split; [exists r; auto|]. intros; lia.
  - specialize (IH ltac:(intros; apply H; right; assumption)). destruct (first_displayed (rows v) cands) as [[i|]| |]; try exact IH.
    + destruct IH as (d & E & Hd & Hm). exists (S d). split; [exact E|]. split; [exact Hd|]. intros [|d'] j L Ej; [cbn in Ej; injection Ej as <-; exists r; auto|].
      apply (Hm d'); [lia|exact Ej].
    + intros i [<-|Hi]; [exists r; auto|apply IH, Hi].
Qed.
Lemma not_both T (v : ListView T) i : is_hidden v i -> is_displayed v i -> False.
Proof. intros (r & E & H) (r' & E' & H'). congruence. Qed.
Lemma displayed_exists T (rs : list (Row T)) : 0 < length (List.filter (@displayed T) rs) -> exists i r, nth_error rs i = Some r /\ displayed r = true.
Proof.
  induction rs as [|r rs IH]; cbn; [lia|]. destruct (displayed r) eqn:E; [intros _; exists 0, r; auto|].
  intros H. destruct (IH H) as (i & r' & H1 & H2). exists (S i), r'. auto.
Qed.
Lemma displayed_unique T (rs : list (Row T)) i j r s : length (List.filter (@displayed T) rs) = 1 ->
  nth_error rs i = Some r -> displayed r = true -> nth_error rs j = Some s -> displayed s = true -> i = j.
Proof.
  assert (H0 : forall rs : list (Row T), length (List.filter (@displayed T) rs) = 0 -> forall i r, nth_error rs i = Some r -> displayed r = true -> False).
  { induction rs0 as [|x rs0 IH]; intros H k r0 E D; [destruct k; discriminate|]. cbn in H. destruct (displayed x) eqn:Ex; [discriminate|].
    destruct k; cbn in E; [congruence|]. eapply IH; eassumption. }
  revert i j. induction rs as [|x rs IH]; intros i j H E D E' D'; [destruct i; discriminate|]. cbn in H. destruct (displayed x) eqn:Ex.
  - cbn in H. assert (H' : length (List.filter (@displayed T) rs) = 0) by lia. destruct i, j; auto; cbn in E, E'; exfalso; eapply H0; eauto.
  - destruct i, j; cbn in E, E'; try congruence. f_equal. eapply IH; eassumption.
Qed.

(** ** Making the selection visible *)
Lemma msv_same T (v v' : ListView T) : make_selection_visible v = Ret v' -> exists s, v' = with_scroll v s.
Proof.
  unfold make_selection_visible. destruct (_ <=? _); [intros E; injection E as <-; exists (lv_scroll v); destruct v; reflexivity|].
  destruct (selection v) as [sel|]; [|intros E; injection E as <-; exists (lv_scroll v); destruct v; reflexivity].
  destruct (sel <=? lv_scroll v); [intros E; injection E as <-; eexists; reflexivity|].
  destruct (_ <=? _); [|intros E; injection E as <-; exists (lv_scroll v); destruct v; reflexivity].
  intros E. apply bind_Ret_inv in E as (m & _ & E). injection E as <-. eexists. reflexivity.
Qed.

(** ** Sorting *)
Lemma insert_perm A (cmp : A -> A -> comparison) a l : Permutation (a :: l) (sort_insert cmp a l).
Proof.
  induction l as [|b l IH]; cbn; [constructor; constructor|]. destruct (cmp a b); try apply Permutation_refl.
  eapply perm_trans; [apply perm_swap|]. constructor. exact IH.
Qed.
Lemma sort_perm A (cmp : A -> A -> comparison) l : Permutation l (sort_by cmp l).
Proof. induction l as [|a l IH]; cbn; [constructor|]. eapply perm_trans; [constructor; exact IH|]. apply insert_perm. Qed.
Lemma insert_sorted A (cmp : A -> A -> comparison) a l : total_order cmp -> ordered cmp l -> ordered cmp (sort_insert cmp a l).
Proof.
  intros [Hs Ht]. induction 1 as [|b l Hl IH Hb]; cbn; [constructor; constructor|]. destruct (cmp a b) eqn:E.
  - constructor; [constructor; assumption|]. constructor; [congruence|]. eapply Forall_impl; [|exact Hb]. intros c Hc. apply (Ht a b c); congruence.
  - constructor; [constructor; assumption|]. constructor; [congruence|]. eapply Forall_impl; [|exact Hb]. intros c Hc. apply (Ht a b c); congruence.
  - constructor; [exact IH|]. rewrite Forall_forall in *. intros c Hc. apply (Permutation_in _ (Permutation_sym (insert_perm cmp a l))) in Hc.
    destruct Hc as [<-|Hc]; [rewrite Hs, E; discriminate|apply Hb, Hc].
Qed.
Lemma sort_sorted A (cmp : A -> A -> comparison) l : total_order cmp -> ordered cmp (sort_by cmp l).
Proof. intros H. induction l as [|a l IH]; cbn; [constructor|]. apply insert_sorted; assumption. Qed.
Lemma insert_stable A (cmp : A -> A -> comparison) a l : total_order cmp -> stable cmp (a :: l) (sort_insert cmp a l).
Proof.
  intros [Hs Ht] x. induction l as [|b l IH]; [reflexivity|]. cbn [sort_insert]. destruct (cmp a b) eqn:E; [reflexivity|reflexivity|].
  cbn [List.filter] in *. rewrite <- IH. destruct (same_as cmp x a) eqn:Ea; destruct (same_as cmp x b) eqn:Eb; try reflexivity.
  unfold same_as in *. destruct (cmp x a) eqn:Ca; try discriminate. destruct (cmp x b) eqn:Cb; try discriminate.
  exfalso. apply (Ht a x b) in E; [exact E| |congruence]. rewrite Hs, Ca. discriminate.
Qed.
Lemma sort_stable A (cmp : A -> A -> comparison) l : total_order cmp -> stable cmp l (sort_by cmp l).
Proof.
  intros H. induction l as [|a l IH]; intros x; [reflexivity|]. change (sort_by cmp (a :: l)) with (sort_insert cmp a (sort_by cmp l)).
  rewrite <- (insert_stable a (sort_by cmp l) H x). cbn [List.filter]. rewrite <- (IH x). reflexivity.
Qed.
Lemma filter_len_perm A (f : A -> bool) l l' : Permutation l l' -> length (List.filter f l) = length (List.filter f l').
Proof. induction 1; cbn; try congruence; [destruct (f x); cbn; congruence|destruct (f y), (f x); reflexivity]. Qed.
Lemma sort_app_one A (cmp : A -> A -> comparison) a l : total_order cmp -> ordered cmp l ->
  exists l1 l2, l = l1 ++ l2 /\ sort_by cmp (l ++ [a]) = l1 ++ a :: l2
    /\ Forall (fun x => cmp x a <> Gt) l1 /\ Forall (fun x => cmp x a = Gt) l2.
Proof.
  intros [Hs Ht]. induction 1 as [|b l Hl IH Hb]; [exists [], []; repeat split; constructor|].
  destruct IH as (l1 & l2 & E & Es & H1 & H2). change (sort_by cmp ((b :: l) ++ [a])) with (sort_insert cmp b (sort_by cmp (l ++ [a]))).
  rewrite Es. destruct l1 as [|x l1]; cbn [app sort_insert].
  - cbn in E. subst l2. destruct (cmp b a) eqn:E.
    + exists [b], l. repeat split; auto. constructor; [congruence|constructor].
    + exists [b], l. repeat split; auto. constructor; [congruence|constructor].
    + exists [], (b :: l). split; [reflexivity|]. split; [|split; [constructor|constructor; assumption]]. cbn. f_equal.
      destruct l as [|c l]; [reflexivity|]. cbn. inversion Hb; subst. destruct (cmp b c); congruence.
  - subst l. inversion Hb; subst. inversion H1; subst. exists (b :: x :: l1), l2. split; [reflexivity|]. split.
    + destruct (cmp b x); cbn; congruence.
    + split; [|exact H2]. constructor; [|exact H1]. apply (Ht b x a); assumption.
Qed.

(** ** Rows seen *)
Lemma seen_in f s m n sel : s <= sel < s + m -> f sel = true -> length (List.filter f (seq s (sel - s))) < n -> In sel (firstn n (List.filter f (seq s m))).
Proof.
  intros H Hf Hn. replace m with ((sel - s) + (1 + (s + m - sel - 1))) by lia. rewrite seq_app, filter_app, seq_app, filter_app.
  replace (s + (sel - s)) with sel by lia. cbn [seq List.filter]. rewrite Hf.
  rewrite firstn_app. apply in_or_app. right. destruct (n - _) eqn:E; [lia|]. left. reflexivity.
Qed.
Lemma filter_len_le A (f : A -> bool) l : length (List.filter f l) <= length l.
Proof. induction l as [|a l IH]; cbn; [lia|]. destruct (f a); cbn; lia. Qed.
Lemma filter_seq_shift (f : nat -> bool) a n s : length (List.filter f (seq (s + a) n)) = length (List.filter (fun i => f (i + a)) (seq s n)).
Proof. revert s. induction n as [|n IH]; intros s; cbn; [reflexivity|]. specialize (IH (S s)). cbn [Nat.add] in IH. destruct (f (s + a)); cbn; rewrite IH; reflexivity. Qed.
Lemma filter_seq_rows T (rs : list (Row T)) :
  length (List.filter (fun i => match nth_error rs i with Some r => displayed r | None => false end) (seq 0 (length rs))) = length (List.filter (@displayed T) rs).
Proof.
  induction rs as [|r rs IH]; [reflexivity|]. cbn [length seq List.filter nth_error].
  pose proof (filter_seq_shift (fun i => match nth_error (r :: rs) i with Some r => displayed r | None => false end) 1 (length rs) 0) as F. cbn [Nat.add] in F.
  assert (F2 : length (List.filter (fun i => match nth_error (r :: rs) (i + 1) with Some r => displayed r | None => false end) (seq 0 (length rs)))
          = length (List.filter (fun i => match nth_error rs i with Some r => displayed r | None => false end) (seq 0 (length rs)))).
  { f_equal. apply filter_ext. intros i. rewrite Nat.add_1_r. reflexivity. }
  rewrite F2, IH in F. destruct (displayed r); cbn [length]; rewrite F; reflexivity.
Qed.

(** ** Histories *)
Lemma run_app T (v : ListView T) a b : lv_run v (a ++ b) = (v' <- lv_run v a ;; lv_run v' b).
Proof. revert v. induction a as [|o a IH]; intros v; cbn; [reflexivity|]. destruct (lv_apply v o); cbn; auto. Qed.
Lemma run_snoc T (v v' : ListView T) ops o : lv_run v (ops ++ [o]) = Ret v' -> exists w, lv_run v ops = Ret w /\ lv_apply w o = Ret v'.
Proof.
  rewrite run_app. intros E. apply bind_Ret_inv in E as (w & E1 & E2). exists w. split; [exact E1|]. cbn in E2.
  apply bind_Ret_inv in E2 as (x & E2 & E3). congruence.
Qed.
Lemma given_snoc T (ops : list (lv_op T)) o :
  given (ops ++ [o]) = match o with LvAdd d => given ops ++ [d] | LvClear => [] | _ => given ops end.
Proof. unfold given. rewrite fold_left_app. reflexivity. Qed.
Lemma current_filter_snoc T (ops : list (lv_op T)) o :
  current_filter (ops ++ [o]) = match o with LvFilter f => f | LvNoFilter => fun _ => true | _ => current_filter ops end.
Proof. unfold current_filter. rewrite fold_left_app. reflexivity. Qed.
Lemma current_order_snoc T (ops : list (lv_op T)) o :
  current_order (ops ++ [o]) = match o with LvSort f => Some f | _ => current_order ops end.
Proof. unfold current_order. rewrite fold_left_app. reflexivity. Qed.

(** The operations which change neither the rows nor the settings *)
Definition nav {T} (o : lv_op T) : Prop :=
  match o with LvAdd _ | LvClear | LvFilter _ | LvNoFilter | LvSort _ | LvArea _ | LvDimensions => False | _ => True end.
Lemma same_trans T (a b c : ListView T) : same_rows a b -> same_rows b c -> same_rows a c.
Proof. intros (s & sel & ->) (s' & sel' & ->). exists s', sel'. reflexivity. Qed.
Lemma same_refl T (v : ListView T) : same_rows v v.
Proof. exists (lv_scroll v), (selection v). destruct v; reflexivity. Qed.
Lemma same_sel T (v : ListView T) s : same_rows v (with_selection v s).
Proof. exists (lv_scroll v), s. destruct v; reflexivity. Qed.
Lemma same_scroll T (v : ListView T) s : same_rows v (with_scroll v s).
Proof. exists s, (selection v). destruct v; reflexivity. Qed.
Lemma msv_rows T (v v' : ListView T) : make_selection_visible v = Ret v' -> same_rows v v'.
Proof. intros E. apply msv_same in E as (s & ->). apply same_scroll. Qed.
Lemma nav_same T (v v' : ListView T) o : nav o -> lv_apply v o = Ret v' -> same_rows v v'.
Proof.
  destruct o; cbn; intros []; intros E.
  - unfold try_select_next in E. destruct (_ =? 0); [injection E as <-; apply same_refl|]. apply bind_Ret_inv in E as ([i|] & _ & E).
    + eapply same_trans; [apply same_sel|apply (msv_rows _ E)].
    + destruct (_ =? 0); [injection E as <-; apply same_refl|]. destruct (selection v); [|discriminate]. apply bind_Ret_inv in E as ([i|] & _ & E).
      * eapply same_trans; [apply same_sel|apply (msv_rows _ E)].
      * injection E as <-; apply same_refl.
  - unfold select_first_line in E. apply bind_Ret_inv in E as ([i|] & _ & E); [eapply same_trans; [apply same_sel|apply (msv_rows _ E)]|injection E as <-; apply same_sel].
  - unfold select_last_line in E. apply bind_Ret_inv in E as ([i|] & _ & E); [eapply same_trans; [apply same_sel|apply (msv_rows _ E)]|injection E as <-; apply same_sel].
  - injection E as <-. apply same_sel.
  - unfold lv_try_scroll_lines in E. apply bind_Ret_inv in E as (w & E1 & E). eapply same_trans; [|apply (msv_rows _ E)].
    destruct (n <? 0)%Z; apply bind_Ret_inv in E1 as (m & _ & E1); injection E1 as <-; apply same_scroll.
  - unfold lv_try_scroll_pages in E. apply bind_Ret_inv in E as (k & _ & E). unfold lv_try_scroll_lines in E. apply bind_Ret_inv in E as (w & E1 & E). eapply same_trans; [|apply (msv_rows _ E)].
    destruct (k <? 0)%Z; apply bind_Ret_inv in E1 as (m & _ & E1); injection E1 as <-; apply same_scroll.
  - injection E as <-. apply same_scroll.
  - apply (msv_rows _ E).
Qed.

(** ** Selecting *)
Lemma mod_cover len a j : j < len -> exists i, i < len /\ (i + a) mod len = j.
Proof.
  intros H. exists ((j + (len - a mod len)) mod len). split; [apply Nat.mod_upper_bound; lia|].
  rewrite Nat.add_mod_idemp_l by lia. rewrite <- (Nat.add_mod_idemp_r _ a) by lia.
  pose proof (Nat.mod_upper_bound a len ltac:(lia)). replace (j + (len - a mod len) + a mod len) with (j + 1 * len) by lia.
  rewrite Nat.mod_add by lia. apply Nat.mod_small, H.
Qed.
Lemma seq_nth_error s len d : d < len -> nth_error (seq s len) d = Some (s + d).
Proof. intros H. rewrite (nth_error_nth' _ 0) by (rewrite seq_length; lia). rewrite seq_nth by lia. reflexivity. Qed.
Lemma map_seq_nth (f : nat -> nat) len d : d < len -> nth_error (map f (seq 0 len)) d = Some (f d).
Proof. intros H. apply (map_nth_error f). rewrite seq_nth_error by assumption. reflexivity. Qed.
Lemma nth_map_seq (f : nat -> nat) len d j : nth_error (map f (seq 0 len)) d = Some j -> d < len /\ j = f d.
Proof.
  intros E. assert (H : d < length (map f (seq 0 len))) by (apply nth_error_Some; rewrite E; discriminate).
  rewrite map_length, seq_length in H. split; [exact H|]. rewrite map_seq_nth in E by exact H. congruence.
Qed.

(** Searching among all the rows *)
Lemma search T (v : ListView T) (f : nat -> nat) : lv_ok v -> displayed_rows_count v <> 0 ->
  (forall i, i < length (rows v) -> f i < length (rows v)) -> (forall j, j < length (rows v) -> exists i, i < length (rows v) /\ f i = j) ->
  exists d, d < length (rows v) /\ is_displayed v (f d) /\ (forall d', d' < d -> is_hidden v (f d'))
    /\ first_displayed (rows v) (map f (seq 0 (length (rows v)))) = Ret (Some (f d)).
Proof.
  intros [Hc _] Hn Hr Hcov. assert (Hin : forall i, In i (map f (seq 0 (length (rows v)))) -> i < length (rows v)).
  { intros i Hi. apply in_map_iff in Hi as (x & <- & Hx). apply in_seq in Hx. apply Hr. lia. }
  pose proof (first_displayed_spec v _ Hin) as F. destruct (first_displayed _ _) as [[i|]| |]; try contradiction.
  - destruct F as (d & E & Hd & Hm). apply nth_map_seq in E as (Ld & ->). exists d. split; [exact Ld|]. split; [exact Hd|]. split; [|reflexivity].
    intros d' L. apply (Hm d'); [exact L|]. apply map_seq_nth. lia.
  - destruct (displayed_exists (rows v)) as (j & r & E & D); [rewrite <- Hc; lia|].
    assert (Lj : j < length (rows v)) by (apply nth_error_Some; congruence). destruct (Hcov j Lj) as (i & Li & <-).
    exfalso. apply (@not_both _ v (f i)); [|exists r; auto]. apply F. apply in_map_iff. exists i. split; [reflexivity|]. apply in_seq. lia.
Qed.
Definition from_scroll {T} (v : ListView T) d := (lv_scroll v + d) mod length (rows v).
Definition from_sel {T} (v : ListView T) (up : bool) sel d := (if up then sel + (length (rows v) - d) else sel + d) mod length (rows v).
Lemma next_spec T (v : ListView T) up : lv_ok v -> displayed_rows_count v <> 0 ->
  match selection v with
  | None => exists d, d < length (rows v) /\ is_displayed v (from_scroll v d) /\ (forall d', d' < d -> is_hidden v (from_scroll v d'))
        /\ try_select_next v up = make_selection_visible (with_selection v (Some (from_scroll v d)))
  | Some sel => exists d, 1 <= d <= length (rows v) /\ is_displayed v (from_sel v up sel d) /\ (forall d', 1 <= d' < d -> is_hidden v (from_sel v up sel d'))
        /\ try_select_next v up = make_selection_visible (with_selection v (Some (from_sel v up sel d)))
  end.
Proof.
  intros Hok Hn. pose proof Hok as [Hc Hs]. unfold try_select_next. rewrite (proj2 (Nat.eqb_neq _ _) Hn). set (len := length (rows v)).
  assert (Hl : 0 < len). { destruct (displayed_exists (rows v)) as (j & r & E & _); [rewrite <- Hc; lia|]. assert (j < length (rows v)) by (apply nth_error_Some; congruence). unfold len. lia. }
  assert (S1 := @search T v (fun i => (i + lv_scroll v) mod len) Hok Hn ltac:(intros; apply Nat.mod_upper_bound; lia) ltac:(intros; apply mod_cover; assumption)).
  destruct S1 as (d1 & L1 & D1 & M1 & E1). fold len in E1, L1. cbv beta in *.
  assert (Ef : forall d, (d + lv_scroll v) mod len = from_scroll v d) by (intros; unfold from_scroll; fold len; f_equal; lia).
  destruct (selection v) as [sel|] eqn:Esel.
  - assert (S2 : forall j, j < len -> exists i, i < len /\ ((if up then len - 1 - i else i + 1) + sel) mod len = j).
    { intros j Lj. destruct up.
      - destruct (mod_cover sel Lj) as (i & Li & E). exists (len - 1 - i). split; [lia|]. rewrite <- E. f_equal. lia.
      - destruct (mod_cover (1 + sel) Lj) as (i & Li & E). exists i. split; [lia|]. rewrite <- E. f_equal. lia. }
    pose proof (@search T v (fun i => ((if up then len - 1 - i else i + 1) + sel) mod len) Hok Hn ltac:(intros; apply Nat.mod_upper_bound; lia) S2) as (d & L & D & M & E).
    fold len in E, L. cbv beta in *.
    assert (Eg : forall d, d < len -> ((if up then len - 1 - d else d + 1) + sel) mod len = from_sel v up sel (S d)).
    { intros x Lx. unfold from_sel. fold len. destruct up; f_equal; lia. }
    rewrite Eg in D, E by exact L. exists (S d). split; [lia|]. split; [exact D|]. split.
    { intros [|d'] Hd'; [lia|]. rewrite <- Eg by lia. apply M. lia. }
    rewrite orb_false_r. destruct (Nat.eqb_spec (displayed_rows_count v) 1) as [H1|H1].
    + rewrite E1, bind_ret, Ef. f_equal. f_equal. f_equal. rewrite Ef in D1. destruct D1 as (r1 & F1 & G1). destruct D as (r2 & F2 & G2).
      apply (@displayed_unique T (rows v) _ _ r1 r2); auto; congruence.
    + rewrite bind_ret. rewrite (proj2 (Nat.eqb_neq len 0)) by lia. rewrite E, bind_ret. reflexivity.
  - exists d1. rewrite Ef in D1, E1. split; [exact L1|]. split; [exact D1|]. split; [intros d' L'; rewrite <- Ef; apply M1, L'|].
    rewrite orb_true_r, E1, bind_ret. reflexivity.
Qed.
Lemma select_first_spec T (v : ListView T) : lv_ok v ->
  (displayed_rows_count v = 0 -> select_first_line v = Ret (with_selection v None))
  /\ (displayed_rows_count v <> 0 -> exists i, is_displayed v i /\ (forall j, j < i -> is_hidden v j) /\ select_first_line v = make_selection_visible (with_selection v (Some i))).
Proof.
  intros Hok. split; intros H.
  - unfold select_first_line. pose proof (first_displayed_spec v (seq 0 (length (rows v)))) as F. specialize (F ltac:(intros i Hi; apply in_seq in Hi; lia)).
    destruct (first_displayed _ _) as [[i|]| |]; try contradiction; [|reflexivity]. destruct F as (d & _ & (r & E & D) & _). exfalso.
    destruct Hok as [Hc _]. rewrite H in Hc. apply nth_error_In in E. assert (In r (List.filter (@displayed T) (rows v))) by (apply filter_In; auto).
    destruct (List.filter _ _); [contradiction|discriminate].
  - destruct (@search T v (fun i => i) Hok H) as (d & L & D & M & E); auto; [intros j Lj; exists j; auto|]. exists d. split; [exact D|]. split; [exact M|].
    unfold select_first_line. rewrite map_id in E. rewrite E. reflexivity.
Qed.
Lemma rev_seq len : rev (seq 0 len) = map (fun i => len - 1 - i) (seq 0 len).
Proof.
  induction len as [|n IH]; [reflexivity|]. rewrite seq_S at 1. rewrite rev_app_distr, IH. change (seq 0 (S n)) with (0 :: seq 1 n). cbn [rev app map]. apply f_equal2; [lia|].
  rewrite <- seq_shift, map_map. apply map_ext. intros i. lia.
Qed.
Lemma select_last_spec T (v : ListView T) : lv_ok v ->
  (displayed_rows_count v = 0 -> select_last_line v = Ret (with_selection v None))
  /\ (displayed_rows_count v <> 0 -> exists i, is_displayed v i /\ (forall j, i < j < length (rows v) -> is_hidden v j) /\ select_last_line v = make_selection_visible (with_selection v (Some i))).
Proof.
  intros Hok. split; intros H.
  - unfold select_last_line. pose proof (first_displayed_spec v (rev (seq 0 (length (rows v))))) as F. specialize (F ltac:(intros i Hi; apply in_rev, in_seq in Hi; lia)).
    destruct (first_displayed _ _) as [[i|]| |]; try contradiction; [|reflexivity]. destruct F as (d & _ & (r & E & D) & _). exfalso.
    destruct Hok as [Hc _]. rewrite H in Hc. apply nth_error_In in E. assert (In r (List.filter (@displayed T) (rows v))) by (apply filter_In; auto).
    destruct (List.filter _ _); [contradiction|discriminate].
  - destruct (@search T v (fun i => length (rows v) - 1 - i) Hok H) as (d & L & D & M & E); cbv beta in *; [intros; lia|intros j Lj; exists (length (rows v) - 1 - j); lia|].
    exists (length (rows v) - 1 - d). split; [exact D|]. split.
    + intros j Hj. replace j with (length (rows v) - 1 - (length (rows v) - 1 - j)) by lia. apply M. lia.
    + unfold select_last_line. rewrite rev_seq, E. reflexivity.
Qed.
Lemma displayed_lt T (v : ListView T) i : is_displayed v i -> i < length (rows v).
Proof. intros (r & E & _). apply nth_error_Some. congruence. Qed.

(** [lv_ok] is kept *)
Lemma same_ok T (v v' : ListView T) : lv_ok v -> same_rows v v' -> (forall s, selection v' = Some s -> s < length (rows v)) -> lv_ok v'.
Proof. intros [Hc _] (s & sel & ->) H. split; [exact Hc|exact H]. Qed.
Lemma msv_sel T (v v' : ListView T) : make_selection_visible v = Ret v' -> selection v' = selection v.
Proof. intros E. apply msv_same in E as (s & ->). reflexivity. Qed.
Lemma msv_ok T (v v' : ListView T) : lv_ok v -> make_selection_visible v = Ret v' -> lv_ok v'.
Proof. intros H E. apply (same_ok H (msv_rows _ E)). rewrite (msv_sel _ E). apply H. Qed.
Lemma sel_ok T (v : ListView T) i : lv_ok v -> i < length (rows v) -> lv_ok (with_selection v (Some i)).
Proof. intros [Hc _] L. split; [exact Hc|]. cbn. congruence. Qed.
Lemma unsel_ok T (v : ListView T) : lv_ok v -> lv_ok (with_selection v None).
Proof. intros [Hc _]. split; [exact Hc|]. cbn. congruence. Qed.
Lemma nav_ok T (v v' : ListView T) o : nav o -> lv_ok v -> lv_apply v o = Ret v' -> lv_ok v'.
Proof.
  intros Hnav Hok E. destruct o; try contradiction; cbn in E.
  - destruct (Nat.eq_dec (displayed_rows_count v) 0) as [H0|H0].
    { unfold try_select_next in E. rewrite H0 in E. injection E as <-. exact Hok. }
    pose proof (next_spec up Hok H0) as F. destruct (selection v); destruct F as (d & _ & D & _ & F); rewrite F in E; apply (msv_ok (sel_ok Hok (displayed_lt D)) E).
  - destruct (select_first_spec Hok) as [F G]. destruct (Nat.eq_dec (displayed_rows_count v) 0) as [H0|H0].
    + rewrite (F H0) in E. injection E as <-. apply unsel_ok, Hok.
    + destruct (G H0) as (i & D & _ & F'). rewrite F' in E. apply (msv_ok (sel_ok Hok (displayed_lt D)) E).
  - destruct (select_last_spec Hok) as [F G]. destruct (Nat.eq_dec (displayed_rows_count v) 0) as [H0|H0].
    + rewrite (F H0) in E. injection E as <-. apply unsel_ok, Hok.
    + destruct (G H0) as (i & D & _ & F'). rewrite F' in E. apply (msv_ok (sel_ok Hok (displayed_lt D)) E).
  - injection E as <-. apply unsel_ok, Hok.
  - unfold lv_try_scroll_lines in E. apply bind_Ret_inv in E as (w & E1 & E). apply (@msv_ok _ w); [|exact E].
    destruct (n <? 0)%Z; apply bind_Ret_inv in E1 as (m & _ & E1); injection E1 as <-; exact Hok.
  - unfold lv_try_scroll_pages in E. apply bind_Ret_inv in E as (k & _ & E). unfold lv_try_scroll_lines in E. apply bind_Ret_inv in E as (w & E1 & E). apply (@msv_ok _ w); [|exact E].
    destruct (k <? 0)%Z; apply bind_Ret_inv in E1 as (m & _ & E1); injection E1 as <-; exact Hok.
  - injection E as <-. exact Hok.
  - apply (msv_ok Hok E).
Qed.

(** The effect of an addition *)
Definition add_scroll {T} (v : ListView T) (n : nat) : nat :=
  match row_order v with
  | None => if do_scroll_show_bottom v then (if tbody_height v <? n then n - tbody_height v else 0) else lv_scroll v
  | Some _ => lv_scroll v
  end.
Lemma add_row_eq_full T (v : ListView T) d : let shown := match filter v with Some f => f d | None => true end in
  let n := displayed_rows_count v + (if shown then 1 else 0) in
  add_row v d = mkLV (titles v) (columns v)
    (match row_order v with Some o => sort_by (fun a b => o (data a) (data b)) (rows v ++ [mkRow d shown]) | None => rows v ++ [mkRow d shown] end)
    (lv_area v) (add_scroll v n) (lv_skin v) (filter v) n (row_order v) (selection v) (selection_background v).
Proof.
  destruct v as [ts cs rs a s0 k f n o sel bg]. cbn [titles columns rows lv_area lv_scroll lv_skin filter displayed_rows_count row_order selection selection_background].
  unfold add_row, with_rows, add_scroll. cbn [filter row_order lv_scroll]. destruct (match f with Some f => f d | None => true end); destruct o as [o|];
    destruct (do_scroll_show_bottom _);
    cbn [andb row_order scroll_to_bottom with_scroll titles columns rows lv_area lv_scroll lv_skin filter displayed_rows_count row_order selection selection_background];
    rewrite ?Nat.add_0_r; reflexivity.
Qed.
Lemma add_row_eq T (v : ListView T) d : let shown := match filter v with Some f => f d | None => true end in exists s,
  add_row v d = mkLV (titles v) (columns v)
    (match row_order v with Some o => sort_by (fun a b => o (data a) (data b)) (rows v ++ [mkRow d shown]) | None => rows v ++ [mkRow d shown] end)
    (lv_area v) s (lv_skin v) (filter v) (displayed_rows_count v + (if shown then 1 else 0)) (row_order v) (selection v) (selection_background v).
Proof. intros shown. eexists. apply add_row_eq_full. Qed.
Lemma add_row_rows T (v : ListView T) d : Permutation (rows v ++ [mkRow d (match filter v with Some f => f d | None => true end)]) (rows (add_row v d)).
Proof. destruct (add_row_eq v d) as (s & ->). cbn [rows]. destruct (row_order v); [apply sort_perm|apply Permutation_refl]. Qed.
Lemma add_row_ok T (v : ListView T) d : lv_ok v -> lv_ok (add_row v d).
Proof.
  intros [Hc Hs]. pose proof (add_row_rows v d) as P. split.
  - rewrite <- (filter_len_perm (@displayed T) P), filter_app, app_length, <- Hc. destruct (add_row_eq v d) as (s & ->). cbn.
    destruct (filter v) as [f|]; [destruct (f d)|]; reflexivity.
  - intros s. rewrite <- (Permutation_length P), app_length. destruct (add_row_eq v d) as (s' & ->). cbn. intros E. apply Hs in E. lia.
Qed.
Record lv_history {T} (ops : list (lv_op T)) (v : ListView T) : Prop := {
  lh_ok : lv_ok v;
  lh_rows : Permutation (map (@data T) (rows v)) (given ops);
  lh_order : row_order v = current_order ops;
  lh_filter : forall d, match filter v with Some f => f d | None => true end = current_filter ops d;
  lh_shown : Forall (fun r => displayed r = current_filter ops (data r)) (rows v)
}.
Lemma filter_all A (f : A -> bool) l : Forall (fun x => f x = true) l -> List.filter f l = l.
Proof. induction 1 as [|a l E _ IH]; cbn; [reflexivity|]. rewrite E, IH. reflexivity. Qed.
Lemma history T (v0 v : ListView T) ops area cols k : lv_new area cols k = Ret v0 -> lv_run v0 ops = Ret v -> lv_history ops v.
Proof.
  intros H0. revert v. induction ops as [|o ops IH] using rev_ind; intros v E.
  - cbn in E. injection E as <-. unfold lv_new in H0. apply bind_Ret_inv in H0 as (ts & _ & H0). injection H0 as <-. split; try reflexivity; [|constructor].
    split; [reflexivity|]. discriminate.
  - apply run_snoc in E as (w & Ew & E). specialize (IH w Ew). destruct IH as [I1 I2 I3 I4 I5].
    assert (Hn : nav o -> lv_history (ops ++ [o]) v).
    { intros Hnav. pose proof (@nav_ok _ _ _ _ Hnav I1 E) as Hok. pose proof (@nav_same _ _ _ _ Hnav E) as (s & sel & Ev).
      split; rewrite ?given_snoc, ?current_filter_snoc, ?current_order_snoc; try exact Hok; rewrite Ev; destruct o; try contradiction; assumption. }
    destruct o; try (apply Hn; exact I); cbn in E.
    + injection E as <-. split; rewrite ?given_snoc, ?current_filter_snoc, ?current_order_snoc.
      * apply add_row_ok, I1.
      * rewrite <- (Permutation_map (@data T) (add_row_rows w d)), map_app. cbn. apply Permutation_app_tail, I2.
      * destruct (add_row_eq w d) as (s & ->). exact I3.
      * destruct (add_row_eq w d) as (s & ->). exact I4.
      * rewrite Forall_forall in *. intros r Hr. apply (Permutation_in _ (Permutation_sym (add_row_rows w d))) in Hr.
        apply in_app_or in Hr as [Hr|[<-|[]]]; [apply I5, Hr|]. cbn. apply I4.
    + injection E as <-. split; rewrite ?given_snoc, ?current_filter_snoc, ?current_order_snoc; try assumption; try constructor; try discriminate; reflexivity.
    + injection E as <-. split; rewrite ?given_snoc, ?current_filter_snoc, ?current_order_snoc; try assumption.
      * split; [reflexivity|]. cbn. rewrite map_length. apply I1.
      * cbn. rewrite map_map. exact I2.
      * reflexivity.
      * cbn. apply Forall_map. apply Forall_forall. reflexivity.
    + injection E as <-. split; rewrite ?given_snoc, ?current_filter_snoc, ?current_order_snoc; try assumption.
      * split; [|cbn; rewrite map_length; apply I1]. cbn. rewrite filter_all; [rewrite map_length; reflexivity|]. apply Forall_map, Forall_forall. reflexivity.
      * cbn. rewrite map_map. exact I2.
      * reflexivity.
      * cbn. apply Forall_map. apply Forall_forall. reflexivity.
    + injection E as <-. split; rewrite ?given_snoc, ?current_filter_snoc, ?current_order_snoc; try assumption. reflexivity.
    + injection E as <-. split; rewrite ?given_snoc, ?current_filter_snoc, ?current_order_snoc; assumption.
    + assert (exists c, v = with_columns w c) as (c & ->).
      { unfold update_dimensions in E. apply bind_Ret_inv in E as (s & _ & E). destruct (_ <=? _)%Z; [injection E as <-; eexists; reflexivity|].
        apply bind_Ret_inv in E as (e & _ & E). apply bind_Ret_inv in E as (c & _ & E). injection E as <-. eexists; reflexivity. }
      split; rewrite ?given_snoc, ?current_filter_snoc, ?current_order_snoc; assumption.
Qed.
