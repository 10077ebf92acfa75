(** * What the deletion of a selection leaves, exactly (C09) *)
From Verif Require Import Base L_Base M_Content S_Content S_Safe L_Content L_Content2 L_Content3 P_Safe S_Editor L_Editor P_Editor S_Held P_Held S_Cut P_Content L_Content4 Demo.
Set Implicit Arguments.
Open Scope nat_scope.

Lemma unless_one_len ls : unless_one ls = if 1 <? length ls then [] else ls.
Proof. destruct ls as [|a [|b ls]]; reflexivity. Qed.
Lemma drain_mid {A} (a b c : list A) i j : i = length a -> j = length a + length b -> vec_drain i j (a ++ b ++ c) = Ret (a ++ c).
Proof.
  intros -> ->. unfold vec_drain. rewrite !app_length.
  rewrite (proj2 (Nat.leb_le _ _)) by lia. rewrite (proj2 (Nat.leb_le _ _)) by lia. cbn [andb]. f_equal.
  rewrite firstn_app_exact by reflexivity. f_equal. rewrite app_assoc. apply skipn_app_exact. rewrite app_length. reflexivity.
Qed.

Lemma cursor_set c p ls : clean ls -> ls <> [] ->
  exists c', set_cursor_pos (set_clines c ls) p = Ret c' /\ clines c' = ls /\ cursor c' = reach (at_char (px p)) (py p) (flat ls).
Proof.
  intros C N. unfold set_cursor_pos. rewrite make_valid_pos_eq by exact N. cbn [bind]. eexists. split; [reflexivity|]. split; [reflexivity|].
  unfold cursor, offset. cbn [set_cpos set_clines clines cpos]. rewrite reach_flat by assumption. unfold clamp.
  destruct (Nat.leb_spec (length ls) (py p)) as [L|L].
  - rewrite (proj2 (Nat.ltb_ge _ _)) by exact L. destruct (@exists_last _ ls N) as (pre & l & ->). rewrite app_length. cbn [length].
    replace (length pre + 1 - 1) with (length pre) by lia. rewrite app_nth2, Nat.sub_diag by lia. cbn [nth]. unfold offset_in. cbn [py px].
    rewrite firstn_app_exact by reflexivity. clear. induction pre as [|a pre IH]; [cbn; rewrite app_nil_r; lia|].
    cbn [map sum app]. rewrite flat_cons. destruct (pre ++ [l]) as [|b r] eqn:Q; [destruct pre; discriminate|]. rewrite flat_cons in IH. rewrite sj_cons.
    rewrite app_length in IH. rewrite app_length. cbn [length]. rewrite app_length. lia.
  - rewrite (proj2 (Nat.ltb_lt _ _)) by exact L. reflexivity.
Qed.
Lemma clean_left c ls : loose c -> (forall l ch, In l ls -> In ch l -> exists l', In l' (clines c) /\ In ch l') -> clean ls.
Proof. intros (_ & _ & _ & C) H l ch I J. destruct (H l ch I J) as (l' & I' & J'). eapply C; eassumption. Qed.

Lemma in_firstn {A} n (l : list A) x : In x (firstn n l) -> In x l.
Proof. intros H. rewrite <- (firstn_skipn n l). apply in_or_app. left. exact H. Qed.
Lemma in_skipn {A} n (l : list A) x : In x (skipn n l) -> In x l.
Proof. intros H. rewrite <- (firstn_skipn n l). apply in_or_app. right. exact H. Qed.
Lemma some_line_eq ls : at_least_one ls = some_line ls.
Proof. reflexivity. Qed.
Lemma some_line_nonnil ls : some_line ls <> [].
Proof. destruct ls; discriminate. Qed.
Lemma some_line_id ls : ls <> [] -> some_line ls = ls.
Proof. destruct ls; intros H; [exfalso; apply H; reflexivity|reflexivity]. Qed.
Lemma clean_some_line ls : clean ls -> clean (some_line ls).
Proof. destruct ls; [intros _ l ch [<-|[]] []|auto]. Qed.

(** ** The theorems *)

(** A selection going over several lines: the lines, and where the cursor is *)
Theorem C09_rows : forall c pre l1 mid l2 post x1 x2, loose c -> clines c = pre ++ l1 :: mid ++ l2 :: post ->
  selection c = mkRange (mkPos (length pre) x1) (mkPos (length pre + S (length mid)) x2) ->
  exists c', del_selection c = Ret (c', true) /\ valid c' /\ ctail c' = None
  /\ clines c' = some_line (pre ++ rows_left l1 mid l2 x1 x2 ++ post)
  /\ cursor c' = reach (at_char x1) (length pre) (text c').
Proof.
  intros c pre l1 mid l2 post x1 x2 Lc El Es.
  assert (G : exists c', del_selection c = Ret (c', true) /\ ctail c' = None
    /\ clines c' = some_line (pre ++ rows_left l1 mid l2 x1 x2 ++ post) /\ cursor c' = reach (at_char x1) (length pre) (text c')).
  { unfold del_selection. rewrite Es. cbn [rmin rmax py px]. rewrite (proj2 (Nat.eqb_neq (length pre) (length pre + S (length mid)))) by lia. cbn [andb].
    rewrite El. set (F := if x1 =? 0 then [] else [firstn x1 l1]). set (D1 := if x1 =? 0 then [l1] else []).
    set (B := if x2 <? length l2 then [skipn x2 l2] else []). set (D2 := if x2 <? length l2 then [] else [l2]).
    assert (R : rows_left l1 mid l2 x1 x2 = F ++ unless_one (D1 ++ mid ++ D2) ++ B) by (unfold rows_left, F, D1, B, D2; destruct (x1 =? 0), (x2 <? length l2); reflexivity).
    assert (E1 : (if 0 <? x1 then l <- idx (pre ++ l1 :: mid ++ l2 :: post) (length pre);; Ret (length pre + 1, set_nth (length pre) (firstn x1 l) (pre ++ l1 :: mid ++ l2 :: post))
        else Ret (length pre, pre ++ l1 :: mid ++ l2 :: post)) = Ret (length (pre ++ F), (pre ++ F) ++ (D1 ++ mid) ++ l2 :: post)).
    { unfold F, D1. destruct x1 as [|x1]; cbn [Nat.ltb Nat.leb Nat.eqb].
      - rewrite app_nil_r. reflexivity.
      - unfold idx. rewrite nth_error_mid. cbn [bind]. rewrite set_nth_mid, app_length. cbn [length app]. rewrite <- app_assoc. reflexivity. }
    rewrite E1. cbn [bind]. assert (LF : length F + length D1 = 1) by (unfold F, D1; destruct (x1 =? 0); reflexivity).
    assert (Y : length pre + S (length mid) = length ((pre ++ F) ++ D1 ++ mid)) by (rewrite !app_length; lia).
    rewrite Y. unfold idx at 1. rewrite app_assoc, nth_error_mid. cbn [bind].
    assert (E2 : (if x2 <? length l2 then l' <- vec_drain 0 x2 l2;; m <- csub (length ((pre ++ F) ++ D1 ++ mid)) 1;; Ret (m, set_nth (length ((pre ++ F) ++ D1 ++ mid)) l' (((pre ++ F) ++ D1 ++ mid) ++ l2 :: post))
        else Ret (length ((pre ++ F) ++ D1 ++ mid), ((pre ++ F) ++ D1 ++ mid) ++ l2 :: post)) = Ret (length (pre ++ F) + length (D1 ++ mid ++ D2) - 1, (pre ++ F) ++ (D1 ++ mid ++ D2) ++ B ++ post)).
    { unfold D2, B. destruct (Nat.ltb_spec x2 (length l2)) as [L|L].
      - unfold vec_drain. rewrite (proj2 (Nat.leb_le _ _)) by lia. rewrite (proj2 (Nat.leb_le _ _)) by lia. cbn [andb bind firstn app].
        rewrite csub_ret by (rewrite <- Y; lia). cbn [bind]. rewrite set_nth_mid, app_nil_r. f_equal. f_equal; [rewrite !app_length; lia|]. rewrite <- !app_assoc. reflexivity.
      - cbn [app]. f_equal. f_equal; [rewrite !app_length; cbn [length]; lia|]. rewrite <- !app_assoc. reflexivity. }
    rewrite E2. cbn [bind]. clear E1 E2. set (D := D1 ++ mid ++ D2) in *.
    assert (NN : 0 < length (F ++ D)) by (unfold D; rewrite !app_length; lia).
    match goal with |- context [bind ?m _] => assert (E3 : m = Ret (some_line (pre ++ rows_left l1 mid l2 x1 x2 ++ post))) end.
    { rewrite R, unless_one_len. destruct (Nat.ltb_spec (length (pre ++ F)) (length (pre ++ F) + length D - 1)) as [L|L].
      - rewrite (proj2 (Nat.ltb_lt 1 (length D))) by lia. rewrite Nat.min_l by (rewrite !app_length in *; lia).
        rewrite drain_mid by lia. cbn [bind app]. rewrite <- !app_assoc. reflexivity.
      - rewrite (proj2 (Nat.ltb_ge 1 (length D))) by lia. rewrite <- !app_assoc. f_equal. symmetry. apply some_line_id.
        intros Q. apply app_eq_nil in Q as (_ & Q). apply app_eq_nil in Q as (Q1 & Q). apply app_eq_nil in Q as (Q2 & _). rewrite Q1, Q2 in NN. cbn in NN. lia. }
    rewrite E3. cbn [bind]. set (ls := some_line _) in *.
    assert (CL : clean ls).
    { apply clean_some_line. eapply clean_left; [exact Lc|]. rewrite El, R, unless_one_len. intros l ch I J.
      rewrite !in_app_iff in I.
      assert (ID : In l D -> exists l', In l' (pre ++ l1 :: mid ++ l2 :: post) /\ In ch l').
      { unfold D, D1, D2. intros K. exists l. split; [|exact J]. rewrite !in_app_iff in *. cbn [In]. rewrite in_app_iff. cbn [In]. destruct (x1 =? 0), (x2 <? length l2); cbn [In] in K; tauto. }
      destruct I as [I|[[I|[I|I]]|I]].
      - exists l. split; [apply in_or_app; left; exact I|exact J].
      - unfold F in I. destruct (x1 =? 0); [destruct I|]. destruct I as [<-|[]]. exists l1. split; [apply in_elt|eapply in_firstn, J].
      - destruct (1 <? length D); [destruct I|]. apply ID, I.
      - unfold B in I. destruct (x2 <? length l2); [|destruct I]. destruct I as [<-|[]]. exists l2. split; [|eapply in_skipn, J]. apply in_or_app. right. right. apply in_elt.
      - exists l. split; [|exact J]. apply in_or_app. right. right. apply in_or_app. right. right. exact I. }
    destruct (@cursor_set c (mkPos (length pre) x1) ls CL (some_line_nonnil _)) as (c' & -> & L' & C'). cbn [bind].
    eexists. split; [reflexivity|]. split; [reflexivity|]. split; [exact L'|].
    change (cursor (set_ctail c' None)) with (cursor c'). change (text (set_ctail c' None)) with (flat (clines c')). rewrite L'. exact C'. }
  destruct G as (c' & E & T & L & C). exists c'. split; [exact E|]. split; [|auto].
  destruct (@del_rows c Lc) as (c2 & E2 & V2).
  - rewrite Es. cbn. lia.
  - rewrite Es, El. cbn. rewrite !app_length. cbn [length]. rewrite app_length. cbn [length]. lia.
  - rewrite E in E2. injection E2 as <-. exact V2.
Qed.
Print Assumptions C09_rows.

(** A selection in a line *)
Theorem C09_row : forall c pre l post x1 x2, valid c -> clines c = pre ++ l :: post ->
  selection c = mkRange (mkPos (length pre) x1) (mkPos (length pre) x2) -> x1 < x2 ->
  exists c', del_selection c = Ret (c', true) /\ valid c' /\ ctail c' = None
  /\ clines c' = some_line (pre ++ row_left l x1 x2 ++ post)
  /\ cursor c' = reach (at_char x1) (length pre) (text c').
Proof.
  intros c pre l post x1 x2 V El Es X.
  assert (B : x2 <= length l).
  { destruct (C08_selection_is_ordered c V) as (_ & (l' & N & B) & _). rewrite Es in N, B. cbn [rmax py px] in N, B. rewrite El, nth_error_mid in N. injection N as <-. exact B. }
  assert (G : exists c', del_selection c = Ret (c', true) /\ ctail c' = None
    /\ clines c' = some_line (pre ++ row_left l x1 x2 ++ post) /\ cursor c' = reach (at_char x1) (length pre) (text c')).
  { unfold del_selection. rewrite Es. cbn [rmin rmax py px]. rewrite Nat.eqb_refl. rewrite (proj2 (Nat.eqb_neq x1 x2)) by lia. cbn [andb].
    rewrite El. unfold idx. rewrite nth_error_mid. cbn [bind].
    match goal with |- context [bind ?m _] => assert (E3 : m = Ret (some_line (pre ++ row_left l x1 x2 ++ post))) end.
    { unfold row_left. destruct (Nat.eqb_spec x2 (length l)) as [Q|Q].
      - rewrite (proj2 (Nat.ltb_ge _ _)) by lia. destruct (Nat.eqb_spec x1 0) as [Z|Z].
        + rewrite (@drain_mid _ pre [l] post) by (cbn [length]; lia). reflexivity.
        + unfold vec_drain. rewrite (proj2 (Nat.leb_le _ _)) by lia. rewrite (proj2 (Nat.leb_le _ _)) by lia. cbn [andb bind].
          rewrite skipn_all2 by lia. rewrite app_nil_r, set_nth_mid. f_equal. symmetry. apply some_line_id. destruct pre; discriminate.
      - rewrite (proj2 (Nat.ltb_lt _ _)) by lia. unfold vec_drain. rewrite (proj2 (Nat.leb_le _ _)) by lia. rewrite (proj2 (Nat.leb_le _ _)) by lia. cbn [andb bind].
        rewrite set_nth_mid. f_equal. symmetry. apply some_line_id. destruct pre; discriminate. }
    rewrite E3. cbn [bind]. set (ls := some_line _) in *.
    assert (CL : clean ls).
    { apply clean_some_line. eapply clean_left; [apply loose_valid, V|]. rewrite El. unfold row_left. intros l' ch I J.
      rewrite !in_app_iff in I. destruct I as [I|[I|I]].
      - exists l'. split; [apply in_or_app; left; exact I|exact J].
      - exists l. split; [apply in_elt|]. destruct (x2 <? length l); [|destruct (x1 =? 0); [destruct I|]]; destruct I as [<-|[]]; [|eapply in_firstn, J].
        apply in_app_iff in J as [J|J]; [eapply in_firstn, J|eapply in_skipn, J].
      - exists l'. split; [|exact J]. apply in_or_app. right. right. exact I. }
    destruct (@cursor_set c (mkPos (length pre) x1) ls CL (some_line_nonnil _)) as (c' & -> & L' & C'). cbn [bind].
    eexists. split; [reflexivity|]. split; [reflexivity|]. split; [exact L'|].
    change (cursor (set_ctail c' None)) with (cursor c'). change (text (set_ctail c' None)) with (flat (clines c')). rewrite L'. exact C'. }
  destruct G as (c' & E & T & L & C). exists c'. split; [exact E|]. split; [|auto].
  destruct (C09_nothing_else_lost_partial c V) as (c2 & b & E2 & V2 & _). rewrite E in E2. injection E2 as <- <-. exact V2.
Qed.
Print Assumptions C09_row.

(** Those two cover all wide selections *)
Theorem C09_cases : forall c, valid c -> has_wide_selection c = true ->
  (exists pre l post x1 x2, clines c = pre ++ l :: post /\ selection c = mkRange (mkPos (length pre) x1) (mkPos (length pre) x2) /\ x1 < x2)
  \/ exists pre l1 mid l2 post x1 x2, clines c = pre ++ l1 :: mid ++ l2 :: post
      /\ selection c = mkRange (mkPos (length pre) x1) (mkPos (length pre + S (length mid)) x2).
Proof.
  intros c V W. apply (C09_wide_selection c V) in W. destruct (C08_selection_is_ordered c V) as ((la & Na & _) & (lb & Nb & _) & O & _).
  destruct (selection c) as [[y1 x1] [y2 x2]]. cbn [rmin rmax py px] in *. unfold pos_le in O. cbn [py px] in O.
  apply nth_error_split in Na as (pre & r & El & Lp). destruct (Nat.eq_dec y1 y2) as [Q|Q].
  - left. exists pre, la, r, x1, x2. subst y1 y2. split; [exact El|]. split; [reflexivity|].
    assert (x1 <> x2) by (intros ->; apply W; reflexivity). lia.
  - right. assert (y1 < y2) by lia. rewrite El, nth_error_app2 in Nb by lia. replace (y2 - length pre) with (S (y2 - length pre - 1)) in Nb by lia. cbn [nth_error] in Nb.
    apply nth_error_split in Nb as (mid & post & -> & Lm). exists pre, la, mid, lb, post, x1, x2. split; [exact El|]. f_equal; f_equal; lia.
Qed.
Print Assumptions C09_cases.

(** ** Examples *)

(** "ab", "cd", "ef", "gh" from the "b" to the end of "ef": two whole lines, they're removed *)
Example C09_rows_example : let c := mkContent (mkPos 2 2) (Some (mkPos 0 1)) [[97; 98]; [99; 100]; [101; 102]; [103; 104]]%N in
  loose c /\ selection c = mkRange (mkPos 0 1) (mkPos 2 2) /\ rows_left [97; 98]%N [[99; 100]]%N [101; 102]%N 1 2 = [[97]]%N
  /\ del_selection c = Ret (mkContent (mkPos 0 1) None [[97]; [103; 104]]%N, true).
Proof. split; [apply loose_valid, validb_ok; reflexivity|]. split; [reflexivity|]. split; vm_compute; reflexivity. Qed.
(** up to the "f" only: there's just one whole line, it stays *)
Example C09_rows_example_one : let c := mkContent (mkPos 2 1) (Some (mkPos 0 1)) [[97; 98]; [99; 100]; [101; 102]; [103; 104]]%N in
  loose c /\ selection c = mkRange (mkPos 0 1) (mkPos 2 1) /\ rows_left [97; 98]%N [[99; 100]]%N [101; 102]%N 1 1 = [[97]; [99; 100]; [102]]%N
  /\ del_selection c = Ret (mkContent (mkPos 0 1) None [[97]; [99; 100]; [102]; [103; 104]]%N, true).
Proof. split; [apply loose_valid, validb_ok; reflexivity|]. split; [reflexivity|]. split; vm_compute; reflexivity. Qed.
Example C09_row_example : let c := mkContent (mkPos 0 2) (Some (mkPos 0 0)) [[97; 98]; [99]]%N in
  valid c /\ selection c = mkRange (mkPos 0 0) (mkPos 0 2) /\ has_wide_selection c = true /\ row_left [97; 98]%N 0 2 = []
  /\ del_selection c = Ret (mkContent (mkPos 0 0) None [[99]]%N, true).
Proof. split; [apply validb_ok; reflexivity|]. split; [reflexivity|]. split; [reflexivity|]. split; vm_compute; reflexivity. Qed.
