(** * An input content is a text with a cursor and a mark (C110) *)
From Verif Require Import Base L_Base M_Content S_Content S_Safe L_Content L_Content2 L_Content3 P_Safe S_Editor L_Editor P_Editor S_Held P_Held S_Cut P_Content L_Content4 P_Cut S_Marked Demo.
Set Implicit Arguments.
Open Scope nat_scope.

(** ** The places of a content, in the editor *)
Lemma loose_lines c : loose c -> lines_of (whole (view c)) = clines c.
Proof. intros L. destruct (view_parts (loose_free L)) as (pre & l1 & l2 & post & P). exact (p_lines P). Qed.
Lemma loose_parts c : loose c -> exists pre l1 l2 post, clines c = pre ++ (l1 ++ l2) :: post /\ cpos c = mkPos (length pre) (length l1)
  /\ left_part (view c) = l1 /\ right_part (view c) = l2 /\ breaks (before (view c)) = length pre /\ length (before (view c)) = cursor c.
Proof.
  intros L. destruct (view_parts (loose_free L)) as (pre & l1 & l2 & post & P). destruct (lines_parts P) as (A & B & _). exists pre, l1, l2, post.
  split; [exact A|]. split; [exact B|]. split; [exact (p_left P)|]. split; [exact (p_right P)|]. split; [exact (p_above P)|]. exact (before_length (loose_none L)).
Qed.
Lemma loose_here c : loose c -> here (view c) = cpos c.
Proof. intros L. destruct (loose_parts L) as (pre & l1 & l2 & post & _ & B & C & _ & E & _). unfold here. rewrite C, E, B. reflexivity. Qed.
Lemma inside_clamp c p : loose c -> inside (whole (view c)) p = clamp (clines c) p.
Proof. intros L. unfold inside, last_place, clamp. rewrite (loose_lines L). reflexivity. Qed.
Lemma fixed c c' : fix_selection c = Ret c' -> clines c' = clines c /\ ctail c' = option_map (clamp (clines c')) (ctail c).
Proof. intros E. pose proof (fix_nonempty _ E) as N. rewrite fix_selection_eq in E by exact N. injection E as <-. split; reflexivity. Qed.
Lemma clamp_twice ls p : ls <> [] -> clamp ls (clamp ls p) = clamp ls p.
Proof.
  intros N. assert (0 < length ls) by (destruct ls; [contradiction|cbn; lia]). unfold clamp. destruct (Nat.leb_spec (length ls) (py p)) as [A|A]; cbn [py px].
  - rewrite (proj2 (Nat.leb_gt _ _)) by lia. f_equal. apply Nat.min_id.
  - rewrite (proj2 (Nat.leb_gt _ _)) by lia. f_equal. lia.
Qed.
Lemma held_clamp c' (b : bool) t t' : loose c' -> (if b then t' = option_map (clamp (clines c')) t else t' = t) -> t' = (if b then option_map (inside (whole (view c'))) t else t).
Proof. intros L H. destruct b; [|exact H]. rewrite H. destruct t as [t|]; [|reflexivity]. cbn [option_map]. rewrite inside_clamp by exact L. reflexivity. Qed.

(** ** The mark after each operation *)
Ltac steps E := repeat (first
  [ apply bind_Ret_inv in E as (?q & ?F & E)
  | match type of E with (if ?b then _ else _) = _ => destruct b end
  | match type of E with Ret (if ?b then _ else _) = _ => destruct b end
  | match type of E with (let '(_, _) := ?p in _) = _ => destruct p end
  | match type of E with Ret _ = Ret _ => injection E as <- <- end]).
Lemma tail_held u o c c' b : (o = OpDelLeft \/ o = OpDelBelow \/ (exists i j, o = OpSwapLines i j) \/ o = OpDelWordLeft) -> capply u o c = Ret (c', b) ->
  if b then ctail c' = option_map (clamp (clines c')) (ctail c) else c' = c.
Proof.
  intros H E. destruct H as [-> | [-> | [(i & j & ->) | ->]]]; cbn [capply] in E; unfold del_char_left, del_char_below, swap_lines, del_word_left in E; steps E; try reflexivity.
  all: match goal with F : fix_selection _ = Ret _ |- _ => exact (proj2 (fixed _ F)) end.
Qed.
Lemma tail_line u o c c' b : (o = OpLineUp \/ o = OpLineDown) -> loose c' -> capply u o c = Ret (c', b) -> if b then ctail c' = option_map (clamp (clines c')) (ctail c) else c' = c.
Proof.
  intros H L E. assert (SW : forall i j c1 b1, swap_lines c i j = Ret (c1, b1) -> if b1 then ctail c1 = option_map (clamp (clines c1)) (ctail c) else c1 = c) by (intros i j c1 b1 X; exact (@tail_held u (OpSwapLines i j) c c1 b1 ltac:(eauto 10) X)).
  assert (G : forall i j c1 p, swap_lines c i j = Ret (c1, true) -> fix_selection (set_cpos c1 p) = Ret c' -> ctail c' = option_map (clamp (clines c')) (ctail c)).
  { intros i j c1 p X Y. apply SW in X. destruct (fixed _ Y) as (Y1 & Y2). cbn [set_cpos clines ctail] in Y1, Y2. rewrite Y2, X, Y1. destruct (ctail c) as [t|]; [|reflexivity]. cbn [option_map]. rewrite clamp_twice; [reflexivity|]. rewrite <- Y1. apply L. }
  destruct H as [-> | ->]; cbn [capply] in E; unfold move_current_line_up, move_current_line_down in E.
  - destruct (0 <? py (cpos c)); [|injection E as <- <-; reflexivity]. apply bind_Ret_inv in E as ((c1 & b1) & F & E). destruct b1; [|injection E as <- <-; exact (SW _ _ _ _ F)].
    apply bind_Ret_inv in E as (y & _ & E). apply bind_Ret_inv in E as (c2 & F2 & E). injection E as <- <-. eapply G; eassumption.
  - apply bind_Ret_inv in E as ((c1 & b1) & F & E). destruct b1; [|injection E as <- <-; exact (SW _ _ _ _ F)]. apply bind_Ret_inv in E as (c2 & F2 & E). injection E as <- <-. eapply G; eassumption.
Qed.
Lemma tail_kept_on u o c c' b : match o with OpSetCursor _ | OpPushChar _ | OpRight | OpLinesUp _ | OpLinesDown _ | OpLeft | OpToEnd | OpToStart | OpToLineEnd | OpToLineStart | OpWordLeft | OpWordRight => True | _ => False end ->
  capply u o c = Ret (c', b) -> ctail c' = ctail c.
Proof.
  intros H E. destruct o; try contradiction; cbn [capply with_true] in E;
    unfold with_true, set_cursor_pos, push_char, move_right, move_lines_up, move_lines_down, move_left, move_to_end, move_to_start, move_to_line_end, move_to_line_start, move_word_left, move_word_right in E; steps E; try reflexivity.
  all: steps F; try (injection F as <-); try reflexivity.
Qed.
Lemma tail_char (u : unicode) ch c c' : loose c -> insert_char c ch = Ret c' -> loose c' /\ view c' = mkEd (before (view c) ++ typed [ch]) (after (view c))
  /\ ctail c' = if N.eqb ch c_nl then option_map (inside (whole (view c'))) (ctail c) else ctail c.
Proof.
  intros L E. destruct (@C93_step u (OpInsertChar ch) _ c eq_refl L) as (c1 & E1 & L1 & V1). cbn [capply] in E1. unfold with_true in E1. rewrite E in E1. cbn [bind] in E1. injection E1 as <-. split; [exact L1|]. split; [exact V1|].
  unfold insert_char in E. destruct (N.eqb ch c_nl).
  - unfold insert_new_line in E. apply bind_Ret_inv in E as (l & _ & E). apply bind_Ret_inv in E as ((st & nl) & _ & E). apply bind_Ret_inv in E as (ls & _ & E). apply (@held_clamp c' true _ _ L1). exact (proj2 (fixed _ E)).
  - destruct (N.eqb ch c_cr || N.eqb ch c_bs)%bool; [injection E as <-; reflexivity|]. apply bind_Ret_inv in E as (l & _ & E). apply bind_Ret_inv in E as (l' & _ & E). injection E as <-. reflexivity.
Qed.
Lemma tail_str (u : unicode) : forall s c c', loose c -> insert_str c s = Ret c' -> ctail c' = mark_typing s (view c) (ctail c).
Proof.
  induction s as [|ch s IH]; intros c c' L E; cbn [insert_str mark_typing] in *; [injection E as <-; reflexivity|]. apply bind_Ret_inv in E as (c1 & E1 & E). destruct (@tail_char u ch c c1 L E1) as (L1 & V1 & T1).
  rewrite (IH c1 c' L1 E), T1, V1. reflexivity.
Qed.
Lemma typing_none : forall s e, mark_typing s e None = None.
Proof. induction s as [|ch s IH]; intros e; cbn [mark_typing]; [reflexivity|]. destruct (N.eqb ch c_nl); apply IH. Qed.
Lemma word_start u l : forall n, n <= length l -> word_start_loop u l n = Ret (n - word_run u (rev (firstn n l))).
Proof.
  induction n as [|n IH]; intros H; cbn [word_start_loop]; [reflexivity|]. rewrite (idx_nth l 0%N) by lia. cbn [bind].
  assert (Q : firstn (S n) l = firstn n l ++ [nth n l 0%N]).
  { clear - H. revert n H. induction l as [|a l IH]; intros [|n] H; cbn [length] in H; try lia; [reflexivity|]. cbn [nth app]. change (firstn (S (S n)) (a :: l)) with (a :: firstn (S n) l). change (firstn (S n) (a :: l)) with (a :: firstn n l). cbn [app]. f_equal. apply IH. lia. }
  rewrite Q, rev_app_distr. cbn [rev app word_run]. fold (is_word_char u (nth n l 0%N)). destruct (is_word_char u (nth n l 0%N)).
  - rewrite IH by lia. f_equal.
  - f_equal.
Qed.
Lemma tail_word u c c' b : loose c -> select_word_around u c = Ret (c', b) -> ctail c' = if b then Some (mkPos (breaks (before (view c))) (length (left_part (view c)) - word_run u (rev (left_part (view c))))) else ctail c.
Proof.
  intros L E. destruct (loose_parts L) as (pre & l1 & l2 & post & A & B & C & D & F & _). unfold select_word_around in E. rewrite B, A in E. cbn [py px] in E. unfold idx at 1 in E. rewrite nth_error_mid in E. cbn [bind] in E.
  apply bind_Ret_inv in E as (b0 & _ & E). destruct b0; [injection E as <- <-; reflexivity|]. apply bind_Ret_inv in E as (st & S1 & E). apply bind_Ret_inv in E as (en & _ & E). injection E as <- <-. cbn [ctail].
  rewrite word_start in S1 by (rewrite app_length; lia). rewrite firstn_app_exact in S1 by reflexivity. injection S1 as <-. rewrite C, F. reflexivity.
Qed.
(** All but the deletion of a selection *)
Lemma tail_after u o c c' b : o <> OpDelSelection -> loose c -> loose c' -> capply u o c = Ret (c', b) -> ctail c' = mark_after u o (view c) (view c') b (ctail c).
Proof.
  intros ND L L' E.
  assert (HELD : (if b then ctail c' = option_map (clamp (clines c')) (ctail c) else c' = c) -> ctail c' = if b then option_map (inside (whole (view c'))) (ctail c) else ctail c).
  { intros H. apply (@held_clamp c' b _ _ L'). destruct b; [exact H|rewrite H; reflexivity]. }
  destruct o; cbn [mark_after]; try (eapply tail_kept_on; [|exact E]; exact I); try (apply HELD; eapply tail_held; [|exact E]; eauto 10; fail); try (apply HELD; eapply tail_line; [| |exact E]; eauto; fail).
  - cbn [capply] in E. injection E as <- _. unfold make_selection. rewrite (loose_here L). destruct (ctail c) eqn:T; [exact T|reflexivity].
  - cbn [capply] in E. injection E as <- _. reflexivity.
  - cbn [capply] in E. unfold with_true in E. apply bind_Ret_inv in E as (c1 & E & Q). injection Q as <- _. destruct (loose_parts L) as (pre & l1 & l2 & post & A & B & C & D & _). rewrite (loose_lines L), C, D.
    unfold set_selection_tail in E. destruct (length (clines c) <=? py p).
    + apply bind_Ret_inv in E as (e & E1 & E). injection E as <-. cbn [set_ctail ctail]. rewrite content_end_eq in E1 by apply L. injection E1 as <-. unfold last_place. rewrite (loose_lines L). reflexivity.
    + apply bind_Ret_inv in E as (l & E1 & E). injection E as <-. cbn [set_ctail ctail]. rewrite A, B in E1. cbn [py] in E1. unfold idx in E1. rewrite nth_error_mid in E1. injection E1 as <-. reflexivity.
  - cbn [capply] in E. injection E as <- _. reflexivity.
  - cbn [capply] in E. unfold with_true in E. apply bind_Ret_inv in E as (c1 & E & Q). injection Q as <- _. apply (@tail_str u [c_nl] c c1 L). cbn [insert_str]. unfold insert_char. rewrite N.eqb_refl, E. reflexivity.
  - cbn [capply] in E. unfold with_true in E. apply bind_Ret_inv in E as (c1 & E & Q). injection Q as <- _. apply (@tail_str u [ch] c c1 L). cbn [insert_str]. rewrite E. reflexivity.
  - cbn [capply] in E. unfold with_true in E. apply bind_Ret_inv in E as (c1 & E & Q). injection Q as <- _. exact (@tail_str u s c c1 L E).
  - cbn [capply] in E. unfold with_true in E. apply bind_Ret_inv in E as (c1 & E & Q). injection Q as <- _. unfold set_str in E.
    assert (Es : is_str c s = Ret (if list_eq_dec N.eq_dec (text c) s then true else false)) by exact (is_str_spec s (loose_none L)). rewrite Es in E. cbn [bind] in E. rewrite whole_view. destruct (list_eq_dec N.eq_dec (text c) s); [injection E as <-; reflexivity|].
    rewrite (@tail_str u s (clear c) c1 ltac:(apply loose_valid, valid_default) E). apply typing_none.
  - exact (@tail_word u c c' b L E).
  - exfalso. apply ND. reflexivity.
  - destruct (loose_parts L) as (pre & l1 & l2 & post & A & B & _ & D & _). rewrite D. cbn [capply] in E. unfold del_word_right in E. rewrite B, A in E. cbn [py px] in E. unfold idx at 1 in E. rewrite nth_error_mid in E. cbn [bind] in E. rewrite app_length in E.
    destruct l2 as [|x l2].
    + rewrite (proj2 (Nat.ltb_ge _ _)) in E by (cbn [length]; lia). steps E; reflexivity.
    + rewrite (proj2 (Nat.ltb_lt _ _)) in E by (cbn [length]; lia). apply bind_Ret_inv in E as ((ch' & x') & _ & E). apply bind_Ret_inv in E as (c1 & E1 & E). injection E as <- <-. apply HELD. exact (proj2 (fixed _ E1)).
Qed.

(** ** The deletion of a selection *)
Lemma narrow_below c : has_wide_selection c = false -> del_selection c = del_char_below c.
Proof.
  intros W. unfold del_selection. unfold has_wide_selection in W. unfold selection. destruct (ctail c) as [t|]; [|cbn [rmin rmax]; rewrite !Nat.eqb_refl; reflexivity].
  assert (Q : t = cpos c). { unfold pos_eqb in W. destruct t as [y x], (cpos c) as [y' x']. cbn in W. f_equal; lia. }
  subst t. assert (N : pos_ltb (cpos c) (cpos c) = false) by (unfold pos_ltb; rewrite !Nat.ltb_irrefl, ?Nat.eqb_refl; reflexivity). rewrite N. cbn [rmin rmax]. rewrite !Nat.eqb_refl. reflexivity.
Qed.
Lemma below_step (u : unicode) c : loose c -> exists c' b, del_char_below c = Ret (c', b) /\ loose c' /\ (let '(e', b') := e_delete_below (view c) in (mkMarked e' (if b' then option_map (inside (whole e')) (ctail c) else ctail c), b')) = (m_view c', b).
Proof.
  intros L. destruct (@C93_step u OpDelBelow _ c eq_refl L) as (c' & E & L' & V). exists c', (snd (e_delete_below (view c))). split; [exact E|]. split; [exact L'|].
  pose proof (@tail_after u OpDelBelow c c' _ ltac:(discriminate) L L' E) as T. cbn [mark_after] in T. unfold m_view. rewrite T, V. destruct (e_delete_below (view c)) as (e' & b'). reflexivity.
Qed.
Lemma split_at {A} (ls : list A) i x : nth_error ls i = Some x -> ls = firstn i ls ++ x :: skipn (S i) ls.
Proof. revert i. induction ls as [|a ls IH]; intros [|i] H; try discriminate; cbn [nth_error firstn skipn app] in *; [injection H as ->; reflexivity|]. f_equal. exact (IH i H). Qed.
Lemma view_of_cut c' s i : clines c' <> [] -> flat (clines c') = s -> cursor c' = i -> view c' = put_at i s.
Proof. intros _ A B. unfold view, text. rewrite A, B. reflexivity. Qed.

(** ** C110 *)

(** Each operation does what it does in the plain editor with a mark; [None] is a panic *)
Theorem C110_step : forall u o c, loose c ->
  match m_apply u o (m_view c) with
  | Some (a, b) => exists c', capply u o c = Ret (c', b) /\ loose c' /\ m_view c' = a
  | None => capply u o c = Panic
  end.
Proof.
  intros u o c L. unfold m_apply. destruct (h_apply u o) as [f|] eqn:H.
  - assert (ND : o <> OpDelSelection) by (intros ->; discriminate H). destruct (@C93_step u o f c H L) as (c' & E & L' & V). cbn [m_view m_ed m_mark]. destruct (f (view c)) as (e' & b) eqn:Q. cbn [fst snd] in E, V. exists c'. split; [exact E|]. split; [exact L'|].
    unfold m_view. rewrite (@tail_after u o c c' b ND L L' E), V. reflexivity.
  - assert (o = OpDelSelection) as -> by (destruct o; cbn [h_apply e_apply] in H; discriminate || reflexivity). cbn [m_view m_ed m_mark capply]. unfold m_delete.
    destruct (has_wide_selection c) eqn:W.
    2:{ assert (R : (match ctail c with None => true | Some p => same_place p (here (view c)) end) = true).
        { unfold has_wide_selection in W. destruct (ctail c) as [t|]; [|reflexivity]. rewrite (loose_here L). apply negb_false_iff in W. exact W. }
        destruct (below_step u L) as (c' & b & E & L' & Q). rewrite (narrow_below _ W). destruct (e_delete_below (view c)) as (e' & b') eqn:Eb. injection Q as Q1 Q2 Q3.
        assert (G : exists c', del_char_below c = Ret (c', b') /\ loose c' /\ m_view c' = mkMarked e' (if b' then option_map (inside (whole e')) (ctail c) else ctail c)) by (exists c'; rewrite Q3 in *; split; [exact E|]; split; [exact L'|]; unfold m_view; rewrite <- Q1, <- Q2; reflexivity).
        destruct (ctail c) as [t|]; [rewrite R|]; exact G. }
    unfold has_wide_selection in W. destruct (ctail c) as [t|] eqn:T; [|discriminate]. rewrite (loose_here L). apply negb_true_iff in W.
    assert (SP : same_place t (cpos c) = false) by exact W. rewrite SP. set (first := if sooner t (cpos c) then t else cpos c). set (last := if sooner t (cpos c) then cpos c else t).
    assert (Es : selection c = mkRange first last) by (unfold selection; rewrite T; unfold first, last; change (pos_ltb t (cpos c)) with (sooner t (cpos c)); destruct (sooner t (cpos c)); reflexivity).
    rewrite (loose_lines L). pose proof L as (Nn & (lc & Nc & Lc) & Lt & Cl). specialize (Lt t T).
    assert (Or : py first < py last \/ py first = py last /\ px first < px last).
    { unfold first, last. unfold same_place in SP. destruct (sooner t (cpos c)) eqn:S1; unfold sooner in S1; lia. }
    assert (Lcur : py (cpos c) < length (clines c)) by (apply nth_error_Some; congruence).
    assert (Bf : py first < length (clines c) /\ py last < length (clines c)) by (unfold first, last; destruct (sooner t (cpos c)); lia).
    destruct (nth_error (clines c) (py first)) as [l1|] eqn:N1; [|apply nth_error_None in N1; lia]. destruct (nth_error (clines c) (py last)) as [l2|] eqn:N2; [|apply nth_error_None in N2; lia].
    unfold lines_cut. rewrite (nth_error_nth _ _ [] N1), (nth_error_nth _ _ [] N2). pose proof (split_at _ _ N1) as S1.
    assert (Lp : length (firstn (py first) (clines c)) = py first) by (rewrite firstn_length; lia).
    destruct (Nat.eqb_spec (py first) (py last)) as [Y|Y].
    + destruct Or as [Or|(_ & Or)]; [lia|]. assert (l2 = l1) as -> by congruence. destruct (Nat.ltb_spec (length l1) (px last)) as [X|X].
      * apply (@C01_exact u OpDelSelection c L). split; [reflexivity|]. exists t, l1.
        assert (S2 : sooner t (cpos c) = false) by (destruct (sooner t (cpos c)) eqn:S2; [|reflexivity]; exfalso; unfold last in N2, X; rewrite Nc in N2; injection N2 as <-; lia).
        unfold first, last in N1, N2, X, Y. rewrite S2 in N1, N2, X, Y. split; [exact T|]. split; [symmetry; exact Y|]. split; [exact N2|exact X].
      * assert (V : valid c).
        { split; [exact Nn|]. split; [exists lc; auto|]. split; [|exact Cl]. intros t' Et. rewrite T in Et. injection Et as <-. exists l1.
          unfold first, last in *. destruct (sooner t (cpos c)) eqn:S2; [split; [exact N1|lia]|split; [exact N2|exact X]]. }
        assert (Es' : selection c = mkRange (mkPos (length (firstn (py first) (clines c))) (px first)) (mkPos (length (firstn (py first) (clines c))) (px last))) by (rewrite Lp, Es; destruct first as (y1 & x1), last as (y2 & x2); cbn [py px] in *; subst y2; reflexivity).
        destruct (@C09_row c _ l1 _ (px first) (px last) V S1 Es' Or) as (c' & E & V' & T' & Ls & Cu). rewrite Lp in Cu. cbn [option_map]. exists c'. split; [exact E|]. split; [apply loose_valid, V'|].
        unfold m_view. rewrite T'. f_equal. apply view_of_cut; [apply V'|rewrite Ls; reflexivity|rewrite Cu; unfold text; rewrite Ls; reflexivity].
    + destruct Or as [Or|(Or & _)]; [|contradiction].
      assert (N2' : nth_error (skipn (S (py first)) (clines c)) (py last - S (py first)) = Some l2) by (rewrite nth_error_skipn; rewrite <- N2; f_equal; lia).
      pose proof (split_at _ _ N2') as S2. set (mid := firstn (py last - S (py first)) (skipn (S (py first)) (clines c))) in *.
      assert (Lm : length mid = py last - S (py first)) by (unfold mid; rewrite firstn_length, skipn_length; lia).
      assert (SK : skipn (S (py last - S (py first))) (skipn (S (py first)) (clines c)) = skipn (S (py last)) (clines c)).
      { clear - Or. replace (S (py last)) with (S (py first) + S (py last - S (py first))) by lia. generalize (S (py first)) (S (py last - S (py first))) (clines c). induction n as [|n IH]; intros m l; [reflexivity|]. destruct l as [|a l]; [rewrite !skipn_nil; reflexivity|]. exact (IH m l). }
      rewrite SK in S2. rewrite S2 in S1.
      assert (Es' : selection c = mkRange (mkPos (length (firstn (py first) (clines c))) (px first)) (mkPos (length (firstn (py first) (clines c)) + S (length mid)) (px last))).
      { rewrite Lp, Lm, Es. replace (py first + S (py last - S (py first))) with (py last) by lia. destruct first, last; reflexivity. }
      destruct (@C09_rows c _ l1 mid l2 _ (px first) (px last) L S1 Es') as (c' & E & V' & T' & Ls & Cu). rewrite Lp in Cu. cbn [option_map]. exists c'. split; [exact E|]. split; [apply loose_valid, V'|].
      unfold m_view. rewrite T'. f_equal. apply view_of_cut; [apply V'|rewrite Ls; reflexivity|rewrite Cu; unfold text; rewrite Ls; reflexivity].
Qed.
Print Assumptions C110_step.
(** So do the histories *)
Theorem C110_runs : forall u ops c, loose c ->
  match m_run u ops (m_view c) with
  | Some a => exists c', crun u ops c = Ret c' /\ loose c' /\ m_view c' = a
  | None => crun u ops c = Panic
  end.
Proof.
  intros u ops. induction ops as [|o ops IH]; intros c L; cbn [m_run crun]; [exists c; auto|]. pose proof (@C110_step u o c L) as S. destruct (m_apply u o (m_view c)) as [(a & b)|].
  - destruct S as (c' & E & L' & <-). rewrite E. cbn [bind]. exact (IH c' L').
  - rewrite S. reflexivity.
Qed.
Print Assumptions C110_runs.
(** Nothing else is in a content *)
Theorem C110_unique : forall c c', loose c -> loose c' -> m_view c = m_view c' -> c = c'.
Proof.
  intros c c' L L' E. pose proof (f_equal m_ed E) as Ev. pose proof (f_equal m_mark E) as Et. cbn [m_view m_ed m_mark] in Ev, Et. clear E. pose proof (@C90_unique _ _ (loose_free L) (loose_free L')) as Q. assert (set_ctail c None = set_ctail c' None) as H by (apply Q; exact Ev).
  destruct c as [p t ls], c' as [p' t' ls']. cbn in H, Et. injection H as -> ->. subst t'. reflexivity.
Qed.
Print Assumptions C110_unique.

(** ** Fields *)
From Verif Require Import M_View S_View M_Input S_Input S_Input2 L_Input L_Input2 L_Input3 P_Input P_Input2.
Open Scope nat_scope.
Lemma m_one u o c c1 b : loose c -> capply u o c = Ret (c1, b) -> loose c1 /\ m_apply u o (m_view c) = Some (m_view c1, b).
Proof.
  intros L E. pose proof (@C110_step u o c L) as S. destruct (m_apply u o (m_view c)) as [(a & b')|]; [|congruence]. destruct S as (c' & E' & L' & <-). rewrite E in E'. injection E' as <- <-. auto.
Qed.
Lemma wide_view c : loose c -> m_wide (m_view c) = has_wide_selection c.
Proof. intros L. unfold m_wide, has_wide_selection. cbn [m_view m_mark m_ed]. rewrite (loose_here L). reflexivity. Qed.
Lemma fix_scroll_content u f f' : fix_scroll u f = Ret f' -> if_content f' = if_content f.
Proof.
  unfold fix_scroll. intros E. apply bind_Ret_inv in E as (w & _ & E). apply bind_Ret_inv in E as (sy & _ & E). apply bind_Ret_inv in E as (l & _ & E). apply bind_Ret_inv in E as (sx & _ & E). injection E as <-. reflexivity.
Qed.
Lemma put_marked u f ch g b : loose (if_content f) -> put_char u f ch = Ret (g, b) -> m_apply u (OpInsertChar ch) (m_view (if_content f)) = Some (m_view (if_content g), true).
Proof.
  intros L P. unfold put_char in P. apply bind_Ret_inv in P as (c2 & P1 & P). apply bind_Ret_inv in P as (g2 & P2 & P). injection P as <- _. rewrite (@fix_scroll_content _ _ _ P2). cbn [with_content if_content].
  apply m_one; [exact L|]. cbn [capply]. unfold with_true. rewrite P1. reflexivity.
Qed.
Lemma selecting u (shift : bool) c : capply u (if shift then OpMakeSelection else OpUnselect) c = Ret (key_selection shift c, true).
Proof. destruct shift; cbn [capply]; [unfold make_selection, key_selection; destruct c as [p [t|] ls]; reflexivity|reflexivity]. Qed.
Lemma keycode_marked u f k (shift : bool) f' b : field_ok f -> apply_keycode_event u f k shift = Ret (f', b) -> m_press u (height f) k shift (m_view (if_content f)) = Some (m_view (if_content f')).
Proof.
  intros OK E. pose proof (loose_valid (proj1 OK)) as L. unfold m_press. rewrite (wide_view L).
  assert (DEL : forall o, (k = KBackspace /\ o = OpDelLeft \/ k = KDelete /\ o = OpDelBelow) -> m_run u [if has_wide_selection (if_content f) then OpDelSelection else o] (m_view (if_content f)) = Some (m_view (if_content f'))).
  { intros o K. destruct (@C14_key_delete u f shift k o OK K) as (c & b' & Ec & E'). rewrite E in E'. injection E' as -> _. cbv zeta in Ec. destruct (m_one _ _ L Ec) as (_ & Q). cbn [m_run]. rewrite Q. reflexivity. }
  destruct (keycode_cases f k) as [->|[->|[(ch & ->)|[(op & Eo)|Hi]]]].
  - apply DEL. auto.
  - apply DEL. auto.
  - unfold apply_keycode_event in E. destruct (has_wide_selection (if_content f)) eqn:W.
    + apply bind_Ret_inv in E as ((c1 & b1) & E1 & E). apply bind_Ret_inv in E as ((g & b2) & E2 & E). apply bind_Ret_inv in E as (g' & E3 & E). injection E as <- _.
      destruct (@m_one u OpDelSelection _ _ _ L E1) as (L1 & Q1). pose proof (@put_marked u (with_content f c1) ch g b2 L1 E2) as Q2. rewrite (@fix_scroll_content _ _ _ E3).
      cbn [app m_run]. rewrite Q1. cbn [with_content if_content] in Q2. rewrite Q2. reflexivity.
    + cbn [app m_run]. rewrite (@put_marked u f ch f' b L E). reflexivity.
  - destruct (@C14_key_move u f k shift op OK Eo) as (g & b' & E' & (c & Ec & D1 & D2)). rewrite E in E'. injection E' as <- <-. cbn [with_content if_content] in Ec.
    destruct (m_one _ _ L (selecting u shift (if_content f))) as (L1 & Q1). destruct (m_one _ _ L1 Ec) as (L2 & Q2).
    assert (PR : pressed (height f) k = [op]) by (destruct k; try discriminate Eo; injection Eo as <-; reflexivity).
    assert (Z : m_run u ((if shift then OpMakeSelection else OpUnselect) :: pressed (height f) k) (m_view (if_content f)) = Some (m_view c)) by (rewrite PR; cbn [m_run]; rewrite Q1, Q2; reflexivity).
    assert (if_content f' = c) as ->.
    { destruct b; [|rewrite (D2 eq_refl); reflexivity]. exact (@fix_scroll_content _ _ _ (D1 eq_refl)). }
    destruct k; try discriminate Eo; exact Z.
  - rewrite (@C14_key_ignored u f k shift Hi) in E. injection E as <- _. cbn [with_content if_content].
    destruct (m_one _ _ L (selecting u shift (if_content f))) as (L1 & Q1). destruct Hi as [-> | [-> | [-> | [-> | (n & ->)]]]]; cbn [pressed m_run]; rewrite Q1; reflexivity.
Qed.
Lemma press_marked u f k shift : field_ok f -> focused f = true ->
  exists f' b, if_apply u f (press_with (k, shift)) = Ret (f', b) /\ field_ok f' /\ only_content f f' /\ m_press u (height f) k shift (m_view (if_content f)) = Some (m_view (if_content f')).
Proof.
  intros OK F. destruct (keycode_ok u k shift OK) as (f' & b & E & OK' & OC). exists f', b. destruct (C14_event u f false) as (_ & EV0 & EV1 & _). cbn [if_apply press_with fst snd].
  split; [destruct shift; [rewrite (EV1 k F)|rewrite (EV0 k F)]; exact E|]. split; [exact OK'|]. split; [exact OC|]. exact (@keycode_marked u f k shift f' b OK E).
Qed.
(** Typing in a focused field, with shift or not: whatever the keys, the text, the cursor and the selection are the ones of the reference *)
Theorem C110_keys : forall u ks f, field_ok f -> focused f = true ->
  exists f', if_run u f (map press_with ks) = Ret f' /\ field_ok f' /\ only_content f f'
  /\ m_keys u (height f) ks (m_view (if_content f)) = Some (m_view (if_content f')).
Proof.
  intros u ks. induction ks as [|(k & shift) ks IH]; intros f OK F.
  - exists f. split; [reflexivity|]. split; [exact OK|]. split; [exists (if_content f), (if_scroll f); destruct f; reflexivity|reflexivity].
  - destruct (press_marked u k shift OK F) as (f1 & b & E1 & OK1 & OC & V1). cbn [map if_run]. rewrite E1. cbn [bind]. destruct OC as (c1 & s1 & Q).
    assert (F1 : focused f1 = true) by (rewrite Q; exact F). assert (H1 : height f1 = height f) by (rewrite Q; reflexivity).
    destruct (IH f1 OK1 F1) as (f' & E & OK' & (c2 & s2 & Q2) & V'). exists f'. split; [exact E|]. split; [exact OK'|].
    split; [exists c2, s2; rewrite Q2, Q; reflexivity|]. cbn [m_keys]. rewrite V1, <- H1. exact V'.
Qed.
(** The mouse, over the area of a focused field: [p] is the place of the content drawn in the cell under it *)
Theorem C110_mouse : forall u f e d, field_ok f -> cell_in (if_area f) (m_column e) (m_row e) -> focused f = true ->
  exists p f', clicked u f (m_column e) (m_row e) p /\ apply_mouse_event u f e d = Ret (f', true)
  /\ m_run u (m_mouse e d p) (m_view (if_content f)) = Some (m_view (if_content f')).
Proof.
  intros u f e d OK I F. destruct (@C14_mouse u f e d OK I F) as (p & K & VP & M1 & M2 & M3 & M4 & M5 & M6 & M7). exists p.
  pose proof (loose_valid (proj1 OK)) as L.
  assert (SC : forall sh, capply u (OpSetCursor p) (key_selection sh (if_content f)) = Ret (set_cpos (key_selection sh (if_content f)) p, true)).
  { intros sh. cbn [capply]. unfold with_true. rewrite set_cursor_exact; [reflexivity|apply key_selection_valid; exact (proj1 OK)|]. destruct sh, (if_content f) as [? [] ?]; exact VP. }
  assert (DN : forall sh : bool, m_run u [if sh then OpMakeSelection else OpUnselect; OpSetCursor p] (m_view (if_content f)) = Some (m_view (set_cpos (key_selection sh (if_content f)) p))).
  { intros sh. destruct (m_one _ _ L (selecting u sh (if_content f))) as (L1 & Q1). destruct (m_one _ _ L1 (SC sh)) as (_ & Q2). cbn [m_run]. rewrite Q1, Q2. reflexivity. }
  assert (SCR : forall o f1 b1, o = IfScrollUp \/ o = IfScrollDown -> if_apply u f o = Ret (f1, b1) -> if_content f1 = if_content f).
  { intros o f1 b1 [-> | ->] E; cbn [if_apply] in E; unfold scroll_up, scroll_down in E; repeat match type of E with context [if ?x then _ else _] => destruct x end; injection E as <- _; reflexivity. }
  assert (NO : m_mouse e d p = [] -> apply_mouse_event u f e d = Ret (f, true) -> exists f', clicked u f (m_column e) (m_row e) p /\ apply_mouse_event u f e d = Ret (f', true) /\ m_run u (m_mouse e d p) (m_view (if_content f)) = Some (m_view (if_content f'))).
  { intros -> E. exists f. split; [exact K|]. split; [exact E|reflexivity]. }
  unfold m_mouse in *. destruct (m_kind e) as [[]|[]|[]| | | | |] eqn:MK.
  { eexists. split; [exact K|]. split; [exact (M1 eq_refl)|]. exact (DN (N.eqb (m_mods e) 1)). }
  { apply NO; [reflexivity|]. apply M7. cbn. intuition discriminate. }
  { apply NO; [reflexivity|]. apply M7. cbn. intuition discriminate. }
  { destruct d; [|exact (NO eq_refl (M3 eq_refl eq_refl))]. destruct (M4 eq_refl eq_refl) as (c' & b & E1 & E2). eexists. split; [exact K|]. split; [exact E2|].
       assert (E0 : capply u (OpSetCursor p) (if_content f) = Ret (set_cpos (if_content f) p, true)) by (cbn [capply]; unfold with_true; rewrite set_cursor_exact; [reflexivity|exact (proj1 OK)|exact VP]).
       destruct (m_one _ _ L E0) as (L1 & Q1). destruct (m_one _ _ L1 E1) as (_ & Q2). cbn [m_run]. rewrite Q1, Q2. reflexivity. }
  { apply NO; [reflexivity|]. apply M7. cbn. intuition discriminate. }
  { apply NO; [reflexivity|]. apply M7. cbn. intuition discriminate. }
  { eexists. split; [exact K|]. split; [exact (M2 eq_refl)|]. exact (DN true). }
  { apply NO; [reflexivity|]. apply M7. cbn. intuition discriminate. }
  { apply NO; [reflexivity|]. apply M7. cbn. intuition discriminate. }
  { apply NO; [reflexivity|]. apply M7. cbn. intuition discriminate. }
  { destruct (M6 eq_refl) as (f1 & b1 & E1 & E2). exists f1. split; [exact K|]. split; [exact E2|]. rewrite (SCR _ _ _ (or_intror eq_refl) E1). reflexivity. }
  { destruct (M5 eq_refl) as (f1 & b1 & E1 & E2). exists f1. split; [exact K|]. split; [exact E2|]. rewrite (SCR _ _ _ (or_introl eq_refl) E1). reflexivity. }
  { apply NO; [reflexivity|]. apply M7. cbn. intuition discriminate. }
  { apply NO; [reflexivity|]. apply M7. cbn. intuition discriminate. }
Qed.
Print Assumptions C110_step.
Print Assumptions C110_runs.
Print Assumptions C110_keys.
Print Assumptions C110_mouse.

(** "ab" then "cd" on two lines: a selection from before the "b" to after the "c" is replaced by a typed "x"; the two lines aren't joined *)
Example C110_example :
  m_run demo [OpInsertStr [97; 98; 10; 99; 100]%N; OpSetCursor (mkPos 0 1); OpMakeSelection; OpLinesDown 1; OpDelSelection; OpInsertChar 120] (m_view content_default)
  = Some (mkMarked (mkEd [97; 120]%N [10; 100]%N) None)
  /\ exists c, crun demo [OpInsertStr [97; 98; 10; 99; 100]%N; OpSetCursor (mkPos 0 1); OpMakeSelection; OpLinesDown 1; OpDelSelection; OpInsertChar 120] content_default = Ret c
     /\ clines c = [[97; 120]; [100]]%N /\ cpos c = mkPos 0 2.
Proof. split; [vm_compute; reflexivity|]. eexists. split; [vm_compute; reflexivity|]. split; reflexivity. Qed.
(** A mark set after the end of its line makes the deletion panic, in the reference as in the program *)
Example C110_panic_example :
  m_run demo [OpInsertStr [10; 97; 98; 99; 100; 101; 102]%N; OpSetTail (mkPos 0 5); OpLinesUp 1; OpDelSelection] (m_view content_default) = None
  /\ crun demo [OpInsertStr [10; 97; 98; 99; 100; 101; 102]%N; OpSetTail (mkPos 0 5); OpLinesUp 1; OpDelSelection] content_default = Panic.
Proof. split; vm_compute; reflexivity. Qed.
(** The selection made with shift and left, which has the char of the first place and the one of the second place, is replaced by what is typed *)
Example C110_keys_example :
  m_keys demo 3 [(KLeft, true); (KChar 99, false); (KHome, false); (KDelete, false)] (mkMarked (mkEd [97; 98]%N [100]%N) None) = Some (mkMarked (mkEd [] [99]%N) None).
Proof. vm_compute. reflexivity. Qed.
Example C110_mouse_example : exists f', if_run demo field_ab [IfEvent (EMouse (mkMouse (MDown BLeft) 3 4 0)) false; IfEvent (EMouse (mkMouse (MDrag BLeft) 4 4 0)) false] = Ret f'
  /\ m_view (if_content f') = mkMarked (mkEd [97]%N [98]%N) (Some (mkPos 0 0)).
Proof. eexists. split; vm_compute; reflexivity. Qed.
