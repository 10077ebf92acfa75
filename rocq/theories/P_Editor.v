(** * C90: without selection, an input content is a plain text with a cursor *)
From Verif Require Import Base L_Base Demo M_Content S_Content L_Content L_Content2 L_Content3 L_Content4 P_Content M_View M_Input S_Input S_Input2 L_Input3 P_Input2 S_Editor L_Editor.
Open Scope nat_scope.
Set Implicit Arguments.

(** What is proved of an operation which did [r] *)
Definition does (c : content) (o : outcome (content * bool)) (r : editor * bool) : Prop :=
  exists c', o = Ret (c', snd r) /\ unselected c' /\ view c' = fst r.

Lemma view_eq c b a : text c = b ++ a -> cursor c = length b -> view c = mkEd b a.
Proof. intros T C. unfold view, put_at. rewrite T, C, firstn_app_exact, skipn_app_exact by reflexivity. reflexivity. Qed.
Lemma text_view c : text c = before (view c) ++ after (view c).
Proof. symmetry. apply whole_view. Qed.
Lemma does_nothing c o : unselected c -> o = Ret (c, false) -> does c o (nothing (view c)).
Proof. intros U E. exists c. auto. Qed.
Lemma does_go c o i : unselected c -> (exists c', o = Ret (c', true) /\ valid c' /\ same_text c c' /\ cursor c' = i) -> does c o (go i (view c)).
Proof. intros U (c' & E & V & ST & C). exists c'. split; [exact E|]. eapply moved; eassumption. Qed.
Lemma does_go_b c o i b : unselected c -> (exists c', o = Ret (c', b) /\ valid c' /\ same_text c c' /\ cursor c' = i) ->
  (b = false <-> cursor c = i) -> does c o (if cursor c =? i then nothing (view c) else go i (view c)).
Proof.
  intros U (c' & E & V & ST & C) B. destruct (Nat.eqb_spec (cursor c) i) as [Q|Q].
  - assert (F : b = false) by (apply B; exact Q). exists c'. rewrite E, F. split; [reflexivity|].
    destruct (moved U V ST C) as (X & Y). split; [exact X|]. rewrite Y. cbn [fst nothing]. unfold view. rewrite whole_put, Q. reflexivity.
  - destruct b; [|exfalso; apply Q, B; reflexivity]. apply does_go; [exact U|eauto].
Qed.
Lemma cursor_le_len c : unselected c -> cursor c <= length (text c).
Proof. intros (V & _). apply cursor_le. exact V. Qed.
Lemma after_length c : length (after (view c)) = length (text c) - cursor c.
Proof. cbn [view put_at after]. apply skipn_length. Qed.

Lemma step_set_cursor c p : unselected c -> does c (with_true (set_cursor_pos c p)) (go (reach (at_char (px p)) (py p) (whole (view c))) (view c)).
Proof.
  intros U. pose proof U as (V & T). pose proof V as (Z & _ & _ & Cl). destruct (set_cursor_pos_spec p V) as (c' & E & V' & ST & _ & A & B).
  apply does_go; [exact U|]. exists c'. rewrite E. refine (conj eq_refl (conj V' (conj ST _))).
  rewrite whole_view. unfold text. rewrite reach_flat by assumption. destruct (Nat.ltb_spec (py p) (length (clines c))) as [L|L].
  - destruct (nth_error (clines c) (py p)) as [l|] eqn:N; [|apply nth_error_None in N; lia].
    unfold cursor, offset. rewrite (proj1 ST), (B l eq_refl). rewrite (nth_error_nth _ _ [] N). reflexivity.
  - apply A. exact L.
Qed.

Lemma step_left c : unselected c -> does c (move_left c) (e_left (view c)).
Proof.
  intros U. pose proof U as (V & T). destruct (move_left_spec V) as (A & B). pose proof (before_length V) as L. unfold e_left.
  destruct (before (view c)) as [|x b] eqn:Q.
  - apply does_nothing; [exact U|]. apply B. cbn in L. lia.
  - destruct A as (c' & E & V' & ST & C); [cbn in L; lia|]. apply does_go; [exact U|]. exists c'. rewrite L. refine (conj E (conj V' (conj ST _))). lia.
Qed.
Lemma step_right c : unselected c -> does c (move_right c) (e_right (view c)).
Proof.
  intros U. pose proof U as (V & T). destruct (move_right_spec V) as (A & B). pose proof (before_length V) as L. pose proof (after_length c) as L'.
  pose proof (cursor_le V) as M. unfold e_right.
  destruct (after (view c)) as [|x b] eqn:Q; cbn [length] in L'.
  - apply does_nothing; [exact U|]. apply B. lia.
  - destruct A as (c' & E & V' & ST & C); [lia|]. apply does_go; [exact U|]. exists c'. rewrite L. auto.
Qed.
Lemma step_start c : unselected c -> does c (Ret (move_to_start c)) (e_start (view c)).
Proof.
  intros U. pose proof U as (V & T). destruct (move_to_start_spec V) as (c' & b & E & V' & ST & C & B). pose proof (before_length V) as L.
  assert (D := does_go_b U (ex_intro _ c' (conj (f_equal Ret E) (conj V' (conj ST C)))) B). unfold e_start.
  destruct (before (view c)) as [|x r]; cbn [length] in L; destruct (Nat.eqb_spec (cursor c) 0); try lia; exact D.
Qed.
Lemma step_end c : unselected c -> does c (move_to_end c) (e_end (view c)).
Proof.
  intros U. pose proof U as (V & T). destruct (move_to_end_spec V) as (c' & b & E & V' & ST & C & B). pose proof (after_length c) as L.
  pose proof (cursor_le V) as M.
  assert (D := does_go_b U (ex_intro _ c' (conj E (conj V' (conj ST C)))) B). unfold e_end. rewrite whole_view.
  destruct (after (view c)) as [|x r]; cbn [length] in L; destruct (Nat.eqb_spec (cursor c) (length (text c))); try lia; exact D.
Qed.

Lemma cursor_row c c' pre l1 l2 post x : parts c pre l1 l2 post -> same_text c c' -> cpos c' = mkPos (length pre) x -> cursor c' = length (pj pre) + x.
Proof. intros P (S & _) E. unfold cursor, offset. rewrite S, E, (proj1 (lines_parts P)). apply offset_mid. Qed.
Lemma before_len c pre l1 l2 post : parts c pre l1 l2 post -> length (before (view c)) = length (pj pre) + length l1.
Proof. intros P. rewrite (p_before P), app_length. reflexivity. Qed.

Lemma step_line_start c : unselected c -> does c (Ret (move_to_line_start c)) (e_line_start (view c)).
Proof.
  intros U. pose proof U as (V & T). destruct (view_parts U) as (pre & l1 & l2 & post & P). pose proof (cursor_parts P) as CP. pose proof (before_len P) as BL.
  destruct (lines_parts P) as (Ls & Cp & Nt). destruct (move_to_line_start_spec V) as (c' & b & E & V' & ST & C & B). rewrite Cp in C, B. cbn [py px] in C, B.
  pose proof (cursor_row P ST C) as C'. assert (B' : b = false <-> cursor c = length (pj pre) + 0) by (rewrite B; lia).
  assert (D := does_go_b U (ex_intro _ c' (conj (f_equal Ret E) (conj V' (conj ST C')))) B'). unfold e_line_start. rewrite (p_left P).
  destruct l1 as [|x r]; cbn [length] in *; destruct (Nat.eqb_spec (cursor c) (length (pj pre) + 0)); try lia; [exact D|].
  replace (length (before (view c)) - S (length r)) with (length (pj pre) + 0) by lia. exact D.
Qed.
Lemma step_line_end c : unselected c -> does c (move_to_line_end c) (e_line_end (view c)).
Proof.
  intros U. pose proof U as (V & T). destruct (view_parts U) as (pre & l1 & l2 & post & P). pose proof (cursor_parts P) as CP. pose proof (before_len P) as BL.
  destruct (lines_parts P) as (Ls & Cp & Nt). destruct (move_to_line_end_spec V) as (c' & b & l & E & V' & ST & Nl & C & B). rewrite Cp in C, B. cbn [py px] in C, B.
  rewrite Nt in Nl. injection Nl as <-.
  pose proof (cursor_row P ST C) as C'. rewrite app_length in *. assert (B' : b = false <-> cursor c = length (pj pre) + (length l1 + length l2)) by (rewrite B; lia).
  assert (D := does_go_b U (ex_intro _ c' (conj E (conj V' (conj ST C')))) B'). unfold e_line_end. rewrite (p_right P).
  destruct l2 as [|x r]; cbn [length] in *.
  - destruct (Nat.eqb_spec (cursor c) (length (pj pre) + (length l1 + 0))); [exact D|lia].
  - destruct (Nat.eqb_spec (cursor c) (length (pj pre) + (length l1 + S (length r)))); [lia|].
    replace (length (before (view c)) + S (length r)) with (length (pj pre) + (length l1 + S (length r))) by lia. exact D.
Qed.

Lemma step_vertical c c' u y' pre l1 l2 post : unselected c -> parts c pre l1 l2 post -> valid c' -> same_text c c' -> vertical_to u c c' y' -> y' < length (clines c) ->
  cursor c' = reach (at_column u (e_column u (view c))) y' (whole (view c)).
Proof.
  intros U P V' ST (Y & l & l' & N & N' & F) L. pose proof U as ((Z & _ & _ & Cl) & _). destruct (lines_parts P) as (Ls & Cp & Nt).
  rewrite whole_view. unfold text. rewrite reach_flat by assumption. rewrite (proj2 (Nat.ltb_lt _ _) L). unfold cursor, offset. rewrite (proj1 ST).
  rewrite (nth_error_nth _ _ [] N'). f_equal. destruct (cpos c') as [y x]. cbn [py px] in *. subst y. f_equal.
  eapply first_idx_unique; [exact F|]. rewrite Nt in N. injection N as <-. rewrite Cp. cbn [px]. rewrite firstn_app_exact by reflexivity.
  unfold e_column. rewrite (p_left P). apply at_column_spec.
Qed.
Lemma step_up u n c : unselected c -> does c (move_lines_up u c n) (e_up u n (view c)).
Proof.
  intros U. pose proof U as (V & T). destruct (view_parts U) as (pre & l1 & l2 & post & P). destruct (lines_parts P) as (Ls & Cp & Nt).
  destruct (move_lines_up_spec u n V) as (A & B). rewrite Cp in A, B. cbn [py] in A, B. unfold e_up. rewrite (p_above P). destruct pre as [|l0 pre]; cbn [length] in *.
  - apply does_nothing; [exact U|]. apply A. reflexivity.
  - destruct B as (c' & E & V' & ST & VT); [lia|]. apply does_go; [exact U|]. exists c'. refine (conj E (conj V' (conj ST _))).
    eapply step_vertical; try eassumption. rewrite Ls, app_length. cbn [length]. lia.
Qed.
Lemma step_down u n c : unselected c -> does c (move_lines_down u c n) (e_down u n (view c)).
Proof.
  intros U. pose proof U as (V & T). destruct (view_parts U) as (pre & l1 & l2 & post & P). destruct (lines_parts P) as (Ls & Cp & Nt).
  destruct (move_lines_down_spec u n V) as (A & B). assert (Ln : length (clines c) = length pre + S (length post)) by (rewrite Ls, app_length; reflexivity).
  rewrite Cp, Ln in A, B. cbn [py] in A, B. unfold e_down. rewrite (p_above P), (p_under P). destruct post as [|l0 post]; cbn [length] in *.
  - apply does_nothing; [exact U|]. apply A. lia.
  - destruct B as (c' & E & V' & ST & VT); [lia|]. apply does_go; [exact U|]. exists c'. refine (conj E (conj V' (conj ST _))).
    replace (min (length pre + n) (length pre + S (S (length post)) - 1)) with (length pre + min n (S (length post))) in VT by lia.
    eapply step_vertical; try eassumption. lia.
Qed.

Lemma step_word_left u c : unselected c -> does c (move_word_left u c) (e_word_left u (view c)).
Proof.
  intros U. pose proof U as (V & T). destruct (view_parts U) as (pre & l1 & l2 & post & P). destruct (lines_parts P) as (Ls & Cp & Nt). pose proof (before_len P) as BL.
  destruct (move_word_left_spec u V) as (A & B). unfold e_word_left, back_word. rewrite (p_left P), BL.
  destruct (Nat.eq_dec (length l1) 0) as [Z|Z].
  - destruct l1; [|discriminate]. apply does_nothing; [exact U|]. apply A. rewrite Cp. reflexivity.
  - destruct B as (c' & l & E & V' & ST & N & Y & W); [rewrite Cp; cbn [px]; lia|].
    rewrite Nt in N. injection N as <-. rewrite Cp in W, Y. cbn [px py] in W, Y. pose proof W as (W' & _). apply word_left_run in W.
    assert (D : does c (move_word_left u c) (go (length (pj pre) + px (cpos c')) (view c))).
    { apply does_go; [exact U|]. exists c'. refine (conj E (conj V' (conj ST _))). eapply cursor_row; [exact P|exact ST|]. rewrite <- Y. destruct (cpos c'); reflexivity. }
    pose proof (run_le u (tl (rev l1))) as R. assert (length (tl (rev l1)) = length l1 - 1) by (rewrite <- (rev_length l1); destruct (rev l1); cbn [tl length]; lia).
    destruct l1 as [|x1 r1] eqn:Q; [cbn in Z; lia|]. rewrite <- Q in *.
    replace (length (pj pre) + length l1 - S (run u (tl (rev l1)))) with (length (pj pre) + px (cpos c')) by lia. exact D.
Qed.
Lemma step_word_right u c : unselected c -> does c (move_word_right u c) (e_word_right u (view c)).
Proof.
  intros U. pose proof U as (V & T). destruct (view_parts U) as (pre & l1 & l2 & post & P). destruct (lines_parts P) as (Ls & Cp & Nt). pose proof (before_len P) as BL.
  destruct (@move_word_right_spec u c (l1 ++ l2) V Nt) as (A & B). rewrite Cp in A, B. cbn [px py] in A, B. rewrite app_length in A, B. unfold e_word_right. rewrite (p_right P), BL.
  destruct l2 as [|x2 r2] eqn:Q; [apply does_nothing; [exact U|]; apply A; cbn [length]; lia|]. rewrite <- Q in *.
  destruct B as (c' & E & V' & ST & Y & W); [rewrite Q; cbn [length]; lia|]. apply word_right_run in W.
  apply does_go; [exact U|]. exists c'. refine (conj E (conj V' (conj ST _))). rewrite (@cursor_row _ _ _ _ _ _ (px (cpos c')) P ST); [lia|].
  rewrite <- Y. destruct (cpos c'); reflexivity.
Qed.

(** ** Editions *)

Lemma insert_char_tail c ch c' : valid c -> ctail c = None -> insert_char c ch = Ret c' -> ctail c' = None.
Proof.
  intros V T E. destruct (insert_char_spec ch V) as (c1 & E1 & _ & _ & K). rewrite E in E1. injection E1 as <-.
  destruct (N.eq_dec ch c_nl) as [->|N]; [|rewrite K by exact N; exact T].
  destruct (view_parts (conj V T)) as (pre & l1 & l2 & post & P). rewrite (p_eq P) in E. unfold insert_char in E. change (c_nl =? c_nl)%N with true in E.
  cbn [orb] in E. rewrite insert_new_line_eq in E. injection E as <-. reflexivity.
Qed.
Lemma insert_str_tail s : forall c c', valid c -> ctail c = None -> insert_str c s = Ret c' -> ctail c' = None.
Proof.
  induction s as [|ch s IH]; intros c c' V T E.
  - cbn in E. injection E as <-. exact T.
  - destruct (insert_char_spec ch V) as (c1 & E1 & V1 & _ & _). cbn [insert_str] in E. rewrite E1 in E. cbn [bind] in E.
    eapply IH; [exact V1| |exact E]. eapply insert_char_tail; [exact V|exact T|exact E1].
Qed.
Lemma inserted_view c c' s : inserted c c' s -> valid c -> view c' = mkEd (before (view c) ++ s) (after (view c)).
Proof.
  intros (A & B) V. apply view_eq; [rewrite A, <- app_assoc; reflexivity|]. rewrite app_length, B. rewrite (before_length V). reflexivity.
Qed.
Lemma step_type s c : unselected c -> does c (with_true (insert_str c s)) (e_type s (view c)).
Proof.
  intros (V & T). destruct (insert_str_spec s V) as (c' & E & V' & I). exists c'. rewrite E. split; [reflexivity|].
  split; [split; [exact V'|exact (@insert_str_tail s c c' V T E)]|]. apply inserted_view; assumption.
Qed.
Lemma step_char ch c : unselected c -> does c (with_true (insert_char c ch)) (e_type [ch] (view c)).
Proof.
  intros (V & T). destruct (insert_char_spec ch V) as (c' & E & V' & I & _). exists c'. rewrite E. split; [reflexivity|].
  split; [split; [exact V'|exact (@insert_char_tail c ch c' V T E)]|]. apply inserted_view; assumption.
Qed.
Lemma step_new_line c : unselected c -> does c (with_true (insert_new_line c)) (e_type [c_nl] (view c)).
Proof. intros U. exact (step_char c_nl U). Qed.
Lemma push_char_cursor c ch c' pre l1 l2 post : parts c pre l1 l2 post -> push_char c ch = Ret c' -> cursor c' = length (pj pre) + length l1.
Proof.
  intros P. rewrite (p_eq P). unfold push_char. cbn [clines set_clines cpos ctail]. rewrite <- app_length. destruct (N.eqb ch c_nl).
  - intros E. injection E as <-. rewrite <- app_assoc. apply cursor_mid.
  - destruct (N.eqb ch c_cr || N.eqb ch c_bs); [intros E; injection E as <-; apply cursor_mid|].
    destruct (last_case post) as [->|(post' & z & ->)].
    + rewrite app_length. cbn [length]. rewrite csub_ret by lia. rewrite bind_ret. replace (length pre + 1 - 1) with (length pre) by lia.
      rewrite idx_app_mid, bind_ret, set_nth_mid. intros E. injection E as <-. apply cursor_mid.
    + replace (pre ++ (l1 ++ l2) :: post' ++ [z]) with ((pre ++ (l1 ++ l2) :: post') ++ [z]) by (rewrite <- app_assoc; reflexivity).
      set (q := pre ++ (l1 ++ l2) :: post'). rewrite app_length. cbn [length]. rewrite csub_ret by lia. rewrite bind_ret.
      replace (length q + 1 - 1) with (length q) by lia. rewrite idx_app_mid, bind_ret, set_nth_mid. intros E. injection E as <-.
      unfold set_clines. cbn [cpos ctail]. subst q. rewrite <- app_assoc. apply cursor_mid.
Qed.
Lemma step_append ch c : unselected c -> does c (with_true (push_char c ch)) (e_append [ch] (view c)).
Proof.
  intros U. pose proof U as (V & T). destruct (push_char_spec ch V) as (c' & E & V' & A & B & C). exists c'. rewrite E. split; [reflexivity|].
  split; [split; [exact V'|congruence]|]. apply view_eq; [rewrite A, text_view, <- app_assoc; reflexivity|]. rewrite (before_length V).
  destruct (view_parts U) as (pre & l1 & l2 & post & P). rewrite (cursor_parts P). eapply push_char_cursor; [exact P|exact E].
Qed.
Lemma step_set s c : unselected c -> does c (with_true (set_str c s)) (e_set s (view c)).
Proof.
  intros U. pose proof U as (V & T). destruct (set_str_spec s V) as (c' & E & V' & A & B). exists c'. rewrite E. split; [reflexivity|].
  unfold e_set. cbn [fst]. rewrite whole_view. destruct (list_eq_dec N.eq_dec (text c) s) as [Q|Q].
  - rewrite (A Q). auto.
  - destruct (B Q) as (B1 & B2 & B3). split; [split; assumption|]. apply view_eq; [rewrite app_nil_r; exact B1|]. rewrite <- B1. exact B2.
Qed.
Lemma step_clear c : unselected c -> does c (Ret (clear c, true)) (mkEd [] [], true).
Proof. intros U. exists (clear c). split; [reflexivity|]. split; [|reflexivity]. split; [exact valid_default|reflexivity]. Qed.

Lemma removelast_firstn {A} (l : list A) : removelast l = firstn (length l - 1) l.
Proof. rewrite removelast_firstn_len. f_equal. lia. Qed.
Lemma step_delete_left c : unselected c -> does c (del_char_left c) (e_delete_left (view c)).
Proof.
  intros U. pose proof U as (V & T). destruct (del_char_left_spec V) as (A & B). pose proof (before_length V) as L. pose proof (cursor_le V) as M. unfold e_delete_left.
  destruct (before (view c)) as [|x b] eqn:Q.
  - apply does_nothing; [exact U|]. apply A. cbn in L. lia.
  - rewrite <- Q in *. destruct B as (c' & E & V' & K & R & C); [rewrite Q in L; cbn in L; lia|]. exists c'. split; [exact E|].
    split; [split; [exact V'|eapply kept_none; eassumption]|]. cbn [fst]. rewrite removelast_firstn, L.
    cbn [view put_at before]. rewrite firstn_firstn. apply view_eq; [|rewrite firstn_length; lia]. rewrite R. f_equal. f_equal. lia.
Qed.
Lemma last_empty_iff c : unselected c -> cursor c = length (text c) ->
  (last_line_empty c <-> exists b, before (view c) = b ++ [c_nl]).
Proof.
  intros U C. destruct (view_parts U) as (pre & l1 & l2 & post & P). destruct (lines_parts P) as (Ls & _ & _).
  assert (Z : l2 = [] /\ post = []).
  { assert (X : length (after (view c)) = 0) by (rewrite after_length; lia). rewrite (p_after P), app_length in X.
    split; [destruct l2; [reflexivity|cbn in X; lia]|]. destruct post; [reflexivity|]. rewrite sj_cons in X. cbn in X. lia. }
  destruct Z as (-> & ->). rewrite app_nil_r in Ls. rewrite (p_before P). split.
  - intros (q & Nq & E). rewrite Ls in E. apply app_inj_tail in E. destruct E as (<- & ->). destruct (last_case pre) as [->|(pre' & z & ->)]; [congruence|].
    exists (pj pre' ++ z). rewrite pj_snoc, app_nil_r, app_assoc. reflexivity.
  - intros (b & E). assert (l1 = []) as ->.
    { destruct (last_case l1) as [->|(l1' & z & ->)]; [reflexivity|]. rewrite app_assoc in E. apply app_inj_tail in E. destruct E as (_ & ->).
      exfalso. assert (X : In c_nl (l1' ++ [c_nl])) by (apply in_or_app; right; left; reflexivity). exact (p_l1 P X eq_refl). }
    exists pre. split; [|exact Ls]. intros ->. cbn in E. destruct b; discriminate.
Qed.
Lemma step_delete_below c : unselected c -> does c (del_char_below c) (e_delete_below (view c)).
Proof.
  intros U. pose proof U as (V & T). destruct (del_char_below_spec V) as (A & B & D). pose proof (after_length c) as L. pose proof (cursor_le V) as M.
  pose proof (text_view c) as TV. unfold e_delete_below. destruct (after (view c)) as [|x a] eqn:Q.
  - assert (Z : cursor c = length (text c)) by (cbn in L; lia). specialize (B Z). specialize (D Z). pose proof (last_empty_iff U Z) as LE.
    destruct (rev (before (view c))) as [|ch r] eqn:R.
    + apply (f_equal (@rev _)) in R. rewrite rev_involutive in R. cbn [rev] in R. rewrite R in LE. apply does_nothing; [exact U|]. apply B.
      intros X. apply LE in X. destruct X as (b & X). destruct b; discriminate.
    + apply (f_equal (@rev _)) in R. rewrite rev_involutive in R. cbn [rev] in R. destruct (N.eqb_spec ch c_nl) as [->|N].
      * destruct D as (c' & E & V' & K & X & Y); [apply LE; eauto|]. exists c'. split; [exact E|]. split; [split; [exact V'|eapply kept_none; eassumption]|].
        cbn [fst]. rewrite R, removelast_last. rewrite TV, app_nil_r, R in X. apply app_inj_tail in X. destruct X as (X & _).
        rewrite X. apply view_eq; [symmetry; apply app_nil_r|exact Y].
      * apply does_nothing; [exact U|]. apply B. intros X. apply LE in X. destruct X as (b & X). rewrite R in X. apply app_inj_tail in X. destruct X. congruence.
  - destruct A as (c' & E & V' & K & R & _ & C); [cbn in L; lia|]. exists c'. split; [exact E|]. split; [split; [exact V'|eapply kept_none; eassumption]|].
    cbn [fst]. apply view_eq; [|rewrite C, (before_length V); reflexivity]. rewrite R. f_equal.
    rewrite TV. apply skipn_cons_exact. rewrite (before_length V). reflexivity.
Qed.
Lemma step_delete_selection c : unselected c -> does c (del_selection c) (e_delete_below (view c)).
Proof.
  intros U. pose proof U as (V & T). destruct (del_selection_spec V) as (_ & _ & _ & _ & _ & E). rewrite E; [apply step_delete_below; exact U|].
  unfold selection. rewrite T. destruct (pos_ltb (cpos c) (cpos c)); reflexivity.
Qed.

Lemma replaced_view c c' pre l1 l2 post a b : parts c pre l1 l2 post -> line_replaced c c' (a ++ b) -> cpos c' = mkPos (length pre) (length a) ->
  view c' = mkEd (pj pre ++ a) (b ++ sj post).
Proof.
  intros P R C. destruct (lines_parts P) as (Ls & Cp & _). unfold line_replaced in R. rewrite Ls, Cp in R. cbn [py] in R.
  rewrite firstn_app_exact in R by reflexivity. rewrite skipn_cons_exact in R by reflexivity. destruct c' as [p t ls]. cbn [clines cpos] in *. subst p ls.
  apply view_eq; [apply text_mid|apply cursor_mid].
Qed.
Lemma step_delete_word_left u c : unselected c -> does c (del_word_left u c) (e_delete_word_left u (view c)).
Proof.
  intros U. pose proof U as (V & T). destruct (view_parts U) as (pre & l1 & l2 & post & P). destruct (lines_parts P) as (Ls & Cp & Nt). pose proof (before_len P) as BL.
  destruct (del_word_left_spec u V) as (A & B). unfold e_delete_word_left, back_word. rewrite (p_left P), BL, (p_before P), (p_after P).
  destruct l1 as [|x1 r1] eqn:Q; [apply does_nothing; [exact U|]; apply A; rewrite Cp; reflexivity|]. rewrite <- Q in *.
  assert (Z : 0 < length l1) by (rewrite Q; cbn; lia). clear Q x1 r1.
  destruct B as (c' & l & E & V' & K & N & Y & W & R); [rewrite Cp; exact Z|].
  rewrite Nt in N. injection N as <-. rewrite Cp in W, Y, R. cbn [px py] in W, Y, R. pose proof W as (W' & _). apply word_left_run in W.
  exists c'. split; [exact E|]. split; [split; [exact V'|eapply kept_none; eassumption]|]. cbn [fst].
  rewrite skipn_app_exact in R by reflexivity. rewrite firstn_app in R. replace (px (cpos c') - length l1) with 0 in R by lia. cbn [firstn] in R. rewrite app_nil_r in R.
  rewrite firstn_app. pose proof (run_le u (tl (rev l1))) as RL.
  assert (length (tl (rev l1)) = length l1 - 1) by (rewrite <- (rev_length l1); destruct (rev l1); cbn [tl length]; lia).
  rewrite firstn_all2 by lia. replace (length (pj pre) + length l1 - S (run u (tl (rev l1))) - length (pj pre)) with (px (cpos c')) by lia.
  apply (replaced_view _ _ P); [exact R|]. rewrite firstn_length. rewrite <- Y. destruct (cpos c') as [y x]; cbn [py px] in *. f_equal. lia.
Qed.
Lemma step_delete_word_right u c : unselected c -> does c (del_word_right u c) (e_delete_word_right u (view c)).
Proof.
  intros U. pose proof U as (V & T). destruct (view_parts U) as (pre & l1 & l2 & post & P). destruct (lines_parts P) as (Ls & Cp & Nt). pose proof (before_len P) as BL.
  destruct (del_word_right_spec u V Nt) as (A & B & D). rewrite Cp in A, B. cbn [px py] in A, B. rewrite app_length in A, B, D.
  unfold e_delete_word_right. rewrite (p_left P), (p_right P), BL, (p_before P), (p_after P). pose proof (run_le u l2) as RL.
  destruct (Nat.eq_dec (length l2) 0) as [Z|Z].
  - destruct l2; [|discriminate]. cbn [run length Nat.ltb Nat.leb skipn app] in *. clear A. destruct (Nat.eq_dec (length l1) 0) as [Z1|Z1].
    + destruct l1; [|discriminate]. apply does_nothing; [exact U|]. apply D. reflexivity.
    + destruct B as (c' & E & V' & ST & C); [lia..|]. exists c'.
      destruct (moved U V' ST (cursor_row P ST C)) as (X & Y). split; [destruct l1; [contradiction|exact E]|]. split; [exact X|]. rewrite Y, whole_view, text_view, (p_before P), (p_after P).
      destruct l1 as [|x1 r1] eqn:Q; [cbn in Z1; lia|]. rewrite <- Q in *. cbn [app fst]. f_equal. lia.
  - clear B D. destruct A as (c' & e & E & V' & K & W & R & Y & X1 & X2); [lia|]. destruct (@word_del_run u l1 l2 e W) as (W1 & W2). clear W.
    assert (F : firstn (length l1) (l1 ++ l2) = l1) by (apply firstn_app_exact; reflexivity). rewrite F in R.
    assert (SK : forall n, skipn (length l1 + n) (l1 ++ l2) = skipn n l2).
    { intros n. rewrite skipn_app, skipn_all2 by lia. cbn [app]. f_equal. lia. }
    assert (SA : forall n, n <= length l2 -> skipn n (l2 ++ sj post) = skipn n l2 ++ sj post).
    { intros n Hn. rewrite skipn_app. replace (n - length l2) with 0 by lia. reflexivity. }
    assert (UC : unselected c') by (split; [exact V'|eapply kept_none; eassumption]).
    assert (PC : forall x, px (cpos c') = x -> cpos c' = mkPos (length pre) x) by (intros x <-; rewrite <- Y; destruct (cpos c'); reflexivity).
    destruct (Nat.ltb_spec (run u l2) (length l2)) as [L|L].
    + destruct (W1 L) as (-> & NA). specialize (X2 NA). exists c'. split; [exact E|]. split; [exact UC|]. cbn [fst]. rewrite SA by lia. rewrite SK in R.
      apply (replaced_view _ _ P); [exact R|]. apply PC. exact X2.
    + destruct (W2 ltac:(lia)) as (-> & NA). specialize (X1 NA). rewrite SK in R. rewrite SA by lia. replace (run u l2) with (length l2) by lia. rewrite skipn_all in *.
      rewrite app_nil_r in R. cbn [app]. destruct l1 as [|x1 r1] eqn:Q.
      * destruct l2 as [|x2 r2]; [cbn in Z; lia|]. exists c'. split; [exact E|]. split; [exact UC|]. cbn [fst]. apply (replaced_view [] [] P); [exact R|]. apply PC. exact X1.
      * rewrite <- Q in *. exists c'. split; [destruct l2; [cbn in Z; lia|]; exact E|]. split; [exact UC|].
        assert (G : view c' = put_at (length (pj pre) + length l1 - 1) ((pj pre ++ l1) ++ sj post)).
        { destruct (last_case l1) as [->|(r & z & EQ)]; [discriminate|]. rewrite EQ in R |- *. rewrite (@replaced_view c c' pre l1 l2 post r [z] P); [|exact R|apply PC; rewrite X1, EQ, app_length; cbn; lia].
          unfold put_at. rewrite !app_length. cbn [length]. replace ((pj pre ++ r ++ [z]) ++ sj post) with ((pj pre ++ r) ++ [z] ++ sj post) by (rewrite <- !app_assoc; reflexivity).
          rewrite firstn_app_exact, skipn_app_exact by (rewrite app_length; lia). reflexivity. }
        rewrite G. destruct l2; [cbn in Z; lia|]. reflexivity.
Qed.

Lemma swapped_sym a b ls ls' : lines_swapped a b ls ls' -> lines_swapped b a ls ls'.
Proof. intros (A & B & C & D). split; [exact A|]. split; [exact C|]. split; [exact B|]. auto. Qed.
Lemma exchanged c c' i j y x : unselected c -> valid c' -> tail_kept c c' -> lines_swapped i j (clines c) (clines c') -> i < length (clines c) -> j < length (clines c) ->
  py (cpos c') = y -> (exists l, nth_error (clines c') y = Some l /\ px (cpos c') = min x (length l)) ->
  unselected c' /\ view c' = fst (e_exchange i j y x (view c)).
Proof.
  intros U V' K SW I J Y (l & N & X). pose proof U as (V & T). split; [split; [exact V'|eapply kept_none; eassumption]|].
  destruct (view_parts U) as (pre & l1 & l2 & post & P). unfold e_exchange. cbn [fst]. rewrite (p_lines P), <- (exchange_spec SW I J).
  unfold view. f_equal. change (flat (clines c')) with (text c'). unfold text. pose proof V' as (Z & _ & _ & Cl). rewrite reach_flat by assumption.
  assert (L : y < length (clines c')) by (apply nth_error_Some; congruence). rewrite (proj2 (Nat.ltb_lt _ _) L).
  unfold cursor, offset. f_equal. rewrite (nth_error_nth _ _ [] N). unfold at_char. rewrite <- X, <- Y. destruct (cpos c'); reflexivity.
Qed.
Lemma step_swap a b c : unselected c -> does c (swap_lines c a b) (e_swap a b (view c)).
Proof.
  intros U. pose proof U as (V & T). destruct (view_parts U) as (pre & l1 & l2 & post & P). destruct (lines_parts P) as (Ls & Cp & Nt).
  destruct (swap_lines_spec a b V) as (A & B). unfold e_swap. rewrite (p_lines P), (p_above P), (p_left P).
  destruct ((a =? b) || (length (clines c) <=? a) || (length (clines c) <=? b)) eqn:Q.
  - apply does_nothing; [exact U|]. apply A. lia.
  - clear A. destruct B as (c' & E & V' & SW & Y & (l & N & X) & K); [lia..|]. rewrite Cp in Y, N, X. cbn [py px] in Y, N, X.
    exists c'. split; [exact E|]. apply exchanged; try assumption; [lia..|eauto].
Qed.
Lemma nth_in_parts c y (l : Line) : nth_error (clines c) y = Some l -> nth y (clines c) [] = l.
Proof. intros H. apply (nth_error_nth _ _ [] H). Qed.
Lemma step_line_up c : unselected c -> does c (move_current_line_up c) (e_line_up (view c)).
Proof.
  intros U. pose proof U as (V & T). destruct (view_parts U) as (pre & l1 & l2 & post & P). destruct (lines_parts P) as (Ls & Cp & Nt).
  assert (Ln : length (clines c) = length pre + S (length post)) by (rewrite Ls, app_length; reflexivity).
  destruct (move_current_line_up_spec V) as (A & B). rewrite Cp in A, B, Nt. cbn [py px] in A, B, Nt. unfold e_line_up, e_move_line. rewrite (p_above P), (p_left P), (p_lines P).
  destruct (length pre) as [|y'] eqn:Q; [apply does_nothing; [exact U|]; apply A; reflexivity|].
  destruct (B y' eq_refl) as (c' & l0 & E & V' & SW & Y & N & X & K). exists c'. split; [exact E|]. rewrite (nth_in_parts _ _ N).
  pose proof SW as (_ & SW1 & _ & _). apply swapped_sym in SW.
  apply exchanged; try assumption; [lia..|]. exists (l1 ++ l2). rewrite SW1. split; [exact Nt|]. rewrite app_length. lia.
Qed.
Lemma step_line_down c : unselected c -> does c (move_current_line_down c) (e_line_down (view c)).
Proof.
  intros U. pose proof U as (V & T). destruct (view_parts U) as (pre & l1 & l2 & post & P). destruct (lines_parts P) as (Ls & Cp & Nt).
  assert (Ln : length (clines c) = length pre + S (length post)) by (rewrite Ls, app_length; reflexivity).
  destruct (move_current_line_down_spec V) as (A & B). rewrite Cp in A, B, Nt. cbn [py px] in A, B, Nt. rewrite Ln in A, B. replace (length pre + 1) with (S (length pre)) in A, B by lia.
  unfold e_line_down, e_move_line. rewrite (p_above P), (p_under P), (p_left P), (p_lines P).
  destruct (length post) as [|n] eqn:Q; [apply does_nothing; [exact U|]; apply A; lia|].
  destruct B as (c' & l0 & E & V' & SW & Y & N & X & K); [lia|]. exists c'. split; [exact E|]. rewrite (nth_in_parts _ _ N).
  pose proof SW as (_ & _ & SW1 & _).
  apply exchanged; try assumption; [lia..|]. exists (l1 ++ l2). rewrite SW1. split; [exact Nt|]. rewrite app_length. lia.
Qed.

(** Every operation which doesn't select does, on a content without selection, what the plain editor does: same text, same
    cursor, same result *)
Theorem C90_step : forall u o f c, e_apply u o = Some f -> unselected c ->
  exists c', capply u o c = Ret (c', snd (f (view c))) /\ unselected c' /\ view c' = fst (f (view c)).
Proof.
  intros u o f c F U. change (does c (capply u o c) (f (view c))).
  destruct o; cbn [e_apply] in F; try discriminate F; injection F as <-; cbn [capply].
  - apply step_set_cursor; exact U.
  - exists c. split; [|split; [exact U|reflexivity]]. destruct U as (_ & T). destruct c as [p t ls]. cbn in T. subst t. reflexivity.
  - apply step_append; exact U.
  - apply step_clear; exact U.
  - apply step_new_line; exact U.
  - apply step_char; exact U.
  - apply step_type; exact U.
  - apply step_set; exact U.
  - apply step_delete_left; exact U.
  - apply step_delete_below; exact U.
  - apply step_delete_selection; exact U.
  - apply step_swap; exact U.
  - apply step_line_up; exact U.
  - apply step_line_down; exact U.
  - apply step_right; exact U.
  - apply step_up; exact U.
  - apply step_down; exact U.
  - apply step_left; exact U.
  - apply step_end; exact U.
  - apply step_start; exact U.
  - apply step_line_end; exact U.
  - apply step_line_start; exact U.
  - apply step_word_left; exact U.
  - apply step_word_right; exact U.
  - apply step_delete_word_left; exact U.
  - apply step_delete_word_right; exact U.
Qed.

Lemma e_apply_some u o : ~ selects o -> exists f, e_apply u o = Some f.
Proof. intros N. destruct o; try (eexists; reflexivity); exfalso; apply N; unfold selects; eauto. Qed.
Lemma runs_from u : forall ops c, Forall (fun o => ~ selects o) ops -> unselected c -> exists c', crun u ops c = Ret c' /\ unselected c' /\ view c' = e_run u ops (view c).
Proof.
  induction ops as [|o ops IH]; intros c F U; [exists c; auto|]. inversion F as [|? ? F1 F2]; subst. destruct (e_apply_some u F1) as (f & Ef).
  destruct (C90_step _ _ Ef U) as (c1 & E1 & U1 & V1). cbn [crun e_run]. rewrite E1, Ef. cbn [bind]. destruct (IH c1 F2 U1) as (c' & E & U' & V').
  exists c'. rewrite <- V1. auto.
Qed.
(** Whole histories: from an empty content, the text and the cursor are the ones of the plain editor *)
Theorem C90_runs : forall u ops, Forall (fun o => ~ selects o) ops ->
  exists c, crun u ops content_default = Ret c /\ unselected c /\ view c = e_run u ops (mkEd [] [])
  /\ text c = whole (e_run u ops (mkEd [] [])) /\ cursor c = length (before (e_run u ops (mkEd [] []))).
Proof.
  intros u ops F. destruct (@runs_from u ops content_default F (conj valid_default eq_refl)) as (c & E & U & V). exists c. split; [exact E|].
  split; [exact U|]. split; [exact V|]. change (mkEd [] []) with (view content_default). rewrite <- V, whole_view. split; [reflexivity|]. symmetry. apply before_length, U.
Qed.
(** Nothing else than the text and the cursor is in a content without selection *)
Theorem C90_unique : forall c c', unselected c -> unselected c' -> view c = view c' -> c = c'.
Proof.
  intros c c' U U' E. destruct (view_parts U) as (p1 & a1 & b1 & q1 & P). destruct (view_parts U') as (p2 & a2 & b2 & q2 & P').
  assert (L : clines c = clines c') by (rewrite <- (p_lines P), <- (p_lines P'), E; reflexivity).
  assert (C : cursor c = cursor c') by (rewrite <- (before_length (proj1 U)), <- (before_length (proj1 U')), E; reflexivity).
  destruct U as ((_ & V & _) & T), U' as ((_ & V' & _) & T'). destruct c as [p t ls], c' as [p' t' ls']. cbn [clines cpos ctail] in *. subst ls' t t'. f_equal.
  unfold cursor, offset in C. cbn [clines cpos] in C. eapply offset_inj; eassumption.
Qed.
Lemma typed_le s : length (typed s) <= length s.
Proof. unfold typed. induction s as [|x s IH]; cbn [filter length]; [lia|]. destruct (_ && _); cbn [length]; lia. Qed.
Lemma typed_same s : length (typed s) = length s -> typed s = s.
Proof.
  unfold typed. induction s as [|x s IH]; [reflexivity|]. pose proof (typed_le s) as L. unfold typed in L. cbn [filter length].
  destruct (_ && _); cbn [length]; intros E; [f_equal; apply IH; lia|lia].
Qed.
(** and every text can be typed, with the cursor anywhere *)
Theorem C90_all : forall u b a, typed (b ++ a) = b ++ a ->
  exists c, crun u [OpInsertStr a; OpToStart; OpInsertStr b] content_default = Ret c /\ unselected c /\ view c = mkEd b a.
Proof.
  intros u b a T.
  assert (TA : typed a = a /\ typed b = b).
  { pose proof (f_equal (@length _) T) as TL. unfold typed in *. rewrite filter_app, !app_length in TL.
    pose proof (typed_le a). pose proof (typed_le b). unfold typed in *. split; apply typed_same; unfold typed; lia. }
  destruct TA as (TA & TB).
  destruct (@C90_runs u [OpInsertStr a; OpToStart; OpInsertStr b]) as (c & E & U & V & _).
  { repeat constructor; intros [X|[X|(p & X)]]; discriminate X. }
  exists c. split; [exact E|]. split; [exact U|]. rewrite V. cbn [e_run e_apply e_type fst before after app]. rewrite TA.
  unfold e_start. cbn [before after]. destruct a as [|x a]; cbn [nothing go fst before after whole put_at firstn skipn app]; rewrite TB; [rewrite ?app_nil_r|rewrite app_nil_r]; reflexivity.
Qed.

(** ** Fields *)

Lemma unselected_key c : unselected c -> key_selection false c = c.
Proof. intros (_ & T). destruct c as [p t ls]. cbn in *. subst t. reflexivity. Qed.
Lemma press_step u f k : field_ok f -> focused f = true -> unselected (if_content f) ->
  exists f' b, if_apply u f (press k) = Ret (f', b) /\ field_ok f' /\ only_content f f' /\ unselected (if_content f')
  /\ view (if_content f') = e_run u (pressed (height f) k) (view (if_content f)).
Proof.
  intros OK F U. destruct (keycode_ok u k false OK) as (f' & b & E & OK' & OC). exists f', b.
  destruct (C14_event u f false) as (_ & EV & _). cbn [if_apply press]. rewrite (EV k F). split; [exact E|]. split; [exact OK'|]. split; [exact OC|].
  assert (NW : has_wide_selection (if_content f) = false) by (unfold has_wide_selection; rewrite (proj2 U); reflexivity).
  assert (ST : forall o g c1 b1, e_apply u o = Some g -> capply u o (if_content f) = Ret (c1, b1) -> unselected c1 /\ view c1 = fst (g (view (if_content f)))).
  { intros o g c1 b1 G C. destruct (C90_step _ _ G U) as (c2 & E2 & U2 & V2). rewrite C in E2. injection E2 as <- _. auto. }
  assert (DEL : forall o g, e_apply u o = Some g -> (k = KBackspace /\ o = OpDelLeft \/ k = KDelete /\ o = OpDelBelow) -> unselected (if_content f') /\ view (if_content f') = fst (g (view (if_content f)))).
  { intros o g G K. destruct (@C14_key_delete u f false k o OK K) as (c & b' & Ec & E'). rewrite NW in Ec. rewrite E in E'. injection E' as -> _. exact (ST o g c b' G Ec). }
  destruct (keycode_cases f k) as [->|[->|[(ch & ->)|[(op & Eo)|Hi]]]].
  - exact (DEL OpDelLeft _ eq_refl (or_introl (conj eq_refl eq_refl))).
  - exact (DEL OpDelBelow _ eq_refl (or_intror (conj eq_refl eq_refl))).
  - unfold apply_keycode_event in E. rewrite NW in E. unfold put_char in E. destruct (step_char ch U) as (c1 & E1 & U1 & V1).
    unfold with_true in E1. destruct (insert_char (if_content f) ch) as [c2| |]; cbn [bind] in E, E1; try discriminate E1. injection E1 as ->.
    destruct (fix_scroll_ok u (field_ok_content OK (proj1 U1))) as (s & Es). rewrite Es in E. cbn [bind] in E. injection E as <- _. split; [exact U1|exact V1].
  - destruct (@C14_key_move u f k false op OK Eo) as (g & b' & E' & (c & Ec & D1 & D2)). rewrite E in E'. injection E' as <- <-.
    rewrite (unselected_key U) in Ec, D1, D2. change (if_content (with_content f (if_content f))) with (if_content f) in Ec.
    change (with_content (with_content f (if_content f)) c) with (with_content f c) in D1, D2.
    assert (X : unselected c /\ view c = e_run u (pressed (height f) k) (view (if_content f))) .
    { assert (G : exists g, e_apply u op = Some g /\ forall e, e_run u (pressed (height f) k) e = fst (g e)) by (destruct k; try discriminate Eo; injection Eo as <-; eexists; split; reflexivity).
      destruct G as (g & G & GE). rewrite GE. exact (ST _ _ _ _ G Ec). }
    destruct X as (X & Y). destruct b; [|rewrite (D2 eq_refl); auto]. specialize (D1 eq_refl).
    destruct (fix_scroll_ok u (field_ok_content OK (proj1 X))) as (s & Es). rewrite Es in D1. injection D1 as <-. auto.
  - rewrite (@C14_key_ignored u f k false Hi) in E. injection E as <- _. rewrite (unselected_key U). split; [exact U|].
    destruct Hi as [-> | [-> | [-> | [-> | (n & ->)]]]]; reflexivity.
Qed.
(** Typing in a focused field: whatever the keys, the text and the cursor are the ones of the plain editor *)
Theorem C90_keys : forall u ks f, field_ok f -> focused f = true -> unselected (if_content f) ->
  exists f', if_run u f (map press ks) = Ret f' /\ field_ok f' /\ only_content f f' /\ unselected (if_content f')
  /\ view (if_content f') = e_run u (flat_map (pressed (height f)) ks) (view (if_content f)).
Proof.
  intros u ks. induction ks as [|k ks IH]; intros f OK F U.
  - exists f. split; [reflexivity|]. split; [exact OK|]. split; [exists (if_content f), (if_scroll f); destruct f; reflexivity|]. auto.
  - destruct (press_step u k OK F U) as (f1 & b & E1 & OK1 & OC & U1 & V1). cbn [map if_run]. rewrite E1. cbn [bind]. destruct OC as (c1 & s1 & Q).
    assert (F1 : focused f1 = true) by (rewrite Q; exact F). assert (H1 : height f1 = height f) by (rewrite Q; reflexivity).
    destruct (IH f1 OK1 F1 U1) as (f' & E & OK' & (c2 & s2 & Q2) & U' & V'). exists f'. split; [exact E|]. split; [exact OK'|].
    split; [exists c2, s2; rewrite Q2, Q; reflexivity|]. split; [exact U'|]. rewrite V', V1, H1. cbn [flat_map]. 
    generalize (view (if_content f)) (flat_map (pressed (height f)) ks). intros e r. generalize (pressed (height f) k). intros l. revert e.
    induction l as [|o l IHl]; intros e; [reflexivity|]. cbn [app e_run]. apply IHl.
Qed.
(** The operations on the field, other than the selecting ones, as well *)
Theorem C90_field : forall u f o op g, field_ok f -> unselected (if_content f) -> content_op f o = Some op -> e_apply u op = Some g ->
  exists f', if_apply u f o = Ret (f', snd (g (view (if_content f)))) /\ field_ok f' /\ only_content f f' /\ unselected (if_content f')
  /\ view (if_content f') = fst (g (view (if_content f))).
Proof.
  intros u f o op g OK U CO G. destruct (@C72_content_op u f o op OK CO) as (f' & b & E & (c & Ec & D1 & D2)). destruct (C90_step _ _ G U) as (c1 & E1 & U1 & V1).
  rewrite Ec in E1. injection E1 as -> ->. exists f'. split; [exact E|]. pose proof (field_ok_content OK (proj1 U1)) as OK1.
  destruct (snd (g (view (if_content f)))).
  - destruct (fix_scroll_ok u OK1) as (s & Es). rewrite (D1 eq_refl) in Es. injection Es as ->. split; [exact OK1|]. split; [exists c1, s; reflexivity|]. split; [exact U1|exact V1].
  - rewrite (D2 eq_refl). split; [exact OK1|]. split; [exists c1, (if_scroll f); destruct f; reflexivity|]. split; [exact U1|exact V1].
Qed.

(** "ab", new line, "c d": up, typing, down, deleting the word *)
Example C90_example :
  let ops := [OpInsertStr [97; 98; 10; 99; 32; 100]%N; OpLinesUp 1; OpInsertChar 120%N; OpToEnd; OpDelWordLeft; OpLineUp; OpToLineStart; OpDelBelow] in
  Forall (fun o => ~ selects o) ops
  /\ e_run demo ops (mkEd [] []) = mkEd [] [32; 10; 97; 98; 120]%N
  /\ exists c, crun demo ops content_default = Ret c /\ text c = [32; 10; 97; 98; 120]%N /\ cursor c = 0.
Proof.
  cbv zeta. split; [repeat constructor; intros [X|[X|(p & X)]]; discriminate X|]. split; [vm_compute; reflexivity|]. eexists. split; [vm_compute; reflexivity|]. split; reflexivity.
Qed.
Example C90_swap_example :
  e_run demo [OpSetStr [97; 10; 98; 98; 10; 99]%N; OpSwapLines 0 2; OpDelWordLeft; OpLineUp] (mkEd [] []) = mkEd [99; 10]%N [10; 98; 98]%N
  /\ exists c, crun demo [OpSetStr [97; 10; 98; 98; 10; 99]%N; OpSwapLines 0 2; OpDelWordLeft; OpLineUp] content_default = Ret c /\ view c = mkEd [99; 10]%N [10; 98; 98]%N.
Proof. split; [vm_compute; reflexivity|]. eexists. split; vm_compute; reflexivity. Qed.
Example C90_keys_example : exists f', if_run demo (new_line_on field_ab (mkKey 0 [KEnter])) (map press [KHome; KChar 120; KRight; KDelete; KLeft; KBackspace]%N) = Ret f'
  /\ unselected (if_content field_ab) /\ focused field_ab = true /\ view (if_content f') = mkEd [] [97]%N.
Proof. eexists. split; [vm_compute; reflexivity|]. split; [split; [apply field_ab_ok|reflexivity]|]. split; vm_compute; reflexivity. Qed.

Print Assumptions C90_step.
Print Assumptions C90_runs.
Print Assumptions C90_unique.
Print Assumptions C90_all.
Print Assumptions C90_keys.
Print Assumptions C90_field.
