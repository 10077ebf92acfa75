(** * C113: the operations of a content neither invent nor duplicate chars *)
From Coq Require Import Sorting.Permutation FinFun.
From Verif Require Import Base L_Base Demo M_Content S_Content L_Content S_Editor L_Editor P_Editor S_Safe P_Safe L_Content4 S_Held S_Cut S_Marked P_Marked S_Count.
Set Implicit Arguments.
Open Scope nat_scope.

Lemma times_app x a b : times x (a ++ b) = times x a + times x b.
Proof. apply count_occ_app. Qed.
Lemma times_part x n s : times x s = times x (firstn n s) + times x (skipn n s).
Proof. rewrite <- times_app, firstn_skipn. reflexivity. Qed.
Lemma times_put x i s : times x (whole (put_at i s)) = times x s.
Proof. unfold whole, put_at. cbn [before after]. rewrite firstn_skipn. reflexivity. Qed.
Lemma times_removelast x s : times x (removelast s) <= times x s.
Proof. destruct s as [|a s]; [apply le_n|]. rewrite (@app_removelast_last _ (a :: s) a) at 2 by discriminate. rewrite times_app. lia. Qed.

(** The lines, each one with the line feed before or after it *)
Definition weight (x : char) (ls : list str) : nat := sum (map (fun l => times x l + (if N.eq_dec x c_nl then 1 else 0)) ls).
Lemma weight_cons x l ls : weight x (l :: ls) = times x l + (if N.eq_dec x c_nl then 1 else 0) + weight x ls.
Proof. reflexivity. Qed.
Lemma weight_app x a b : weight x (a ++ b) = weight x a + weight x b.
Proof. induction a as [|l a IH]; [reflexivity|]. cbn [app]. rewrite !weight_cons, IH. lia. Qed.
Lemma weight_flat x ls : ls <> [] -> times x (flat ls) + (if N.eq_dec x c_nl then 1 else 0) = weight x ls.
Proof.
  destruct ls as [|l ls]; [congruence|]. intros _. cbn [flat]. rewrite times_app, weight_cons.
  enough (times x (concat (map (fun l' => c_nl :: l') ls)) = weight x ls) by lia. induction ls as [|l' ls IH]; [reflexivity|]. cbn [map concat]. rewrite times_app, weight_cons, IH. unfold times. cbn [count_occ].
  destruct (N.eq_dec c_nl x) as [E|E], (N.eq_dec x c_nl) as [E'|E']; try congruence; lia.
Qed.
Lemma weight_perm x a b : Permutation a b -> weight x a = weight x b.
Proof. induction 1; rewrite ?weight_cons in *; try congruence; lia. Qed.
Lemma flat_some ls : flat (some_line ls) = flat ls.
Proof. destruct ls; reflexivity. Qed.
Lemma flat_less x a b : b <> [] -> weight x a <= weight x b -> times x (flat a) <= times x (flat b).
Proof.
  intros Hb H. destruct a as [|l a]; [cbn; lia|]. pose proof (@weight_flat x (l :: a) ltac:(discriminate)). pose proof (@weight_flat x b Hb). lia.
Qed.
Lemma exchange_perm i j (ls : list str) : i < length ls -> j < length ls -> Permutation (exchange i j ls) ls.
Proof.
  intros Hi Hj. apply Permutation_sym, (Permutation_nth _ _ []). cbv zeta. split; [unfold exchange; rewrite map_length, seq_length; reflexivity|].
  exists (fun n => if n =? i then j else if n =? j then i else n). split; [|split].
  - intros n Hn. destruct (Nat.eqb_spec n i), (Nat.eqb_spec n j); lia.
  - intros n m Hn Hm. destruct (Nat.eqb_spec n i), (Nat.eqb_spec n j), (Nat.eqb_spec m i), (Nat.eqb_spec m j); lia.
  - intros n Hn. unfold exchange.
    set (g := fun n => nth (if n =? i then j else if n =? j then i else n) ls []). change (nth n (map g (seq 0 (length ls))) [] = g n).
    rewrite nth_indep with (d' := g 0) by (rewrite map_length, seq_length; exact Hn). rewrite map_nth, seq_nth by exact Hn. reflexivity.
Qed.
Lemma lines_of_length s : length (lines_of s) = S (breaks s).
Proof.
  induction s as [|ch s IH]; [reflexivity|]. cbn [lines_of breaks]. destruct (N.eqb ch c_nl); cbn [length]; [rewrite IH; reflexivity|].
  destruct (lines_of s) as [|l ls]; cbn [length] in *; [discriminate|]. rewrite IH. reflexivity.
Qed.
Lemma flat_lines_of s : flat (lines_of s) = s.
Proof.
  induction s as [|ch s IH]; [reflexivity|]. cbn [lines_of]. destruct (N.eqb_spec ch c_nl) as [->|N].
  - pose proof (lines_of_length s) as L. destruct (lines_of s) as [|l ls]; [discriminate|]. cbn [flat app map concat] in *. rewrite IH. reflexivity.
  - pose proof (lines_of_length s) as L. destruct (lines_of s) as [|l ls]; [discriminate|]. cbn [flat app] in *. rewrite IH. reflexivity.
Qed.
Lemma lines_of_some s : lines_of s <> [].
Proof. intros E. pose proof (lines_of_length s) as L. rewrite E in L. discriminate. Qed.
Lemma breaks_app a b : breaks (a ++ b) = breaks a + breaks b.
Proof. induction a as [|ch a IH]; [reflexivity|]. cbn [app breaks]. rewrite IH. lia. Qed.
Lemma times_exchange x i j y k e : i < length (lines_of (whole e)) -> j < length (lines_of (whole e)) -> times x (whole (fst (e_exchange i j y k e))) = times x (whole e).
Proof.
  intros Hi Hj. unfold e_exchange. cbn [fst]. rewrite times_put. pose proof (@exchange_perm i j _ Hi Hj) as P. set (ls := lines_of (whole e)) in *.
  assert (N : exchange i j ls <> []) by (intros E; rewrite E in P; apply Permutation_nil in P; unfold ls in P; exact (lines_of_some _ P)).
  pose proof (@weight_flat x _ N) as A. pose proof (@weight_flat x ls (lines_of_some _)) as B. rewrite (@weight_perm x _ _ P) in A. unfold ls in B at 1. rewrite flat_lines_of in B. lia.
Qed.

(** ** The operations which don't depend on the selection *)
Lemma h_less u o f e x : h_apply u o = Some f -> times x (whole (fst (f e))) <= times x (whole e) + times x (supplied o).
Proof.
  assert (G : forall i, times x (whole (fst (go i e))) = times x (whole e)) by (intros i; unfold go; cbn [fst]; apply times_put).
  assert (T : forall s, times x (whole (fst (e_type s e))) = times x (whole e) + times x (typed s)) by (intros s; unfold e_type, whole; cbn [fst before after]; rewrite !times_app; lia).
  intros H. destruct o; cbn [h_apply e_apply] in H; try discriminate H; injection H as <-; cbn [supplied]; rewrite ?Nat.add_0_r.
  - rewrite G. lia.
  - cbn [fst]. lia.
  - cbn [fst]. lia.
  - cbn [fst]. lia.
  - unfold e_append, whole. cbn [fst before after]. rewrite !times_app. lia.
  - cbn. lia.
  - rewrite T. apply le_n.
  - rewrite T. apply le_n.
  - rewrite T. apply le_n.
  - unfold e_set. cbn [fst]. destruct (list_eq_dec _ _ _); [lia|]. unfold whole at 1. cbn [before after]. rewrite app_nil_r. lia.
  - unfold e_delete_left. destruct (before e) as [|c0 b0] eqn:Eb; [cbn [nothing fst]; lia|]. cbn [fst]. unfold whole. cbn [before after]. rewrite Eb, !times_app. pose proof (times_removelast x (c0 :: b0)). lia.
  - unfold e_select_word. destruct (word_run u (right_part e)); [cbn [nothing fst]; lia|]. rewrite G. lia.
  - unfold e_delete_below. destruct (after e) as [|c0 a0] eqn:Ea.
    + destruct (rev (before e)) as [|ch r]; [cbn [nothing fst]; lia|]. destruct (N.eqb ch c_nl); [|cbn [nothing fst]; lia]. cbn [fst]. unfold whole. cbn [before after]. rewrite Ea, !times_app. pose proof (times_removelast x (before e)). lia.
    + cbn [fst]. unfold whole. cbn [before after]. rewrite Ea, !times_app. change (c0 :: a0) with ([c0] ++ a0). rewrite times_app. lia.
  - unfold e_swap. destruct (_ || _)%bool eqn:Q; [cbn [nothing fst]; lia|]. apply orb_false_iff in Q as (Q & Q3). apply orb_false_iff in Q as (_ & Q2). apply Nat.leb_gt in Q2, Q3. rewrite times_exchange by assumption. lia.
  - unfold e_line_up. destruct (breaks (before e)) as [|y'] eqn:Eb; [cbn [nothing fst]; lia|]. unfold e_move_line. rewrite times_exchange; [lia| |]; rewrite lines_of_length; unfold whole; rewrite breaks_app; lia.
  - unfold e_line_down. destruct (breaks (after e)) as [|y'] eqn:Eb; [cbn [nothing fst]; lia|]. unfold e_move_line. rewrite times_exchange; [lia| |]; rewrite lines_of_length; unfold whole; rewrite breaks_app; lia.
  - unfold e_right. destruct (after e); [cbn [nothing fst]; lia|]. rewrite G. lia.
  - unfold e_up. destruct (breaks (before e)); [cbn [nothing fst]; lia|]. rewrite G. lia.
  - unfold e_down. destruct (breaks (after e)); [cbn [nothing fst]; lia|]. rewrite G. lia.
  - unfold e_left. destruct (before e); [cbn [nothing fst]; lia|]. rewrite G. lia.
  - unfold e_end. destruct (after e); [cbn [nothing fst]; lia|]. rewrite G. lia.
  - unfold e_start. destruct (before e); [cbn [nothing fst]; lia|]. rewrite G. lia.
  - unfold e_line_end. destruct (right_part e); [cbn [nothing fst]; lia|]. rewrite G. lia.
  - unfold e_line_start. destruct (left_part e); [cbn [nothing fst]; lia|]. rewrite G. lia.
  - unfold e_word_left. destruct (left_part e); [cbn [nothing fst]; lia|]. rewrite G. lia.
  - unfold e_word_right. destruct (right_part e); [cbn [nothing fst]; lia|]. rewrite G. lia.
  - unfold e_delete_word_left. destruct (left_part e); [cbn [nothing fst]; lia|]. cbn [fst]. unfold whole. cbn [before after]. rewrite !times_app. rewrite (times_part x (length (before e) - back_word u e) (before e)). lia.
  - unfold e_delete_word_right. set (n := run u (right_part e)). destruct (n <? length (right_part e)).
    + cbn [fst]. unfold whole. cbn [before after]. rewrite !times_app, (times_part x (S n) (after e)). lia.
    + assert (K : times x (before e ++ skipn n (after e)) <= times x (whole e)) by (unfold whole; rewrite !times_app, (times_part x n (after e)); lia).
      destruct (left_part e), (right_part e); cbn [nothing fst]; rewrite ?times_put; try exact K; lia.
Qed.
Lemma h_more u o f e x : h_apply u o = Some f -> removes o = false -> times x (whole e) + times x (supplied o) <= times x (whole (fst (f e))).
Proof.
  assert (G : forall i, times x (whole (fst (go i e))) = times x (whole e)) by (intros i; unfold go; cbn [fst]; apply times_put).
  assert (T : forall s, times x (whole (fst (e_type s e))) = times x (whole e) + times x (typed s)) by (intros s; unfold e_type, whole; cbn [fst before after]; rewrite !times_app; lia).
  intros H R. destruct o; cbn [removes] in R; try discriminate R; cbn [h_apply e_apply] in H; try discriminate H; injection H as <-; cbn [supplied]; change (times x []) with 0; rewrite ?Nat.add_0_r.
  - rewrite G. lia.
  - cbn [fst]. lia.
  - cbn [fst]. lia.
  - cbn [fst]. lia.
  - unfold e_append, whole. cbn [fst before after]. rewrite !times_app. lia.
  - rewrite T. apply le_n.
  - rewrite T. apply le_n.
  - rewrite T. apply le_n.
  - unfold e_select_word. destruct (word_run u (right_part e)); [cbn [nothing fst]; lia|]. rewrite G. lia.
  - unfold e_swap. destruct (_ || _)%bool eqn:Q; [cbn [nothing fst]; lia|]. apply orb_false_iff in Q as (Q & Q3). apply orb_false_iff in Q as (_ & Q2). apply Nat.leb_gt in Q2, Q3. rewrite times_exchange by assumption. lia.
  - unfold e_line_up. destruct (breaks (before e)) as [|y'] eqn:Eb; [cbn [nothing fst]; lia|]. unfold e_move_line. rewrite times_exchange; [lia| |]; rewrite lines_of_length; unfold whole; rewrite breaks_app; lia.
  - unfold e_line_down. destruct (breaks (after e)) as [|y'] eqn:Eb; [cbn [nothing fst]; lia|]. unfold e_move_line. rewrite times_exchange; [lia| |]; rewrite lines_of_length; unfold whole; rewrite breaks_app; lia.
  - unfold e_right. destruct (after e); [cbn [nothing fst]; lia|]. rewrite G. lia.
  - unfold e_up. destruct (breaks (before e)); [cbn [nothing fst]; lia|]. rewrite G. lia.
  - unfold e_down. destruct (breaks (after e)); [cbn [nothing fst]; lia|]. rewrite G. lia.
  - unfold e_left. destruct (before e); [cbn [nothing fst]; lia|]. rewrite G. lia.
  - unfold e_end. destruct (after e); [cbn [nothing fst]; lia|]. rewrite G. lia.
  - unfold e_start. destruct (before e); [cbn [nothing fst]; lia|]. rewrite G. lia.
  - unfold e_line_end. destruct (right_part e); [cbn [nothing fst]; lia|]. rewrite G. lia.
  - unfold e_line_start. destruct (left_part e); [cbn [nothing fst]; lia|]. rewrite G. lia.
  - unfold e_word_left. destruct (left_part e); [cbn [nothing fst]; lia|]. rewrite G. lia.
  - unfold e_word_right. destruct (right_part e); [cbn [nothing fst]; lia|]. rewrite G. lia.
Qed.

(** ** The deletion of a selection *)
Lemma times_first x n l : times x (firstn n l) <= times x l.
Proof. rewrite (times_part x n l). lia. Qed.
Lemma times_skip x n l : times x (skipn n l) <= times x l.
Proof. rewrite (times_part x n l). lia. Qed.
Lemma skip_more x : forall l a b, a <= b -> times x (skipn b l) <= times x (skipn a l).
Proof.
  induction l as [|c l IH]; intros a b H; [rewrite !skipn_nil; apply le_n|]. destruct a as [|a]; [rewrite skipn_O; apply times_skip|]. destruct b as [|b]; [lia|]. cbn [skipn]. apply IH. lia.
Qed.
Lemma skip_twice {A} : forall a b (l : list A), skipn a (skipn b l) = skipn (a + b) l.
Proof. intros a b. induction b as [|b IH]; intros l; [rewrite skipn_O, Nat.add_0_r; reflexivity|]. destruct l as [|y l]; [rewrite !skipn_nil; reflexivity|]. rewrite Nat.add_succ_r. cbn [skipn]. apply IH. Qed.
Lemma unless_less x ls : weight x (unless_one ls) <= weight x ls.
Proof. destruct ls as [|a [|b r]]; cbn [unless_one]; [apply le_n|apply le_n|unfold weight at 1; cbn; lia]. Qed.
Lemma row_less x l x1 x2 : x1 <= x2 -> weight x (row_left l x1 x2) <= weight x [l].
Proof.
  intros H. unfold row_left. destruct (x2 <? length l) eqn:Q.
  - rewrite !weight_cons, times_app. rewrite (times_part x x1 l). enough (times x (skipn (x2 + 1) l) <= times x (skipn x1 l)) by lia.
    apply skip_more. lia.
  - destruct (x1 =? 0); [unfold weight at 1; cbn; lia|]. rewrite !weight_cons. pose proof (times_first x x1 l). lia.
Qed.
Lemma rows_less x l1 mid l2 x1 x2 : weight x (rows_left l1 mid l2 x1 x2) <= weight x (l1 :: mid ++ [l2]).
Proof.
  unfold rows_left. cbv zeta. pose proof (times_first x x1 l1). pose proof (times_skip x x2 l2). change (weight x []) with 0.
  destruct (x1 =? 0), (x2 <? length l2); cbn [fst snd app]; rewrite ?weight_app, ?weight_cons, ?weight_app, ?weight_cons; change (weight x []) with 0.
  all: match goal with |- context [unless_one ?l] => pose proof (unless_less x l) as U end; rewrite ?weight_cons, ?weight_app, ?weight_cons in U; change (weight x []) with 0 in U; lia.
Qed.
Lemma weight_split x ls n : n < length ls -> weight x ls = weight x (firstn n ls) + weight x [nth n ls []] + weight x (skipn (S n) ls).
Proof.
  intros H. destruct (nth_error ls n) as [l|] eqn:E; [|apply nth_error_None in E; lia]. rewrite (nth_error_nth _ _ [] E).
  destruct (split_nth _ _ E) as (a & b & -> & L). subst n. rewrite firstn_app, firstn_all, Nat.sub_diag, firstn_O, app_nil_r. rewrite skipn_app, skipn_all2 by lia. replace (S (length a) - length a) with 1 by lia. cbn [app skipn].
  rewrite weight_app, !weight_cons. change (weight x []) with 0. lia.
Qed.
Lemma cut_less x ls p q ls' : lines_cut ls p q = Some ls' -> py p < length ls -> py q < length ls -> sooner p q = true -> weight x ls' <= weight x ls.
Proof.
  intros E Hp Hq So. unfold sooner in So. unfold lines_cut in E. cbv zeta in E. rewrite (@weight_split x ls (py p) Hp). destruct (Nat.eqb_spec (py p) (py q)) as [Q|Q].
  - destruct (_ <? px q); [discriminate|]. injection E as <-. rewrite !weight_app. rewrite <- Nat.add_assoc. apply Nat.add_le_mono_l, Nat.add_le_mono_r.
    apply row_less. destruct (Nat.ltb_spec (py p) (py q)), (Nat.ltb_spec (px p) (px q)); cbn in So; try discriminate; lia.
  - assert (L : py p < py q) by (destruct (Nat.ltb_spec (py p) (py q)); cbn in So; [assumption|discriminate]). clear So. injection E as <-. rewrite !weight_app.
    set (r := skipn (S (py p)) ls). assert (Lr : py q - S (py p) < length r) by (unfold r; rewrite skipn_length; lia).
    rewrite (@weight_split x r _ Lr). replace (nth (py q - S (py p)) r []) with (nth (py q) ls []) by (unfold r; rewrite <- (firstn_skipn (S (py p)) ls) at 1; rewrite app_nth2; rewrite firstn_length; [f_equal; lia|lia]).
    replace (skipn (S (py q - S (py p))) r) with (skipn (S (py q)) ls) by (unfold r; rewrite skip_twice; f_equal; lia).
    rewrite <- Nat.add_assoc. apply Nat.add_le_mono_l. rewrite !Nat.add_assoc. apply Nat.add_le_mono_r.
    etransitivity; [apply rows_less|]. rewrite weight_cons, weight_app, !weight_cons. change (weight x []) with 0. rewrite ?Nat.add_0_r, ?Nat.add_assoc. apply le_n.
Qed.
Lemma m_less u o a a' b x : (forall p, m_mark a = Some p -> py p < length (lines_of (whole (m_ed a)))) -> m_apply u o a = Some (a', b) ->
  times x (whole (m_ed a')) <= times x (whole (m_ed a)) + times x (supplied o).
Proof.
  intros HM. unfold m_apply. destruct (h_apply u o) as [f|] eqn:H.
  - pose proof (@h_less u o f (m_ed a) x H) as L. destruct (f (m_ed a)) as (e' & b'). intros E. injection E as <- <-. exact L.
  - assert (o = OpDelSelection) as -> by (destruct o; cbn in H; congruence). change (times x (supplied OpDelSelection)) with 0. rewrite Nat.add_0_r. unfold m_delete. cbv zeta.
    assert (B : forall a' b, (let '(e', b) := e_delete_below (m_ed a) in Some (mkMarked e' (if b then option_map (inside (whole e')) (m_mark a) else m_mark a), b)) = Some (a', b) -> times x (whole (m_ed a')) <= times x (whole (m_ed a))).
    { intros a1 b1. pose proof (@h_less u OpDelBelow _ (m_ed a) x eq_refl) as L. cbn [supplied] in L. change (times x []) with 0 in L. rewrite Nat.add_0_r in L. destruct (e_delete_below (m_ed a)) as (e' & b'). intros E. injection E as <- _. exact L. }
    destruct (m_mark a) as [p|] eqn:Em; [|intros E; exact (B _ _ E)].
    destruct (same_place p (here (m_ed a))) eqn:Sp; [intros E; exact (B _ _ E)|]. clear B.
    set (h := here (m_ed a)) in *. set (first := if sooner p h then p else h). set (last := if sooner p h then h else p).
    assert (So : sooner first last = true).
    { unfold first, last. destruct (sooner p h) eqn:Q; [exact Q|]. unfold sooner, same_place in *. destruct (Nat.ltb_spec (py p) (py h)), (Nat.ltb_spec (py h) (py p)), (Nat.eqb_spec (py p) (py h)), (Nat.eqb_spec (py h) (py p)), (Nat.ltb_spec (px p) (px h)), (Nat.ltb_spec (px h) (px p)), (Nat.eqb_spec (px p) (px h)); cbn in *; try reflexivity; try discriminate; lia. }
    assert (Hh : py h < length (lines_of (whole (m_ed a)))) by (rewrite lines_of_length; unfold h, here, whole; cbn [py]; rewrite breaks_app; lia).
    specialize (HM p eq_refl). assert (H1 : py first < length (lines_of (whole (m_ed a)))) by (unfold first; destruct (sooner p h); assumption). assert (H2 : py last < length (lines_of (whole (m_ed a)))) by (unfold last; destruct (sooner p h); assumption).
    destruct (lines_cut (lines_of (whole (m_ed a))) first last) as [ls|] eqn:C; [|discriminate]. intros E. injection E as <- <-. cbn [m_ed]. rewrite times_put, flat_some. pose proof (@cut_less x _ _ _ _ C H1 H2 So) as W.
    pose proof (@flat_less x ls _ (lines_of_some (whole (m_ed a))) W) as K. rewrite flat_lines_of in K. exact K.
Qed.
Lemma mark_in c p : loose c -> m_mark (m_view c) = Some p -> py p < length (lines_of (whole (m_ed (m_view c)))).
Proof. intros L. cbn [m_view m_mark m_ed]. rewrite loose_lines by exact L. destruct L as (_ & _ & T & _). apply T. Qed.

(** An operation never makes a char more frequent, but for those it types *)
Theorem C113_step : forall u o c c' b x, loose c -> capply u o c = Ret (c', b) -> times x (text c') <= times x (text c) + times x (supplied o).
Proof.
  intros u o c c' b x L E. pose proof (@C110_step u o c L) as S. destruct (m_apply u o (m_view c)) as [(a & b')|] eqn:M; [|congruence].
  destruct S as (c1 & E1 & L1 & Q). rewrite E in E1. injection E1 as <- <-. pose proof (@m_less u o _ _ _ x (fun p => @mark_in c p L) M) as H. rewrite <- Q in H. cbn [m_view m_ed] in H. rewrite !whole_view in H. exact H.
Qed.
(** The ones which don't remove anything keep all the chars, with what they type *)
Theorem C113_kept : forall u o c c' b x, loose c -> removes o = false -> capply u o c = Ret (c', b) -> times x (text c') = times x (text c) + times x (supplied o).
Proof.
  intros u o c c' b x L R E. apply Nat.le_antisymm; [eapply C113_step; eassumption|]. pose proof (@C110_step u o c L) as S. unfold m_apply in S. destruct (h_apply u o) as [f|] eqn:H; [|destruct o; cbn in H, R; discriminate].
  pose proof (@h_more u o f (m_ed (m_view c)) x H R) as K. destruct (f (m_ed (m_view c))) as (e' & b'). destruct S as (c1 & E1 & L1 & Q). rewrite E in E1. injection E1 as <- <-.
  cbn [fst] in K. apply (f_equal m_ed) in Q. cbn [m_view m_ed] in Q, K. rewrite <- Q, !whole_view in K. exact K.
Qed.
(** So, for any history *)
Theorem C113_runs : forall u ops c c' x, loose c -> crun u ops c = Ret c' -> times x (text c') <= times x (text c) + times x (flat_map supplied ops).
Proof.
  intros u ops. induction ops as [|o ops IH]; intros c c' x L E; cbn [crun flat_map] in *; [injection E as <-; lia|].
  destruct (capply u o c) as [(c1 & b)| |] eqn:E1; try discriminate. cbn [bind] in E. pose proof (@C113_step u o c c1 b x L E1) as K1.
  assert (L1 : loose c1). { pose proof (@C110_step u o c L) as S. destruct (m_apply u o (m_view c)) as [(a & b')|]; [|congruence]. destruct S as (c2 & E2 & L2 & _). rewrite E1 in E2. injection E2 as <- <-. exact L2. }
  specialize (IH c1 c' x L1 E). rewrite times_app. lia.
Qed.
(** and the number of lines grows by at most the number of line feeds which are typed *)
Theorem C113_lines : forall u ops c c', loose c -> crun u ops c = Ret c' -> length (clines c') <= length (clines c) + times c_nl (flat_map supplied ops).
Proof.
  intros u ops c c' L E. pose proof (@C113_runs u ops c c' c_nl L E) as K. pose proof (@C110_runs u ops c L) as S. destruct (m_run u ops (m_view c)) as [a|]; [|congruence]. destruct S as (c1 & E1 & L1 & _). rewrite E in E1. injection E1 as <-.
  assert (N : forall c, loose c -> length (clines c) = S (times c_nl (text c))).
  { intros c0 L0. rewrite <- (loose_lines L0), lines_of_length, whole_view. f_equal. induction (text c0) as [|ch s IH]; [reflexivity|]. unfold times in *. cbn [breaks count_occ]. rewrite IH. destruct (N.eqb_spec ch c_nl), (N.eq_dec ch c_nl); congruence || lia. }
  rewrite (N c L), (N c' L1). lia.
Qed.
Print Assumptions C113_step.
Print Assumptions C113_kept.
Print Assumptions C113_runs.
Print Assumptions C113_lines.

(** A text in two lines, on which a word is selected, replaced, and a line moved *)
Example C113_example : exists c c', crun demo [OpInsertStr [97; 98; 32; 99; c_nl; 97; 100]%N; OpToStart] content_default = Ret c /\ loose c
  /\ crun demo [OpRight; OpSelectWord; OpDelSelection; OpInsertStr [98; 98]%N; OpLineDown] c = Ret c' /\ text c = [97; 98; 32; 99; c_nl; 97; 100]%N /\ text c' = [97; 100; c_nl; 98; 98; 32; 99]%N.
Proof.
  eexists _, _. split; [vm_compute; reflexivity|]. split; [apply loose_valid, validb_ok; vm_compute; reflexivity|]. split; [vm_compute; reflexivity|]. split; [reflexivity|]. vm_compute. reflexivity.
Qed.
