(** * When editing panics, exactly (C01) *)
From Verif Require Import Base L_Base M_Content S_Content S_Safe L_Content L_Content2 L_Content3 Demo.
Set Implicit Arguments.

Definition row_ok (c : content) : Prop := forall t, ctail c = Some t -> py t < length (clines c).
Definition sim (a b : content) : Prop := cpos a = cpos b /\ clines a = clines b /\ row_ok b.

Lemma fix_nonempty a a' : fix_selection a = Ret a' -> clines a <> [].
Proof. intros E H. unfold fix_selection, fix_pos, make_valid_pos, content_end in E. rewrite H in E. discriminate. Qed.
Lemma clamp_row ls p : ls <> [] -> py (clamp ls p) < length ls.
Proof. intros H. destruct (clamp_valid p H) as (l & E & _). apply nth_error_Some. congruence. Qed.
Lemma fix_sim a b a' : cpos a = cpos b -> clines a = clines b -> fix_selection a = Ret a' -> exists b', fix_selection b = Ret b' /\ sim a' b'.
Proof.
  intros Hp Hl E. pose proof (fix_nonempty _ E) as N. rewrite fix_selection_eq in E by assumption. injection E as <-. rewrite Hl in N.
  rewrite fix_selection_eq by assumption. eexists. split; [reflexivity|]. unfold sim, row_ok. cbn. rewrite Hp, Hl. repeat split.
  intros t E. destruct (ctail b); [|discriminate]. injection E as <-. apply clamp_row, N.
Qed.

Ltac step H := match type of H with
  | Ret _ = Ret _ => injection H as <- <-
  | bind (fix_selection _) _ = Ret _ => let a := fresh "a" in let E := fresh "E" in apply bind_Ret_inv in H as (a & E & H);
      eapply fix_sim in E; [destruct E as (? & E & ?); rewrite E; cbn [bind]| |]; [|reflexivity|reflexivity]
  | bind _ _ = Ret _ => let a := fresh "a" in let E := fresh "E" in apply bind_Ret_inv in H as (a & E & H); rewrite E; cbn [bind]
  | (let (_, _) := ?x in _) = Ret _ => destruct x
  | (if ?b then _ else _) = Ret _ => destruct b eqn:?
  end; cbn [cpos clines ctail set_cpos set_clines set_ctail] in *.
Ltac same := eexists; split; [reflexivity|]; unfold sim, row_ok in *; cbn in *; auto.

Lemma insert_char_sim ch a b a' : sim a b -> insert_char a ch = Ret a' -> exists b', insert_char b ch = Ret b' /\ sim a' b'.
Proof.
  destruct a as [p t ls], b as [p2 t2 ls2]. intros (Ep & El & R) H. cbn in Ep, El. subst p2 ls2. unfold insert_char, insert_new_line in *. cbn [cpos clines ctail] in *.
  destruct (N.eqb ch c_nl).
  - apply bind_Ret_inv in H as (l & E & H). rewrite E. cbn [bind]. apply bind_Ret_inv in H as ((s & n) & E1 & H). rewrite E1. cbn [bind]. apply bind_Ret_inv in H as (ls' & E2 & H). rewrite E2. cbn [bind].
    eapply fix_sim; [..|exact H]; reflexivity.
  - destruct (N.eqb ch c_cr || N.eqb ch c_bs); [injection H as <-; exists (mkContent p t2 ls); repeat split; auto|].
    apply bind_Ret_inv in H as (l & E & H). rewrite E. cbn [bind]. apply bind_Ret_inv in H as (l' & E1 & H). rewrite E1. cbn [bind]. injection H as <-. eexists. split; [reflexivity|].
    repeat split. unfold row_ok in *. cbn in *. rewrite set_nth_length. auto.
Qed.
Lemma insert_str_sim s : forall a b a', sim a b -> insert_str a s = Ret a' -> exists b', insert_str b s = Ret b' /\ sim a' b'.
Proof.
  induction s as [|ch s IH]; intros a b a' S H; cbn [insert_str] in *; [injection H as <-; eauto|]. apply bind_Ret_inv in H as (a1 & E & H).
  destruct (insert_char_sim _ S E) as (b1 & E1 & S1). rewrite E1. cbn [bind]. eauto.
Qed.
Lemma swap_sim a b x y a' r : sim a b -> swap_lines a x y = Ret (a', r) -> exists b', swap_lines b x y = Ret (b', r) /\ sim a' b'.
Proof.
  destruct a as [p t ls], b as [p2 t2 ls2]. intros (Ep & El & R) H. cbn in Ep, El. subst p2 ls2. unfold swap_lines in *. cbn [clines set_clines cpos ctail] in *. repeat step H; same.
Qed.

(** What an operation does doesn't depend on the tail, but for what is done to the tail, and for [del_selection] *)
Lemma op_sim u o a b a' r : o <> OpDelSelection -> o <> OpMakeSelection -> (forall p, o <> OpSetTail p) -> clines b <> [] -> valid_pos (clines b) (cpos b) ->
  sim a b -> capply u o a = Ret (a', r) -> exists b', capply u o b = Ret (b', r) /\ sim a' b'.
Proof.
  intros N1 N2 N3 NE VP S H. destruct o; try congruence; try (exfalso; eapply N3; reflexivity).
  all: cbn [capply] in *; unfold with_true in *.
  all: try (destruct a as [p0 t ls], b as [p2 t2 ls2]; destruct S as (Ep & El & R); cbn in Ep, El; subst p2 ls2; unfold set_cursor_pos, make_valid_pos, content_end, push_char, current_line, move_up, move_down, move_right, move_lines_up, move_lines_down, move_left, move_to_end, move_to_line_end, move_word_left, move_word_right, del_word_left, del_word_right, del_char_left, del_char_below, select_word_around, unselect, clear, move_to_start, move_to_line_start, content_end, current_line, set_cpos, set_ctail, set_clines in *; cbn [cpos clines ctail] in *; repeat step H; same; fail).
  - destruct S as (Ep & El & R). apply bind_Ret_inv in H as (c & E & H). injection H as <- <-. unfold set_cursor_pos in *. apply bind_Ret_inv in E as (q & E & H). injection H as <-.
    replace (make_valid_pos b p) with (make_valid_pos a p) by (unfold make_valid_pos, content_end; rewrite El; reflexivity). rewrite E. cbn [bind]. eexists. split; [reflexivity|]. repeat split; assumption.
  - injection H as <- <-. destruct S as (Ep & El & R). eexists. split; [reflexivity|]. repeat split; [assumption..|]. intros t E. discriminate.
  - destruct a as [p0 t ls], b as [p2 t2 ls2]. destruct S as (Ep & El & R). cbn in Ep, El. subst p2 ls2. unfold push_char in *. cbn [clines] in *. unfold row_ok in R. cbn in R. destruct (N.eqb ch c_nl); [|destruct (N.eqb ch c_cr || N.eqb ch c_bs)].
    + injection H as <- <-. eexists. split; [reflexivity|]. repeat split. intros q E. cbn in *. rewrite app_length. apply R in E. lia.
    + injection H as <- <-. eexists. split; [reflexivity|]. repeat split. exact R.
    + destruct (csub (length ls) 1) as [y| |]; try discriminate. cbn [bind] in *. destruct (idx ls y) as [l| |]; try discriminate. cbn [bind] in *. injection H as <- <-. eexists. split; [reflexivity|]. repeat split. intros q X. cbn in *. rewrite set_nth_length. auto.
  - injection H as <- <-. eexists. split; [reflexivity|]. repeat split. intros t E. discriminate.
  - apply bind_Ret_inv in H as (c & E & H). injection H as <- <-. change (insert_char a c_nl = Ret c) in E. destruct (insert_char_sim _ S E) as (b' & E' & S'). change (insert_new_line b = Ret b') in E'. rewrite E'. cbn [bind]. eauto.
  - apply bind_Ret_inv in H as (c & E & H). injection H as <- <-. destruct (insert_char_sim _ S E) as (b' & E' & S'). rewrite E'. cbn [bind]. eauto.
  - apply bind_Ret_inv in H as (c & E & H). injection H as <- <-. destruct (insert_str_sim _ S E) as (b' & E' & S'). rewrite E'. cbn [bind]. eauto.
  - apply bind_Ret_inv in H as (c & E & H). injection H as <- <-. unfold set_str in *. apply bind_Ret_inv in E as (q & E & H). replace (is_str b s) with (is_str a s) by (destruct S as (_ & El & _); unfold is_str, content_end; rewrite El; reflexivity).
    rewrite E. cbn [bind]. destruct q; [injection H as <-; exists b; auto|]. change (clear b) with (clear a). rewrite H. cbn [bind]. eexists. split; [reflexivity|]. repeat split.
    destruct (insert_str_spec s valid_default) as (c' & E' & V' & _). change (clear a) with content_default in H. rewrite H in E'. injection E' as <-. intros t T. destruct V' as (_ & _ & V' & _). destruct (V' _ T) as (l & L & _). apply nth_error_Some. congruence.
  - destruct a as [p0 t ls], b as [p2 t2 ls2]. destruct S as (Ep & El & R). cbn in Ep, El. subst p2 ls2. unfold select_word_around in *. cbn [cpos clines ctail] in *. destruct VP as (l & L & _). cbn in L. repeat step H; eexists; (split; [reflexivity|]); repeat split; auto.
    intros q X. injection X as <-. cbn. apply nth_error_Some. congruence.
  - eapply swap_sim; eassumption.
  - unfold move_current_line_up in *. rewrite (proj1 S) in H. destruct (0 <? _); [|injection H as <- <-; eauto]. apply bind_Ret_inv in H as ((c1 & x) & E & H). destruct (swap_sim _ _ S E) as (b1 & E1 & S1). rewrite E1. cbn [bind].
    destruct x; [|injection H as <- <-; eauto]. rewrite (proj1 S1) in H. apply bind_Ret_inv in H as (y & E2 & H). rewrite E2. cbn [bind]. apply bind_Ret_inv in H as (c2 & E3 & H). injection H as <- <-.
    eapply fix_sim in E3; [destruct E3 as (b2 & E3 & S3); rewrite E3; cbn [bind]; eauto|reflexivity|apply S1].
  - unfold move_current_line_down in *. rewrite (proj1 S) in H. apply bind_Ret_inv in H as ((c1 & x) & E & H). destruct (swap_sim _ _ S E) as (b1 & E1 & S1). rewrite E1. cbn [bind].
    destruct x; [|injection H as <- <-; eauto]. rewrite (proj1 S1) in H. apply bind_Ret_inv in H as (c2 & E3 & H). injection H as <- <-.
    eapply fix_sim in E3; [destruct E3 as (b2 & E3 & S3); rewrite E3; cbn [bind]; eauto|reflexivity|apply S1].
  - destruct S as (Ep & El & R). unfold move_to_start in *. rewrite <- Ep. destruct (pos_eqb _ _); injection H as <- <-; (eexists; split; [reflexivity|]); repeat split; assumption.
  - destruct S as (Ep & El & R). unfold move_to_line_start in *. rewrite <- Ep. destruct (0 <? _); injection H as <- <-; (eexists; split; [reflexivity|]); repeat split; auto.
  - destruct a as [p0 t ls], b as [p2 t2 ls2]. destruct S as (Ep & El & R). cbn in Ep, El. subst p2 ls2. unfold del_word_right, current_line, set_cpos in *. cbn [cpos clines ctail] in *. repeat step H; try (same; fail).
    rewrite E in H. cbn [bind] in H. destruct (_ && _); injection H as <- <-; same.
Qed.

(** ** Deleting a selection on several lines *)

Lemma clean_set_nth ls i l : clean ls -> (forall ch, In ch l -> clean_char ch) -> clean (set_nth i l ls).
Proof.
  revert i. induction ls as [|x ls IH]; intros i C L; [destruct i; exact C|]. apply clean_cons in C as (C1 & C2). destruct i; cbn [set_nth]; apply clean_cons; auto.
Qed.
Lemma clean_drop ls a b : clean ls -> clean (firstn a ls ++ skipn b ls).
Proof.
  intros C. apply clean_app. split; intros l ch H; eapply C.
  - rewrite <- (firstn_skipn a ls). apply in_or_app. left. exact H.
  - rewrite <- (firstn_skipn b ls). apply in_or_app. right. exact H.
Qed.
Lemma clean_idx ls i l : clean ls -> idx ls i = Ret l -> forall ch, In ch l -> clean_char ch.
Proof. intros C E ch H. apply idx_inv in E. eapply C; [|exact H]. eapply nth_error_In, E. Qed.

Lemma del_rows c : loose c -> py (rmin (selection c)) < py (rmax (selection c)) -> py (rmax (selection c)) < length (clines c) ->
  exists c', del_selection c = Ret (c', true) /\ valid c'.
Proof.
  intros (N & V & T & C) L R. unfold del_selection. set (mn := rmin (selection c)) in *. set (mx := rmax (selection c)) in *. clearbody mn mx.
  rewrite (proj2 (Nat.eqb_neq (py mn) (py mx))) by lia. cbn [andb].
  match goal with |- context [bind ?m _] => assert (F : exists ls, m = Ret ls /\ ls <> [] /\ clean ls) end.
  { destruct (@idx_lt _ (clines c) (py mn) ltac:(lia)) as (l & El).
    assert (F : exists y ls1, (if 0 <? px mn then l <- idx (clines c) (py mn);; Ret (py mn + 1, set_nth (py mn) (firstn (px mn) l) (clines c)) else Ret (py mn, clines c)) = Ret (y, ls1)
      /\ y <= py mn + 1 /\ length ls1 = length (clines c) /\ clean ls1).
    { destruct (0 <? px mn); [rewrite El; cbn [bind]|]; (do 2 eexists; split; [reflexivity|]); [|auto with arith]. rewrite set_nth_length. split; [lia|]. split; [reflexivity|]. apply clean_set_nth; [exact C|].
      intros ch H. eapply clean_idx; [exact C|exact El|]. rewrite <- (firstn_skipn (px mn) l). apply in_or_app. auto. }
    destruct F as (y & ls1 & -> & Hy & H1 & C1). cbn [bind]. destruct (@idx_lt _ ls1 (py mx) ltac:(lia)) as (lm & Em). rewrite Em. cbn [bind].
    assert (F : exists m ls2, (if px mx <? length lm then l' <- vec_drain 0 (px mx) lm;; m <- csub (py mx) 1;; Ret (m, set_nth (py mx) l' ls1) else Ret (py mx, ls1)) = Ret (m, ls2)
      /\ m <= py mx /\ length ls2 = length (clines c) /\ clean ls2).
    { destruct (Nat.ltb_spec (px mx) (length lm)); [|do 2 eexists; split; [reflexivity|]; auto]. unfold vec_drain. rewrite (proj2 (Nat.leb_le _ _)) by lia. rewrite (proj2 (Nat.leb_le _ _)) by lia. cbn [bind andb]. rewrite csub_ret by lia. cbn [bind].
      do 2 eexists. split; [reflexivity|]. rewrite set_nth_length. split; [lia|]. split; [exact H1|]. apply clean_set_nth; [exact C1|]. intros ch H0. eapply clean_idx; [exact C1|exact Em|]. rewrite <- (firstn_skipn (px mx) lm). apply in_or_app. auto. }
    destruct F as (m & ls2 & -> & Hm & H2 & C2). cbn [bind]. destruct (Nat.ltb_spec y m).
    - unfold vec_drain. rewrite (proj2 (Nat.leb_le _ _)) by lia. rewrite (proj2 (Nat.leb_le _ _)) by lia. cbn [bind andb]. eexists. split; [reflexivity|]. pose proof (clean_drop y (Nat.min (m + 1) (length ls2)) C2) as C3.
      destruct (firstn _ _ ++ _) eqn:E; cbn; [|split; [discriminate|exact C3]]. split; [discriminate|]. intros l0 ch [<-|[]] [].
    - eexists. split; [reflexivity|]. split; [|exact C2]. intros ->. cbn in H2. destruct (clines c); [congruence|discriminate]. }
  destruct F as (ls & -> & Hn & Hc). cbn [bind]. unfold set_cursor_pos. rewrite make_valid_pos_eq by exact Hn. cbn [bind]. eexists. split; [reflexivity|]. apply mk_valid; [apply clamp_valid, Hn|discriminate|exact Hc].
Qed.

Lemma loose_valid c : valid c -> loose c.
Proof. intros (N & V & T & C). refine (conj N (conj V (conj _ C))). intros t E. destruct (T _ E) as (l & L & _). apply nth_error_Some. congruence. Qed.
Lemma loose_none c : loose c -> valid (set_ctail c None).
Proof. intros (N & V & T & C). apply mk_valid; [exact V|discriminate|exact C]. Qed.
Lemma loose_sim a b : valid a -> sim a b -> loose b.
Proof. intros (N & V & T & C) (Ep & El & R). rewrite Ep, El in *. exact (conj N (conj V (conj R C))). Qed.

(** From a content whose tail may be after the end of its line, an operation panics exactly when it deletes a
    selection whose tail is after the end of the line of the cursor *)
Theorem C01_exact : forall u o c, loose c ->
  (o = OpDelSelection /\ tail_past_end c -> capply u o c = Panic)
  /\ (~ (o = OpDelSelection /\ tail_past_end c) -> exists c' b, capply u o c = Ret (c', b) /\ loose c').
Proof.
  intros u o c Lc. split.
  - intros (-> & t & l & Et & Ey & El & Ex). cbn [capply]. destruct Lc as (N & V & T & C). destruct V as (l' & El' & Hx). rewrite Ey in El. rewrite El in El'. injection El' as <-.
    unfold del_selection, selection. rewrite Et. destruct (pos_ltb t (cpos c)) eqn:P.
    { apply pos_ltb_spec in P. lia. }
    cbn [rmin rmax]. rewrite Ey, Nat.eqb_refl. cbn [andb]. rewrite (proj2 (Nat.eqb_neq (px (cpos c)) (px t))) by lia.
    unfold idx. rewrite El. cbn [bind]. rewrite (proj2 (Nat.eqb_neq (px t) (length l))) by lia. unfold vec_drain. rewrite (proj2 (Nat.leb_gt (px t + 1) (length l))) by lia. rewrite andb_false_r. reflexivity.
  - intros H. pose proof Lc as (N & V & T & C).
    assert (G : o <> OpDelSelection -> o <> OpMakeSelection -> (forall p, o <> OpSetTail p) -> exists c' b, capply u o c = Ret (c', b) /\ loose c').
    { intros N1 N2 N3. destruct (@capply_valid u o _ N3 (loose_none Lc)) as (a' & b & E & Va). destruct (@op_sim u o (set_ctail c None) c a' b N1 N2 N3 N V) as (c' & E' & S'); [repeat split; exact T|exact E|].
      exists c', b. split; [exact E'|]. eapply loose_sim; eassumption. }
    destruct o; try (apply G; [discriminate..|intros; discriminate]); clear G; cbn [capply]; unfold with_true.
    + eexists _, _. split; [reflexivity|]. unfold make_selection. destruct (ctail c) eqn:E; [exact Lc|]. refine (conj _ (conj _ (conj _ _))); auto.
      cbn. intros t X. injection X as <-. destruct V as (l & L & _). apply nth_error_Some. congruence.
    + unfold set_selection_tail. destruct (Nat.leb_spec (length (clines c)) (py p)) as [L|L].
      * rewrite content_end_eq by exact N. cbn [bind]. eexists _, _. split; [reflexivity|]. refine (conj _ (conj _ (conj _ _))); auto.
        cbn. intros t X. injection X as <-. cbn. destruct (clines c); [congruence|cbn; lia].
      * destruct V as (l & El & Hx). rewrite (idx_ret _ _ El). cbn [bind]. eexists _, _. split; [reflexivity|]. refine (conj _ (conj _ (conj _ _))); auto.
        { exists l. auto. }
        cbn. intros t X. injection X as <-. exact L.
    + destruct (ctail c) as [t|] eqn:Et.
      2: { assert (Vc : valid c) by (rewrite <- Et in *; destruct c as [p t ls]; cbn in *; subst; apply mk_valid; [exact V|discriminate|exact C]). destruct (del_selection_spec Vc) as (c' & b & E & V' & _). exists c', b. split; [exact E|apply loose_valid, V']. }
      destruct (Nat.eq_dec (py t) (py (cpos c))) as [Ey|Ey].
      * assert (Vc : valid c).
        { destruct c as [p t0 ls]; cbn in *. subst t0. apply mk_valid; [exact V| |exact C]. intros t' X. injection X as <-. destruct V as (l & El & Hx). rewrite <- Ey in El. exists l. split; [exact El|].
          destruct (Nat.le_gt_cases (px t) (length l)) as [|L]; [assumption|]. exfalso. apply H. split; [reflexivity|]. exists t, l. auto. }
        destruct (del_selection_spec Vc) as (c' & b & E & V' & _). exists c', b. split; [exact E|apply loose_valid, V'].
      * assert (Hr : py (cpos c) < length (clines c)) by (destruct V as (l & El & _); apply nth_error_Some; congruence). pose proof (T _ eq_refl) as Ht.
        destruct (@del_rows c) as (c' & E & V'); [refine (conj N (conj V (conj _ C))); rewrite Et; exact T|..].
        -- unfold selection. rewrite Et. destruct (pos_ltb t (cpos c)) eqn:P; cbn [rmin rmax]; [apply pos_ltb_spec in P; lia|]. destruct (Nat.lt_ge_cases (py t) (py (cpos c))) as [L|L]; [|lia]. exfalso. assert (pos_ltb t (cpos c) = true) by (apply pos_ltb_spec; lia). congruence.
        -- unfold selection. rewrite Et. destruct (pos_ltb t (cpos c)); cbn [rmin rmax]; assumption.
        -- exists c', true. split; [exact E|apply loose_valid, V'].
Qed.
Print Assumptions C01_exact.

(** A history panics exactly when it reaches such a deletion *)
Theorem C01_histories_exact : forall u ops,
  (crun u ops content_default = Panic <-> exists before after c, ops = before ++ OpDelSelection :: after /\ crun u before content_default = Ret c /\ tail_past_end c)
  /\ (crun u ops content_default <> Panic -> exists c, crun u ops content_default = Ret c /\ loose c).
Proof.
  intros u ops. assert (L : loose content_default) by apply loose_valid, valid_default. revert L. generalize content_default. induction ops as [|o ops IH]; intros c Lc; cbn [crun].
  - split; [|eauto]. split; [discriminate|]. intros (b & a & c0 & E & _). destruct b; discriminate.
  - destruct (@C01_exact u o c Lc) as (A & B). destruct (capply u o c) as [(c1 & b1)| |] eqn:E; cbn [bind].
    + assert (NP : ~ (o = OpDelSelection /\ tail_past_end c)) by (intros X; apply A in X; discriminate). destruct (B NP) as (c' & b' & E' & L'). injection E' as -> ->.
      destruct (IH _ L') as (I1 & I2). split; [|exact I2]. rewrite I1. split.
      * intros (bf & af & c0 & -> & R & T). exists (o :: bf), af, c0. cbn [crun]. rewrite E. auto.
      * intros (bf & af & c0 & X & R & T). destruct bf as [|o' bf]; cbn [app] in X; injection X as -> ->; [injection R as <-; destruct NP; auto|]. cbn [crun] in R. rewrite E in R. cbn [bind] in R. exists bf, af, c0. auto.
    + split; [|congruence]. split; [|auto]. intros _. assert (X : ~ ~ (o = OpDelSelection /\ tail_past_end c)) by (intros X; destruct (B X) as (? & ? & ? & _); discriminate).
      assert (D : o = OpDelSelection /\ tail_past_end c).
      { assert (O : o = OpDelSelection \/ o <> OpDelSelection) by (destruct o; auto; right; discriminate). destruct O as [->|O]; [|exfalso; apply X; tauto]. split; [reflexivity|].
        destruct (ctail c) as [t|] eqn:Et; [|exfalso; apply X; intros (_ & t & l & E1 & _); congruence].
        destruct (Nat.eq_dec (py t) (py (cpos c))) as [Ey|Ey]; [|exfalso; apply X; intros (_ & t' & l & E1 & E2 & _); congruence].
        destruct (nth_error (clines c) (py t)) as [l|] eqn:El; [|exfalso; apply X; intros (_ & t' & l & E1 & _ & E2 & _); congruence].
        destruct (Nat.lt_ge_cases (length l) (px t)) as [Lt|Ge]; [exists t, l; auto|exfalso; apply X; intros (_ & t' & l' & E1 & _ & E2 & E3)]. assert (t' = t) by congruence. subst t'. assert (l' = l) by congruence. subst l'. lia. }
      destruct D as (-> & D). exists [], ops, c. auto.
    + exfalso. assert (NP : ~ (o = OpDelSelection /\ tail_past_end c)) by (intros X; apply A in X; discriminate). destruct (B NP) as (? & ? & ? & _). discriminate.
Qed.
Print Assumptions C01_histories_exact.

(** It never happens when the tails given are positions of the text *)
Theorem C01_tails_in_text : forall u ops, tails_in_text u ops content_default -> exists c, crun u ops content_default = Ret c /\ valid c.
Proof.
  intros u ops. generalize valid_default. generalize content_default. induction ops as [|o ops IH]; intros c Vc H; cbn [crun]; [eauto|]. destruct H as (Ho & H).
  assert (S : exists c' b, capply u o c = Ret (c', b) /\ valid c').
  { destruct o; try (apply capply_valid; [intros; discriminate|exact Vc]). cbn [capply]. unfold with_true, set_selection_tail. destruct Vc as (N & V & T & C). destruct (Nat.leb_spec (length (clines c)) (py p)) as [L|L].
    - rewrite <- (make_valid_pos_eq c p N) || idtac. assert (E := make_valid_pos_eq c p N). unfold make_valid_pos in E. rewrite (proj2 (Nat.leb_le _ _) L) in E. rewrite E. cbn [bind]. eexists _, _. split; [reflexivity|]. apply mk_valid; [exact V| |exact C]. intros t X. injection X as <-. apply clamp_valid, N.
    - destruct Ho as [(l & El & Hx)|]; [|lia]. pose proof V as (lc & Elc & Hxc). rewrite (idx_ret _ _ Elc). cbn [bind]. eexists _, _. split; [reflexivity|]. apply mk_valid; [exact V| |exact C]. intros t X. injection X as <-. exists l. cbn. split; [exact El|lia]. }
  destruct S as (c' & b & E & V'). rewrite E. cbn [bind]. eauto.
Qed.
Print Assumptions C01_tails_in_text.

Example C01_tails_example :
  let ops := [OpInsertStr [97;98;10;99;100;101]%N; OpSetTail (mkPos 0 1); OpLeft; OpDelSelection; OpSetTail (mkPos 1 0)] in
  tails_in_text demo ops content_default /\ crun demo ops content_default = Ret (mkContent (mkPos 0 1) (Some (mkPos 1 0)) [[97]; [101]]%N).
Proof.
  vm_compute. split; [|reflexivity].
  repeat (split; [try exact I|intros ? ? X; injection X as <- <-]); try exact I; left; eexists; (split; [reflexivity|]); cbn; auto with arith.
Qed.
(** The panic of [C01_histories_are_safe_refuted] *)
Example C01_exact_example : exists c, crun demo [OpInsertStr [10;97;98;99;100;101;102]%N; OpSetTail (mkPos 0 5); OpLinesUp 1] content_default = Ret c /\ loose c /\ tail_past_end c.
Proof.
  eexists. split; [vm_compute; reflexivity|]. split.
  - unfold loose. cbn. repeat split; try discriminate; try (exists []; auto; fail); try (intros t E; injection E as <-; cbn; lia); intros ->; cbn in *; intuition (subst; cbn in *; intuition discriminate).
  - exists (mkPos 0 5), []. cbn. repeat split. lia.
Qed.
