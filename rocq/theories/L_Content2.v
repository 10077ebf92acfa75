(** * Proofs about the content of an input field: deletions and cursor moves *)
From Verif Require Import Base L_Base M_Content S_Content L_Content.
Set Implicit Arguments.

Definition cleanl (l : Line) : Prop := forall ch, In ch l -> clean_char ch.

Lemma clean_cons' l b : clean (l :: b) <-> cleanl l /\ clean b.
Proof. apply clean_cons. Qed.
Lemma cleanl_app a b : cleanl (a ++ b) <-> cleanl a /\ cleanl b.
Proof.
  unfold cleanl. split.
  - intros H; split; intros ch Hi; apply H, in_or_app; auto.
  - intros [Ha Hb] ch Hi. apply in_app_or in Hi. destruct Hi; auto.
Qed.
Lemma cleanl_cons x b : cleanl (x :: b) <-> clean_char x /\ cleanl b.
Proof.
  unfold cleanl. split.
  - intros H; split; [apply H; now left | intros; apply H; now right].
  - intros [Ha Hb] ch [<-|Hi]; auto.
Qed.
Lemma cleanl_nil : cleanl [] <-> True.
Proof. split; [auto|intros _ ch []]. Qed.
Lemma clean_nil : clean [] <-> True.
Proof. split; [auto|intros _ l ch []]. Qed.

Ltac cln :=
  repeat (progress rewrite ?clean_app, ?clean_cons', ?cleanl_app, ?cleanl_cons, ?cleanl_nil, ?clean_nil in *);
  tauto.

Lemma tail_kept_clamp c p t ls : ls <> [] -> ctail c = t ->
  tail_kept c (mkContent p (option_map (clamp ls) t) ls).
Proof.
  intros N E. unfold tail_kept. simpl. rewrite E. destruct t; simpl; auto.
  intros. now apply clamp_id.
Qed.

Lemma tail_kept_refl c c' : ctail c = ctail c' -> tail_kept c c'.
Proof. intros H. unfold tail_kept. rewrite <- H. destruct (ctail c); auto. Qed.

Lemma app1_assoc {A} (a : list A) x b : a ++ x :: b = (a ++ [x]) ++ b.
Proof. now rewrite <- app_assoc. Qed.

Lemma last_case {A} (l : list A) : l = [] \/ exists l' x, l = l' ++ [x].
Proof.
  destruct l as [|a l]; [now left|right].
  destruct (@exists_last _ (a :: l)) as (l' & x & E); [discriminate|]. eauto.
Qed.


Ltac lens := rewrite ?app_length in *; simpl in *; lia.

Lemma del_char_left_spec c : valid c ->
  (cursor c = 0 -> del_char_left c = Ret (c, false)) /\
  (0 < cursor c -> exists c', del_char_left c = Ret (c', true) /\ valid c' /\ tail_kept c c'
     /\ removed c c' (cursor c - 1) (cursor c) /\ cursor c' = cursor c - 1).
Proof.
  intros V. destruct (valid_inv V) as (pre & l1 & l2 & post & E & Ht & Hc).
  remember (ctail c) as t eqn:Et. clear V Et.
  destruct (last_case l1) as [->|(l1' & ch & ->)].
  - destruct (last_case pre) as [->|(pre' & l0 & ->)].
    + subst c. change (@length N []) with (@length N []). rewrite cursor_mid. simpl.
      split; [reflexivity|intros; lia].
    + assert (Cur : cursor c = length (pj (pre' ++ [l0]) ++ [])) by (subst c; apply cursor_mid).
      assert (Tx : text c = (pj (pre' ++ [l0]) ++ []) ++ l2 ++ sj post) by (subst c; apply text_mid).
      rewrite Cur. rewrite app_nil_r in *. rewrite pj_snoc in *. split; [intros H; lens|]. intros _.
      exists (mkContent (mkPos (length pre') (length l0)) (option_map (clamp (pre' ++ (l0 ++ l2) :: post)) t)
                (pre' ++ (l0 ++ l2) :: post)).
      split; [|split; [|split; [|split]]].
      * rewrite E. unfold del_char_left. simpl.
        destruct (0 <? length (pre' ++ [l0])) eqn:B1; [|lens].
        destruct (1 <? length ((pre' ++ [l0]) ++ l2 :: post)) eqn:B2; [|lens]. simpl.
        rewrite vec_remove_mid by reflexivity. simpl.
        replace (length (pre' ++ [l0]) - 1) with (length pre') by lens.
        rewrite <- app_assoc. simpl. rewrite idx_app_mid. simpl. rewrite set_nth_mid.
        rewrite fix_selection_eq by (simpl; auto). simpl.
        rewrite clamp_id by (apply valid_pos_mid; lens). reflexivity.
      * apply mk_valid; [apply valid_pos_mid; lens| |cln].
        intros t'. now apply tail_clamp_valid.
      * apply tail_kept_clamp; [auto|now rewrite E].
      * unfold removed. rewrite text_mid, Tx.
        rewrite skipn_app_exact by lens. f_equal.
        rewrite app_assoc, <- (app_assoc (pj pre' ++ l0)).
        rewrite firstn_app_exact by lens. reflexivity.
      * rewrite cursor_mid. lens.
  - assert (Cur : cursor c = length (pj pre ++ l1' ++ [ch])) by (subst c; apply cursor_mid).
    assert (Tx : text c = (pj pre ++ l1' ++ [ch]) ++ l2 ++ sj post) by (subst c; apply text_mid).
    rewrite Cur. split; [intros H; lens|]. intros _.
    exists (mkContent (mkPos (length pre) (length l1')) (option_map (clamp (pre ++ (l1' ++ l2) :: post)) t)
              (pre ++ (l1' ++ l2) :: post)).
    split; [|split; [|split; [|split]]].
    * rewrite E. unfold del_char_left. simpl.
      destruct (0 <? length (l1' ++ [ch])) eqn:B1; [|lens].
      rewrite idx_app_mid. simpl.
      destruct (length ((l1' ++ [ch]) ++ l2) =? 0) eqn:B2; [lens|]. simpl.
      rewrite <- app1_assoc. rewrite vec_remove_mid by lens. simpl.
      rewrite set_nth_mid. rewrite fix_selection_eq by (simpl; auto). simpl.
      replace (length (l1' ++ [ch]) - 1) with (length l1') by lens.
      rewrite clamp_id by (apply valid_pos_mid; lens). reflexivity.
    * apply mk_valid; [apply valid_pos_mid; lens| |cln].
      intros t'. now apply tail_clamp_valid.
    * apply tail_kept_clamp; [auto|now rewrite E].
    * unfold removed. rewrite text_mid, Tx.
      rewrite skipn_app_exact by lens. f_equal.
      rewrite (app_assoc (pj pre)), <- (app_assoc (pj pre ++ l1')). rewrite firstn_app_exact by lens. reflexivity.
    * rewrite cursor_mid. lens.
Qed.


Lemma text_len_mid p t pre l1 l2 post : length (text (mkContent p t (pre ++ (l1 ++ l2) :: post)))
  = length (pj pre ++ l1) + length (l2 ++ sj post).
Proof. rewrite text_mid. apply app_length. Qed.

Lemma del_char_below_spec c : valid c ->
  (cursor c < length (text c) ->
     exists c', del_char_below c = Ret (c', true) /\ valid c' /\ tail_kept c c'
     /\ removed c c' (cursor c) (S (cursor c)) /\ cpos c' = cpos c /\ cursor c' = cursor c) /\
  (cursor c = length (text c) -> ~ last_line_empty c -> del_char_below c = Ret (c, false)) /\
  (cursor c = length (text c) -> last_line_empty c ->
     exists c', del_char_below c = Ret (c', true) /\ valid c' /\ tail_kept c c'
     /\ text c = text c' ++ [c_nl] /\ cursor c' = length (text c')).
Proof.
  intros V. destruct (valid_inv V) as (pre & l1 & l2 & post & E & Ht & Hc).
  remember (ctail c) as t eqn:Et. clear V Et.
  assert (Cur : cursor c = length (pj pre ++ l1)) by (subst c; apply cursor_mid).
  assert (Tx : text c = (pj pre ++ l1) ++ l2 ++ sj post) by (subst c; apply text_mid).
  assert (Len : length (text c) = length (pj pre ++ l1) + length (l2 ++ sj post)) by (subst c; apply text_len_mid).
  destruct l2 as [|ch l2].
  - destruct post as [|l post].
    + (* at end *)
      rewrite Cur, Len. split; [intros H; lens|]. simpl. split; intros _.
      * intros NL. subst c. unfold del_char_below, current_line. simpl. rewrite app_nil_r in *.
        rewrite idx_app_mid. simpl. destruct l1 as [|ch l1].
        -- simpl. destruct (1 <? length (pre ++ [[]])) eqn:B; [|reflexivity].
           exfalso. apply NL. exists pre. split; [|reflexivity]. intros ->. simpl in B. lia.
        -- destruct (length (ch :: l1) =? 0) eqn:B1; [lens|].
           destruct (length (ch :: l1) <? length (ch :: l1)) eqn:B2; [lia|].
           destruct (S (length pre) <? length (pre ++ [ch :: l1])) eqn:B3; [lens|]. reflexivity.
      * intros (pre0 & Ne & Epre). subst c. simpl in Epre. rewrite app_nil_r in *.
        apply app_inj_tail in Epre. destruct Epre as [-> ->].
        destruct (last_case pre0) as [->|(pre' & l0 & ->)]; [congruence|].
        unfold del_char_below, current_line. simpl. rewrite idx_app_mid. simpl.
        destruct (1 <? length ((pre' ++ [l0]) ++ [[]])) eqn:B; [|lens].
        rewrite vec_remove_mid by reflexivity. simpl. rewrite app_nil_r.
        rewrite fix_selection_eq by (simpl; apply app_cons_nonnil). simpl.
        eexists; split; [reflexivity|]. split; [|split; [|split]].
        -- apply mk_valid.
           ++ apply clamp_valid, app_cons_nonnil.
           ++ intros t'. apply tail_clamp_valid, app_cons_nonnil.
           ++ cln.
        -- apply tail_kept_clamp; auto. 
        -- unfold text; simpl. change (pre' ++ [l0]) with (pre' ++ l0 :: []).
           change ((pre' ++ l0 :: []) ++ [[]]) with ((pre' ++ l0 :: []) ++ [] :: []).
           rewrite !flat_mid. unfold sj; simpl. rewrite pj_snoc, !app_nil_r, app_assoc. reflexivity.
        -- unfold clamp. simpl. rewrite app_length; simpl.
           destruct (length pre' + 1 <=? length pre' + 1) eqn:B3; [|lia].
           replace (length pre' + 1 - 1) with (length pre') by lia.
           rewrite app_nth2, Nat.sub_diag by lia. simpl.
           rewrite cursor_mid. unfold text. simpl. rewrite flat_mid. unfold sj; simpl. rewrite app_nil_r. reflexivity.
    + split; [|split; intros H; exfalso; rewrite Cur, Len in H; simpl in H; lia].
      intros _.
      exists (mkContent (mkPos (length pre) (length l1)) (option_map (clamp (pre ++ (l1 ++ l) :: post)) t)
                (pre ++ (l1 ++ l) :: post)).
      split; [|split; [|split; [|split; [|split]]]].
      * rewrite E. unfold del_char_below, current_line. cbn [cpos ctail clines py px].
        rewrite app_nil_r, idx_app_mid, bind_ret. destruct l1 as [|ch l1].
        -- simpl. destruct (1 <? length (pre ++ [] :: l :: post)) eqn:B; [|lens].
           rewrite vec_remove_mid by reflexivity. simpl.
           rewrite fix_selection_eq by (simpl; auto). simpl.
           rewrite clamp_id by (apply valid_pos_mid; lens). reflexivity.
        -- destruct (length (ch :: l1) =? 0) eqn:B1; [lens|].
           destruct (length (ch :: l1) <? length (ch :: l1)) eqn:B2; [lia|].
           destruct (S (length pre) <? length (pre ++ (ch :: l1) :: l :: post)) eqn:B3; [|lens].
           rewrite (app1_assoc pre). rewrite vec_remove_mid by lens. rewrite bind_ret.
           rewrite <- !(app1_assoc pre). rewrite set_nth_mid.
           rewrite fix_selection_eq by (simpl; auto). cbn [cpos ctail clines set_clines].
           rewrite clamp_id by (apply valid_pos_mid; lens). reflexivity.
      * apply mk_valid; [apply valid_pos_mid; lens| |cln].
        intros t'. now apply tail_clamp_valid.
      * apply tail_kept_clamp; [auto|now rewrite E].
      * unfold removed. rewrite Tx, Cur, text_mid. rewrite firstn_app_exact by reflexivity. f_equal.
        rewrite sj_cons. cbn [app]. rewrite skipn_cons_exact by reflexivity. reflexivity.
      * now rewrite E.
      * rewrite Cur. apply cursor_mid.
  - split; [|split; intros H; exfalso; rewrite Cur, Len in H; simpl in H; lia].
    intros _.
    exists (mkContent (mkPos (length pre) (length l1)) (option_map (clamp (pre ++ (l1 ++ l2) :: post)) t)
              (pre ++ (l1 ++ l2) :: post)).
    split; [|split; [|split; [|split; [|split]]]].
    * rewrite E. unfold del_char_below, current_line. cbn [cpos ctail clines py px].
      rewrite idx_app_mid, bind_ret.
      destruct (length (l1 ++ ch :: l2) =? 0) eqn:B1; [lens|].
      destruct (length l1 <? length (l1 ++ ch :: l2)) eqn:B2; [|lens].
      rewrite vec_remove_mid by reflexivity. rewrite bind_ret. rewrite set_nth_mid.
      rewrite fix_selection_eq by (simpl; auto). simpl.
      rewrite clamp_id by (apply valid_pos_mid; lens). reflexivity.
    * apply mk_valid; [apply valid_pos_mid; lens| |cln].
      intros t'. now apply tail_clamp_valid.
    * apply tail_kept_clamp; [auto|now rewrite E].
    * unfold removed. rewrite Tx, Cur, text_mid. rewrite firstn_app_exact by reflexivity. f_equal.
      cbn [app]. rewrite skipn_cons_exact by reflexivity. reflexivity.
    * now rewrite E.
    * rewrite Cur. apply cursor_mid.
Qed.

(** ** Moves *)


Lemma valid_move c p : valid c -> valid_pos (clines c) p -> valid (set_cpos c p).
Proof. intros (A & B & C & D) H. unfold valid, set_cpos; simpl. auto. Qed.

Lemma move_right_spec c : valid c ->
  (cursor c < length (text c) -> exists c', move_right c = Ret (c', true) /\ valid c'
      /\ same_text c c' /\ cursor c' = S (cursor c)) /\
  (cursor c = length (text c) -> move_right c = Ret (c, false)).
Proof.
  intros V. pose proof V as V0. destruct (valid_inv V) as (pre & l1 & l2 & post & E & Ht & Hc).
  remember (ctail c) as t eqn:Et. clear Et.
  assert (Cur : cursor c = length (pj pre ++ l1)) by (subst c; apply cursor_mid).
  assert (Len : length (text c) = length (pj pre ++ l1) + length (l2 ++ sj post)) by (subst c; apply text_len_mid).
  rewrite Cur, Len. destruct l2 as [|ch l2]; [destruct post as [|l post]|].
  - split; [intros H; lens|intros _]. subst c. unfold move_right. simpl. rewrite app_nil_r, idx_app_mid. simpl.
    destruct (length l1 <? length l1) eqn:B; [lia|].
    rewrite csub_ret by lens. simpl.
    destruct (length pre <? length (pre ++ [l1]) - 1) eqn:B2; [lens|]. reflexivity.
  - split; [intros _|intros H; exfalso; simpl in H; lia]. subst c. unfold move_right. simpl. rewrite app_nil_r in *. rewrite idx_app_mid. simpl.
    destruct (length l1 <? length l1) eqn:B; [lia|].
    rewrite csub_ret by lens. simpl.
    destruct (length pre <? length (pre ++ l1 :: l :: post) - 1) eqn:B2; [|lens].
    eexists; split; [reflexivity|]. split; [|split].
    + apply valid_move; [exact V0|]. simpl. rewrite (app1_assoc pre).
      replace (length pre + 1) with (length (pre ++ [l1])) by lens. apply valid_pos_mid. lia.
    + split; reflexivity.
    + unfold set_cpos; simpl. rewrite (app1_assoc pre).
      replace (length pre + 1) with (length (pre ++ [l1])) by lens.
      change (mkPos (length (pre ++ [l1])) 0) with (mkPos (length (pre ++ [l1])) (length (@nil N))).
      rewrite cursor_mid, pj_snoc. lens.
  - split; [intros _|intros H; exfalso; simpl in H; lia]. subst c. unfold move_right. simpl. rewrite idx_app_mid. simpl.
    destruct (length l1 <? length (l1 ++ ch :: l2)) eqn:B; [|lens].
    eexists; split; [reflexivity|]. split; [|split].
    + apply valid_move; [exact V0|]. simpl. apply valid_pos_mid. lens.
    + split; reflexivity.
    + unfold set_cpos; simpl. rewrite (app1_assoc l1).
      replace (length l1 + 1) with (length (l1 ++ [ch])) by lens. rewrite cursor_mid. lens.
Qed.

Lemma can_move_right_spec c : valid c ->
  can_move_right c = Ret (cursor c <? length (text c)).
Proof.
  intros V. destruct (move_right_spec V) as [A B]. pose proof (cursor_le V) as L.
  unfold can_move_right. unfold move_right in *.
  destruct (cursor c <? length (text c)) eqn:C.
  - destruct A as (c' & A & _); [lia|]. destruct (idx (clines c) (py (cpos c))); try discriminate. simpl in *.
    destruct (px (cpos c) <? length a); [reflexivity|].
    destruct (csub (length (clines c)) 1); try discriminate. simpl in *.
    destruct (py (cpos c) <? a0); [reflexivity|]. inversion A.
  - assert (E : cursor c = length (text c)) by lia. apply B in E.
    destruct (idx (clines c) (py (cpos c))); try discriminate. simpl in *.
    destruct (px (cpos c) <? length a); [inversion E|].
    destruct (csub (length (clines c)) 1); try discriminate. simpl in *.
    destruct (py (cpos c) <? a0); [inversion E|reflexivity].
Qed.

Lemma move_left_spec c : valid c ->
  (0 < cursor c -> exists c', move_left c = Ret (c', true) /\ valid c'
      /\ same_text c c' /\ S (cursor c') = cursor c) /\
  (cursor c = 0 -> move_left c = Ret (c, false)).
Proof.
  intros V. pose proof V as V0. destruct (valid_inv V) as (pre & l1 & l2 & post & E & Ht & Hc).
  remember (ctail c) as t eqn:Et. clear Et.
  assert (Cur : cursor c = length (pj pre ++ l1)) by (subst c; apply cursor_mid).
  rewrite Cur. destruct (last_case l1) as [->|(l1' & ch & ->)].
  - destruct (last_case pre) as [->|(pre' & l0 & ->)].
    + split; [intros H; simpl in H; lia|]. intros _. subst c. reflexivity.
    + rewrite pj_snoc. split; [intros _|intros H; lens]. subst c. unfold move_left. simpl.
      destruct (0 <? length (pre' ++ [l0])) eqn:B; [|lens].
      replace (length (pre' ++ [l0]) - 1) with (length pre') by lens.
      rewrite <- app1_assoc. rewrite idx_app_mid. simpl.
      eexists; split; [reflexivity|]. split; [|split].
      * apply valid_move; [simpl in V0; rewrite (app1_assoc pre' l0 (l2 :: post)); exact V0|]. apply valid_pos_mid. lia.
      * split; reflexivity.
      * unfold set_cpos; simpl. rewrite cursor_mid. lens.
  - split; [intros _|intros H; lens]. subst c. unfold move_left. simpl.
    destruct (0 <? length (l1' ++ [ch])) eqn:B; [|lens].
    eexists; split; [reflexivity|]. split; [|split].
    + apply valid_move; [exact V0|]. simpl. apply valid_pos_mid. lens.
    + split; reflexivity.
    + unfold set_cpos; simpl. replace (length (l1' ++ [ch]) - 1) with (length l1') by lens.
      rewrite cursor_mid. lens.
Qed.

Lemma can_move_left_spec c : valid c -> can_move_left c = (0 <? cursor c).
Proof.
  intros V. destruct (valid_inv V) as (pre & l1 & l2 & post & E & Ht & Hc).
  remember (ctail c) as t eqn:Et. clear Et.
  assert (Cur : cursor c = length (pj pre ++ l1)) by (subst c; apply cursor_mid).
  rewrite Cur. subst c. unfold can_move_left. simpl. rewrite app_length.
  destruct pre as [|l0 pre]; simpl; [lia|]. rewrite pj_cons, app_length. simpl. lia.
Qed.

(** Two contents with the same lines and cursor offset are at the same place *)
Lemma same_cursor c c' : valid c -> valid c' -> clines c' = clines c -> cursor c' = cursor c -> cpos c' = cpos c.
Proof.
  intros (_ & A & _) (_ & B & _) E H. unfold cursor, offset in H. rewrite E in *.
  symmetry. eapply offset_inj; eauto.
Qed.

Lemma move_left_right c c1 : valid c -> move_right c = Ret (c1, true) ->
  move_left c1 = Ret (c, true).
Proof.
  intros V H. destruct (move_right_spec V) as [A B]. pose proof (cursor_le V).
  destruct (Nat.eq_dec (cursor c) (length (text c))) as [E|E].
  { rewrite B in H by assumption. discriminate. }
  destruct A as (c' & A1 & A2 & A3 & A4); [lia|].
  rewrite A1 in H. inversion H; subst c'.
  destruct (move_left_spec A2) as [C _]. destruct C as (c2 & C1 & C2 & C3 & C4); [lia|].
  rewrite C1. do 2 f_equal.
  assert (cpos c2 = cpos c).
  { apply same_cursor; auto; try lia. destruct A3, C3; congruence. }
  destruct c2, c, A3, C3; simpl in *; congruence.
Qed.

Lemma move_right_left c c1 : valid c -> move_left c = Ret (c1, true) ->
  move_right c1 = Ret (c, true).
Proof.
  intros V H. destruct (move_left_spec V) as [A B].
  destruct (Nat.eq_dec (cursor c) 0) as [E|E].
  { rewrite B in H by assumption. discriminate. }
  destruct A as (c' & A1 & A2 & A3 & A4); [lia|].
  rewrite A1 in H. inversion H; subst c'.
  destruct (move_right_spec A2) as [C _]. pose proof (cursor_le V).
  assert (T : text c1 = text c) by (unfold text; destruct A3; congruence).
  destruct C as (c2 & C1 & C2 & C3 & C4); [rewrite T; lia|].
  rewrite C1. do 2 f_equal.
  assert (cpos c2 = cpos c).
  { apply same_cursor; auto; try lia. destruct A3, C3; congruence. }
  destruct c2, c, A3, C3; simpl in *; congruence.
Qed.

Lemma pos_eqb_spec a b : pos_eqb a b = true <-> a = b.
Proof.
  unfold pos_eqb. destruct a, b; simpl. rewrite andb_true_iff, !Nat.eqb_eq.
  split; [intros [-> ->]; reflexivity | intros H; inversion H; auto].
Qed.

Lemma move_to_end_spec c : valid c ->
  exists c' b, move_to_end c = Ret (c', b) /\ valid c' /\ same_text c c'
  /\ cursor c' = length (text c) /\ (b = false <-> cursor c = length (text c)).
Proof.
  intros V. destruct (valid_end V) as (pre & l & E & Ee). unfold move_to_end. rewrite Ee. simpl.
  set (e := mkPos (length pre) (length l)) in *.
  assert (Ve : valid_pos (clines c) e) by (rewrite E; apply valid_pos_mid; lia).
  assert (O : offset c e = length (text c)).
  { unfold offset, text, e. rewrite E, offset_mid, flat_mid. unfold sj; simpl. rewrite app_nil_r, app_length. reflexivity. }
  destruct (pos_eqb e (cpos c)) eqn:B.
  - apply pos_eqb_spec in B. exists c, false. split; [reflexivity|]. split; [assumption|].
    split; [split; reflexivity|]. unfold cursor. rewrite <- B, O. tauto.
  - exists (set_cpos c e), true. split; [reflexivity|]. split; [now apply valid_move|].
    split; [split; reflexivity|]. split; [exact O|]. split; [discriminate|].
    intros H. exfalso. assert (e = cpos c); [|apply pos_eqb_spec in H0; congruence].
    eapply offset_inj; [exact Ve| exact (proj1 (proj2 V)) |].
    unfold cursor, offset in *. congruence.
Qed.

Lemma valid_pos_0 c : valid c -> valid_pos (clines c) (mkPos 0 0).
Proof.
  intros (N & _). destruct (clines c) as [|l0 r]; [congruence|]. exists l0. simpl. split; [reflexivity|lia].
Qed.

Lemma move_to_start_spec c : valid c ->
  exists c' b, move_to_start c = (c', b) /\ valid c' /\ same_text c c'
  /\ cursor c' = 0 /\ (b = false <-> cursor c = 0).
Proof.
  intros V. unfold move_to_start. destruct (pos_eqb (mkPos 0 0) (cpos c)) eqn:B.
  - apply pos_eqb_spec in B. exists c, false. split; [reflexivity|]. split; [assumption|].
    split; [split; reflexivity|]. unfold cursor. rewrite <- B. tauto.
  - exists (set_cpos c (mkPos 0 0)), true. split; [reflexivity|]. split; [apply valid_move; auto; now apply valid_pos_0|].
    split; [split; reflexivity|]. split; [reflexivity|]. split; [discriminate|].
    intros H. exfalso. assert (mkPos 0 0 = cpos c); [|apply pos_eqb_spec in H0; congruence].
    eapply offset_inj; [exact (valid_pos_0 V)| exact (proj1 (proj2 V)) |].
    unfold cursor, offset in *. rewrite H. reflexivity.
Qed.

Lemma move_to_line_end_spec c : valid c ->
  exists c' b l, move_to_line_end c = Ret (c', b) /\ valid c' /\ same_text c c'
  /\ nth_error (clines c) (py (cpos c)) = Some l
  /\ cpos c' = mkPos (py (cpos c)) (length l) /\ (b = false <-> px (cpos c) = length l).
Proof.
  intros V. pose proof V as (_ & (l & Hl & Hx) & _). unfold move_to_line_end.
  rewrite (idx_ret _ _ Hl). simpl. destruct (px (cpos c) <? length l) eqn:B.
  - exists (set_cpos c (mkPos (py (cpos c)) (length l))), true, l. split; [reflexivity|].
    split; [apply valid_move; auto; exists l; auto|]. split; [split; reflexivity|].
    split; [assumption|]. split; [reflexivity|]. split; [discriminate|lia].
  - exists c, false, l. split; [reflexivity|]. split; [assumption|]. split; [split; reflexivity|].
    split; [assumption|]. split; [destruct (cpos c); simpl in *; f_equal; lia|]. split; [intros; lia|auto].
Qed.

Lemma move_to_line_start_spec c : valid c ->
  exists c' b, move_to_line_start c = (c', b) /\ valid c' /\ same_text c c'
  /\ cpos c' = mkPos (py (cpos c)) 0 /\ (b = false <-> px (cpos c) = 0).
Proof.
  intros V. pose proof V as (_ & (l & Hl & Hx) & _). unfold move_to_line_start.
  destruct (0 <? px (cpos c)) eqn:B.
  - exists (set_cpos c (mkPos (py (cpos c)) 0)), true. split; [reflexivity|].
    split; [apply valid_move; auto; exists l; simpl; split; [auto|lia]|]. split; [split; reflexivity|].
    split; [reflexivity|]. split; [discriminate|lia].
  - exists c, false. split; [reflexivity|]. split; [assumption|]. split; [split; reflexivity|].
    split; [destruct (cpos c); simpl in *; f_equal; lia|]. split; [intros; lia|auto].
Qed.

(** ** Vertical moves *)

Lemma columns_char_width u l : columns u l = sum (map (char_width u) l).
Proof. reflexivity. Qed.

Lemma col_to_char_idx_loop_spec u col : forall l pre, 
  (forall j, j < length pre -> columns u (firstn j (pre ++ l)) < col) ->
  let i := match col_to_char_idx_loop u col (length pre) (columns u pre) l with
           | Some i => i | None => length (pre ++ l) end in
  first_idx_at u (pre ++ l) col i.
Proof.
  induction l as [|ch l IH]; intros pre H; simpl.
  - rewrite app_nil_r in *. split; [now right|]. assumption.
  - destruct (col <=? columns u pre) eqn:B.
    + split.
      * left. split; [lens|]. rewrite firstn_app_exact by reflexivity. lia.
      * assumption.
    + specialize (IH (pre ++ [ch])). rewrite app_length in IH. simpl in IH.
      rewrite <- app_assoc in IH. simpl in IH.
      replace (length pre + 1) with (S (length pre)) in IH by lia.
      replace (columns u (pre ++ [ch])) with (columns u pre + char_width u ch) in IH.
      * apply IH. intros j Hj.
        destruct (Nat.eq_dec j (length pre)) as [->|Ne].
        -- rewrite firstn_app_exact by reflexivity. lia.
        -- apply H. lia.
      * unfold columns. rewrite map_app, sum_app. simpl. unfold char_width. lia.
Qed.

Lemma col_to_char_idx_spec u l col :
  first_idx_at u l col (match col_to_char_idx u l col with Some i => i | None => length l end).
Proof.
  unfold col_to_char_idx. apply (@col_to_char_idx_loop_spec u col l []). simpl. intros; lia.
Qed.

Lemma first_idx_le u l col i : first_idx_at u l col i -> i <= length l.
Proof. intros [[[A _]|A] _]; lia. Qed.


Lemma vertical_ok u c y' : valid c -> y' < length (clines c) ->
  exists l l', idx (clines c) (py (cpos c)) = Ret l /\ idx (clines c) y' = Ret l'
  /\ char_idx_to_col u l (px (cpos c)) = Ret (columns u (firstn (px (cpos c)) l))
  /\ let x' := match col_to_char_idx u l' (columns u (firstn (px (cpos c)) l)) with Some i => i | None => length l' end in
     let c' := set_cpos c (mkPos y' x') in
     valid c' /\ same_text c c' /\ vertical_to u c c' y'.
Proof.
  intros V H. pose proof V as (_ & (l & Hl & Hx) & _).
  destruct (nth_error (clines c) y') as [l'|] eqn:Hl'; [|apply nth_error_None in Hl'; lia].
  exists l, l'. split; [now apply idx_ret|]. split; [now apply idx_ret|].
  split.
  { unfold char_idx_to_col. destruct (px (cpos c) <=? length l) eqn:B; [reflexivity|lia]. }
  intros x' c'.
  pose proof (col_to_char_idx_spec u l' (columns u (firstn (px (cpos c)) l))) as F. fold x' in F.
  split; [|split; [split; reflexivity|]].
  - apply valid_move; [assumption|]. exists l'. simpl. split; [assumption|]. now apply first_idx_le in F.
  - split; [reflexivity|]. exists l, l'. auto.
Qed.

Lemma move_lines_up_spec u c n : valid c ->
  (py (cpos c) = 0 -> move_lines_up u c n = Ret (c, false)) /\
  (0 < py (cpos c) -> exists c', move_lines_up u c n = Ret (c', true) /\ valid c' /\ same_text c c'
     /\ vertical_to u c c' (py (cpos c) - n)).
Proof.
  intros V. unfold move_lines_up. split.
  - intros ->. reflexivity.
  - intros H. destruct (0 <? py (cpos c)) eqn:B; [|lia].
    assert (py (cpos c) < length (clines c)).
    { destruct V as (_ & (l & Hl & _) & _). apply nth_error_Some. congruence. }
    destruct (@vertical_ok u c (py (cpos c) - n) V ltac:(lia)) as (l & l' & A1 & A2 & A3 & A4).
    rewrite A1. simpl. rewrite A3. simpl.
    replace (py (cpos c) - Nat.min n (py (cpos c))) with (py (cpos c) - n) by lia.
    rewrite A2. simpl. destruct A4 as (A4 & A5 & A6). eexists; split; [reflexivity|]. auto.
Qed.

Lemma move_lines_down_spec u c n : valid c ->
  (py (cpos c) + 1 = length (clines c) -> move_lines_down u c n = Ret (c, false)) /\
  (py (cpos c) + 1 < length (clines c) -> exists c', move_lines_down u c n = Ret (c', true) /\ valid c' /\ same_text c c'
     /\ vertical_to u c c' (min (py (cpos c) + n) (length (clines c) - 1))).
Proof.
  intros V. unfold move_lines_down. split.
  - intros H. destruct (py (cpos c) + 1 <? length (clines c)) eqn:B; [lia|reflexivity].
  - intros H. destruct (py (cpos c) + 1 <? length (clines c)) eqn:B; [|lia].
    destruct (@vertical_ok u c (min (py (cpos c) + n) (length (clines c) - 1)) V ltac:(lia)) as (l & l' & A1 & A2 & A3 & A4).
    rewrite A1. simpl. rewrite A3. simpl.
    replace (py (cpos c) + Nat.min n (length (clines c) - py (cpos c) - 1)) with (Nat.min (py (cpos c) + n) (length (clines c) - 1)) by lia.
    rewrite A2. simpl. destruct A4 as (A4 & A5 & A6). eexists; split; [reflexivity|]. auto.
Qed.
