(** * Proofs about the content of an input field: words, selections, lines, histories *)
From Verif Require Import Base L_Base M_Content S_Content L_Content L_Content2.
Set Implicit Arguments.

(** ** Words *)

Lemma alnum_at_ch u l i ch : nth_error l i = Some ch -> (alnum_at u l i <-> is_alnum u ch = true).
Proof.
  intros H. unfold alnum_at. split.
  - intros (ch' & A & B). congruence.
  - eauto.
Qed.

Lemma word_left_loop_spec u l : forall x, 0 < x <= length l ->
  exists p, word_left_loop u l x = Ret p /\ word_left_target u l x p.
Proof.
  induction x as [|x IH]; intros H; [lia|]. simpl. destruct x as [|x].
  - exists 0. split; [reflexivity|]. split; [lia|]. split.
    + intros (q & Hq & _). discriminate.
    + intros; lia.
  - destruct (nth_error l x) as [ch|] eqn:N; [|apply nth_error_None in N; lia].
    rewrite (idx_ret _ _ N). simpl. destruct (is_alnum u ch) eqn:A; simpl.
    + destruct IH as (p & E & T1 & T2 & T3); [lia|]. exists p. split; [exact E|].
      split; [lia|]. split; [assumption|]. intros q Hq.
      destruct (Nat.eq_dec q (S x)) as [->|Ne]; [|apply T3; lia].
      exists x. split; [reflexivity|]. exists ch. auto.
    + exists (S x). split; [reflexivity|]. split; [lia|]. split; [|intros; lia].
      intros (q & Hq & Aq). inversion Hq; subst q. apply (alnum_at_ch u _ _ N) in Aq. congruence.
Qed.

Lemma word_right_loop_spec u l : forall fuel x, x < length l -> length l - x <= fuel ->
  exists p, word_right_loop u fuel l x = Ret p /\ word_right_target u l x p /\ p <= length l.
Proof.
  induction fuel as [|f IH]; intros x Hx Hf; [lia|]. simpl.
  destruct (length l <=? x + 1 + 1) eqn:B.
  - exists (x + 1). split; [reflexivity|]. split; [|lia]. split; [lia|]. split; [|intros; lia].
    intros (ch & N & _). assert (nth_error l (x + 1 + 1) <> None) by congruence.
    apply nth_error_Some in H. lia.
  - destruct (nth_error l (x + 1 + 1)) as [ch|] eqn:N; [|apply nth_error_None in N; lia].
    rewrite (idx_ret _ _ N). simpl. destruct (is_alnum u ch) eqn:A; simpl.
    + destruct (IH (x + 1)) as (p & E & (T1 & T2 & T3) & L); [lia|lia|]. exists p. split; [exact E|].
      split; [|assumption]. split; [lia|]. split; [assumption|]. intros q Hq.
      destruct (Nat.eq_dec q (x + 1)) as [->|Ne]; [|apply T3; lia].
      exists ch. auto.
    + exists (x + 1). split; [reflexivity|]. split; [|lia]. split; [lia|]. split; [|intros; lia].
      intros Aq. apply (alnum_at_ch u _ _ N) in Aq. congruence.
Qed.

Lemma del_word_left_loop_spec u : forall x l, 0 < x <= length l ->
  exists p, del_word_left_loop u l x = Ret (firstn p l ++ skipn x l, p) /\ word_left_target u l x p.
Proof.
  induction x as [|x IH]; intros l H; [lia|].
  destruct (@split_lt _ l x) as (a & ch & b & E & L); [lia|]. subst l.
  cbn [del_word_left_loop]. rewrite vec_remove_mid by lia. rewrite bind_ret.
  rewrite skipn_cons_exact by lia.
  destruct x as [|x].
  - exists 0. destruct a; [|discriminate]. simpl. split; [reflexivity|]. split; [lia|]. split.
    + intros (q & Hq & _). discriminate.
    + intros; lia.
  - destruct (nth_error a x) as [ch'|] eqn:N; [|apply nth_error_None in N; lia].
    assert (N1 : nth_error (a ++ b) x = Some ch') by (rewrite nth_error_app1 by lia; assumption).
    assert (N2 : nth_error (a ++ ch :: b) x = Some ch') by (rewrite nth_error_app1 by lia; assumption).
    rewrite (idx_ret _ _ N1). rewrite bind_ret. destruct (is_alnum u ch') eqn:A; simpl negb; cbv iota.
    + destruct (IH (a ++ b)) as (p & E & T1 & T2 & T3); [lens|]. exists p. rewrite E.
      assert (TR : forall q, q < S x -> (alnum_at u (a ++ b) q <-> alnum_at u (a ++ ch :: b) q)).
      { intros q Hq. unfold alnum_at. rewrite !nth_error_app1 by lia. tauto. }
      split.
      * rewrite skipn_app_exact by lia. rewrite !firstn_app.
        replace (p - length a) with 0 by lia. simpl. rewrite !app_nil_r. reflexivity.
      * split; [lia|]. split.
        -- intros (q & -> & Aq). apply T2. exists q. split; [reflexivity|]. apply TR; [lia|assumption].
        -- intros q Hq. destruct (Nat.eq_dec q (S x)) as [->|Ne].
           ++ exists x. split; [reflexivity|]. exists ch'. auto.
           ++ destruct (T3 q ltac:(lia)) as (q' & -> & Aq). exists q'. split; [reflexivity|]. apply TR; [lia|assumption].
    + exists (S x). split.
      * rewrite firstn_app_exact by lia. reflexivity.
      * split; [lia|]. split; [|intros; lia].
        intros (q & Hq & Aq). inversion Hq; subst q. apply (alnum_at_ch u _ _ N2) in Aq. congruence.
Qed.

Lemma del_word_right_loop_spec u : forall fuel l x, x < length l -> length l - x <= fuel ->
  exists e x', del_word_right_loop u fuel l x = Ret (firstn x l ++ skipn e l, x') /\ word_del_end u l x e
  /\ (alnum_at u l (e - 1) -> x' = x - 1) /\ (~ alnum_at u l (e - 1) -> x' = x).
Proof.
  induction fuel as [|f IH]; intros l x Hx Hf; [lia|].
  destruct (@split_lt _ l x) as (a & ch & b & E & L); [lia|]. subst l.
  assert (N : nth_error (a ++ ch :: b) x = Some ch) by (rewrite <- L; apply nth_error_mid).
  cbn [del_word_right_loop]. rewrite (idx_ret _ _ N), bind_ret. rewrite vec_remove_mid by lia. rewrite bind_ret.
  rewrite (firstn_app_exact a) by lia.
  destruct (is_alnum u ch) eqn:A; simpl negb; cbv iota.
  - destruct (x =? length (a ++ b)) eqn:B.
    + assert (b = []) by (destruct b; [reflexivity|lens]). subst b.
      exists (S x), (if 0 <? x then x - 1 else x). split.
      * rewrite skipn_cons_exact by lia. reflexivity.
      * replace (S x - 1) with x by lia. split; [|split].
        -- split; [lens|]. split; [intros; lia|]. intros _. lens.
        -- intros _. destruct (0 <? x) eqn:Z; lia.
        -- intros NA. exfalso. apply NA. exists ch. auto.
    + destruct (IH (a ++ b) x) as (e & x' & E & (W1 & W2 & W3) & C1 & C2); [lens|lens|].
      exists (S e), x'. rewrite E. rewrite (firstn_app_exact a) by lia.
      assert (TR : forall q, x <= q -> (alnum_at u (a ++ b) q <-> alnum_at u (a ++ ch :: b) (S q))).
      { intros q Hq. unfold alnum_at. rewrite nth_error_app2 by lia.
        rewrite nth_error_app2 by lia. replace (S q - length a) with (S (q - length a)) by lia. simpl. tauto. }
      split; [|split; [|split]].
      * do 2 f_equal. f_equal. rewrite !skipn_app. 
        rewrite (@skipn_all2 _ e a), (@skipn_all2 _ (S e) a) by lia.
        replace (S e - length a) with (S (e - length a)) by lia. reflexivity.
      * split; [lens|]. split.
        -- intros q Hq. destruct (Nat.eq_dec q x) as [->|Ne].
           ++ exists ch. auto.
           ++ replace q with (S (q - 1)) by lia. apply TR; [lia|]. apply W2. lia.
        -- intros Aq. replace (S e - 1) with (S (e - 1)) in Aq by lia. apply TR in Aq; [|lia]. apply W3 in Aq. lens.
      * intros Aq. replace (S e - 1) with (S (e - 1)) in Aq by lia. apply C1. apply TR; [lia|assumption].
      * intros Aq. apply C2. intros Aq'. apply Aq. replace (S e - 1) with (S (e - 1)) by lia. apply TR; [lia|assumption].
  - exists (S x), x. split.
    + rewrite skipn_cons_exact by lia. reflexivity.
    + replace (S x - 1) with x by lia. split; [|split].
      * split; [lens|]. split; [intros; lia|]. replace (S x - 1) with x by lia. intros Aq. apply (alnum_at_ch u _ _ N) in Aq. congruence.
      * intros Aq. apply (alnum_at_ch u _ _ N) in Aq. congruence.
      * auto.
Qed.


Lemma cursor_line c : valid c -> exists l, nth_error (clines c) (py (cpos c)) = Some l /\ px (cpos c) <= length l.
Proof. intros (_ & H & _). exact H. Qed.

Lemma move_word_left_spec u c : valid c ->
  (px (cpos c) = 0 -> move_word_left u c = Ret (c, false)) /\
  (0 < px (cpos c) -> exists c' l, move_word_left u c = Ret (c', true) /\ valid c' /\ same_text c c'
     /\ nth_error (clines c) (py (cpos c)) = Some l
     /\ py (cpos c') = py (cpos c) /\ word_left_target u l (px (cpos c)) (px (cpos c'))).
Proof.
  intros V. unfold move_word_left. split.
  - intros ->. reflexivity.
  - intros H. destruct (0 <? px (cpos c)) eqn:B; [|lia].
    destruct (cursor_line V) as (l & Hl & Hx). rewrite (idx_ret _ _ Hl). simpl.
    destruct (@word_left_loop_spec u l (px (cpos c)) ltac:(lia)) as (p & E & T). rewrite E. simpl.
    eexists _, l. split; [reflexivity|]. split; [|split; [split; reflexivity|]].
    + apply valid_move; [assumption|]. exists l. simpl. split; [assumption|]. destruct T. lia.
    + simpl. auto.
Qed.

Lemma move_word_right_spec u c l : valid c -> nth_error (clines c) (py (cpos c)) = Some l ->
  (px (cpos c) = length l -> move_word_right u c = Ret (c, false)) /\
  (px (cpos c) < length l -> exists c', move_word_right u c = Ret (c', true) /\ valid c' /\ same_text c c'
     /\ py (cpos c') = py (cpos c) /\ word_right_target u l (px (cpos c)) (px (cpos c'))).
Proof.
  intros V Hl. unfold move_word_right. rewrite (idx_ret _ _ Hl), bind_ret. split.
  - intros ->. destruct (length l <? length l) eqn:B; [lia|reflexivity].
  - intros H. destruct (px (cpos c) <? length l) eqn:B; [|lia].
    destruct (@word_right_loop_spec u l (length l) (px (cpos c)) H ltac:(lia)) as (p & E & T & L). rewrite E. simpl.
    eexists. split; [reflexivity|]. split; [|split; [split; reflexivity|]].
    + apply valid_move; [assumption|]. exists l. simpl. auto.
    + simpl. auto.
Qed.

(** Replacing the cursor's line by a part of it keeps validity *)
Lemma replace_line_valid pre l post l' x t :
  clean (pre ++ l :: post) -> (forall ch, In ch l' -> In ch l) -> x <= length l' ->
  fix_selection (mkContent (mkPos (length pre) x) t (set_nth (length pre) l' (pre ++ l :: post)))
  = Ret (mkContent (mkPos (length pre) x) (option_map (clamp (pre ++ l' :: post)) t) (pre ++ l' :: post))
  /\ valid (mkContent (mkPos (length pre) x) (option_map (clamp (pre ++ l' :: post)) t) (pre ++ l' :: post)).
Proof.
  intros Hc Hi Hx. rewrite set_nth_mid. rewrite fix_selection_eq by (simpl; auto). simpl.
  rewrite clamp_id by (now apply valid_pos_mid). split; [reflexivity|].
  apply mk_valid.
  - now apply valid_pos_mid.
  - intros t'. apply tail_clamp_valid; auto.
  - rewrite clean_app, clean_cons' in *. destruct Hc as (A & B & C).
    split; [exact A|]. split; [|exact C]. intros ch Hch. apply B. auto.
Qed.

Lemma in_firstn {A} n (l : list A) x : In x (firstn n l) -> In x l.
Proof. intros H. rewrite <- (firstn_skipn n l). apply in_or_app. now left. Qed.
Lemma in_skipn {A} n (l : list A) x : In x (skipn n l) -> In x l.
Proof. intros H. rewrite <- (firstn_skipn n l). apply in_or_app. now right. Qed.

Lemma del_word_left_spec u c : valid c ->
  (px (cpos c) = 0 -> del_word_left u c = Ret (c, false)) /\
  (0 < px (cpos c) -> exists c' l, del_word_left u c = Ret (c', true) /\ valid c' /\ tail_kept c c'
     /\ nth_error (clines c) (py (cpos c)) = Some l
     /\ py (cpos c') = py (cpos c) /\ word_left_target u l (px (cpos c)) (px (cpos c'))
     /\ line_replaced c c' (firstn (px (cpos c')) l ++ skipn (px (cpos c)) l)).
Proof.
  intros V. destruct (valid_inv V) as (pre & l1 & l2 & post & E & Ht & Hc). unfold del_word_left. split.
  - intros ->. reflexivity.
  - intros H. destruct (0 <? px (cpos c)) eqn:B; [|lia]. rewrite E in H |- *. simpl in H. 
    cbn [cpos ctail clines py px].
    rewrite idx_app_mid, bind_ret.
    destruct (@del_word_left_loop_spec u (length l1) (l1 ++ l2)) as (p & EL & T); [lens|].
    rewrite EL, bind_ret.
    destruct (@replace_line_valid pre (l1 ++ l2) post (firstn p (l1 ++ l2) ++ skipn (length l1) (l1 ++ l2)) p (ctail c)) as [F1 F2].
    + assumption.
    + intros ch Hi. apply in_app_or in Hi. destruct Hi as [Hi|Hi]; [now apply in_firstn in Hi | now apply in_skipn in Hi].
    + destruct T as [T _]. rewrite app_length, firstn_length, app_length. lia.
    + rewrite F1. simpl bind. eexists _, (l1 ++ l2). split; [reflexivity|]. split; [exact F2|].
      split; [apply tail_kept_clamp; auto|].
      split; [apply nth_error_mid|]. split; [reflexivity|]. split; [exact T|].
      unfold line_replaced. cbn [cpos ctail clines py px].
      rewrite (firstn_app_exact pre) by reflexivity. rewrite (skipn_cons_exact pre) by reflexivity. reflexivity.
Qed.

Lemma del_word_right_spec u c l : valid c -> nth_error (clines c) (py (cpos c)) = Some l ->
  (px (cpos c) < length l -> exists c' e, del_word_right u c = Ret (c', true) /\ valid c' /\ tail_kept c c'
     /\ word_del_end u l (px (cpos c)) e
     /\ line_replaced c c' (firstn (px (cpos c)) l ++ skipn e l)
     /\ py (cpos c') = py (cpos c)
     /\ (alnum_at u l (e - 1) -> px (cpos c') = px (cpos c) - 1)
     /\ (~ alnum_at u l (e - 1) -> px (cpos c') = px (cpos c))) /\
  (px (cpos c) = length l -> 0 < length l -> exists c', del_word_right u c = Ret (c', true) /\ valid c'
     /\ same_text c c' /\ cpos c' = mkPos (py (cpos c)) (px (cpos c) - 1)) /\
  (length l = 0 -> del_word_right u c = Ret (c, false)).
Proof.
  intros V Hl. destruct (valid_inv V) as (pre & l1 & l2 & post & E & Ht & Hc).
  assert (El : l = l1 ++ l2).
  { rewrite E in Hl. simpl in Hl. rewrite nth_error_mid in Hl. congruence. }
  unfold del_word_right. rewrite (idx_ret _ _ Hl), bind_ret. split; [|split].
  - intros H. destruct (px (cpos c) <? length l) eqn:B; [|lia].
    destruct (@del_word_right_loop_spec u (length l) l (px (cpos c)) H ltac:(lia)) as (e & x' & EL & W & C1 & C2).
    rewrite EL, bind_ret. subst l.
    assert (Ep : cpos c = mkPos (length pre) (length l1)) by now rewrite E.
    assert (Els : clines c = pre ++ (l1 ++ l2) :: post) by now rewrite E.
    rewrite Els, Ep in *. cbn [py px] in *.
    destruct (@replace_line_valid pre (l1 ++ l2) post (firstn (length l1) (l1 ++ l2) ++ skipn e (l1 ++ l2)) x' (ctail c)) as [F1 F2].
    + assumption.
    + intros ch Hi. apply in_app_or in Hi. destruct Hi as [Hi|Hi]; [now apply in_firstn in Hi | now apply in_skipn in Hi].
    + assert (x' <= length l1).
      { destruct (nth_error (l1 ++ l2) (e - 1)) as [ch|] eqn:N.
        - destruct (is_alnum u ch) eqn:A.
          + rewrite C1; [lia|]. exists ch. auto.
          + rewrite C2; [lia|]. intros Aq. apply (alnum_at_ch u _ _ N) in Aq. congruence.
        - rewrite C2; [lia|]. intros (ch & N' & _). congruence. }
      rewrite app_length, firstn_length, app_length. lia.
    + rewrite F1. simpl bind. eexists _, e. split; [reflexivity|]. split; [exact F2|].
      split; [apply tail_kept_clamp; auto|].
      split; [exact W|]. split.
      * unfold line_replaced. rewrite Els, Ep. cbn [cpos ctail clines py px].
        rewrite (firstn_app_exact pre) by reflexivity. rewrite (skipn_cons_exact pre) by reflexivity. reflexivity.
      * simpl. auto.
  - intros H1 H2. destruct (px (cpos c) <? length l) eqn:B; [lia|].
    unfold current_line. rewrite (idx_ret _ _ Hl), bind_ret.
    destruct ((px (cpos c) =? length l) && (0 <? px (cpos c))) eqn:B2; [|lia].
    eexists. split; [reflexivity|]. split; [|split; [split; reflexivity|reflexivity]].
    apply valid_move; [assumption|]. exists l. simpl. split; [assumption|lia].
  - intros H. pose proof (cursor_line V) as (l' & Hl' & Hx'). assert (l' = l) by congruence. subst l'.
    destruct (px (cpos c) <? length l) eqn:B; [lia|].
    unfold current_line. rewrite (idx_ret _ _ Hl), bind_ret.
    destruct ((px (cpos c) =? length l) && (0 <? px (cpos c))) eqn:B2; [lia|reflexivity].
Qed.

(** ** Word selection *)

Lemma is_word_char_spec u ch : is_word_char u ch = true <-> (is_alnum u ch = true \/ ch = 95%N).
Proof. unfold is_word_char. rewrite orb_true_iff, N.eqb_eq. tauto. Qed.

Lemma word_char_at_ch u l i ch : nth_error l i = Some ch -> (word_char_at u l i <-> is_word_char u ch = true).
Proof.
  intros H. rewrite is_word_char_spec. unfold word_char_at. split.
  - intros (ch' & A & B). congruence.
  - eauto.
Qed.

Lemma word_start_loop_spec u l : forall x, x <= length l ->
  exists s, word_start_loop u l x = Ret s /\ s <= x
  /\ (forall i, s <= i < x -> word_char_at u l i) /\ (forall i, s = S i -> ~ word_char_at u l i).
Proof.
  induction x as [|x IH]; intros H; simpl.
  - exists 0. split; [reflexivity|]. split; [lia|]. split; intros; lia.
  - destruct (nth_error l x) as [ch|] eqn:N; [|apply nth_error_None in N; lia].
    rewrite (idx_ret _ _ N). simpl. destruct (is_word_char u ch) eqn:W.
    + destruct IH as (s & E & L & A & B); [lia|]. exists s. split; [exact E|]. split; [lia|]. split; [|assumption].
      intros i Hi. destruct (Nat.eq_dec i x) as [->|Ne]; [|apply A; lia].
      apply (word_char_at_ch u _ _ N). assumption.
    + exists (S x). split; [reflexivity|]. split; [lia|]. split; [intros; lia|].
      intros i Hi. inversion Hi; subst i. rewrite (word_char_at_ch u _ _ N). congruence.
Qed.

Lemma word_end_loop_spec u l : forall fuel x, x < length l -> length l - x <= fuel ->
  exists e, word_end_loop u fuel l x = Ret e /\ x <= e < length l
  /\ (forall i, x < i <= e -> word_char_at u l i) /\ ~ word_char_at u l (S e).
Proof.
  induction fuel as [|f IH]; intros x Hx Hf; [lia|]. simpl.
  destruct (S x <? length l) eqn:B.
  - destruct (nth_error l (S x)) as [ch|] eqn:N; [|apply nth_error_None in N; lia].
    rewrite (idx_ret _ _ N). simpl. destruct (is_word_char u ch) eqn:W.
    + destruct (IH (S x)) as (e & E & L & A & C); [lia|lia|]. exists e. split; [exact E|]. split; [lia|]. split; [|assumption].
      intros i Hi. destruct (Nat.eq_dec i (S x)) as [->|Ne]; [|apply A; lia].
      apply (word_char_at_ch u _ _ N). assumption.
    + exists x. split; [reflexivity|]. split; [lia|]. split; [intros; lia|].
      rewrite (word_char_at_ch u _ _ N). congruence.
  - exists x. split; [reflexivity|]. split; [lia|]. split; [intros; lia|].
    intros (ch & N & _). assert (nth_error l (S x) <> None) by congruence. apply nth_error_Some in H. lia.
Qed.

Lemma select_word_spec u c l : valid c -> nth_error (clines c) (py (cpos c)) = Some l ->
  (~ word_char_at u l (px (cpos c)) -> select_word_around u c = Ret (c, false)) /\
  (word_char_at u l (px (cpos c)) -> exists c' s, select_word_around u c = Ret (c', true) /\ valid c'
     /\ clines c' = clines c /\ ctail c' = Some (mkPos (py (cpos c)) s) /\ py (cpos c') = py (cpos c)
     /\ s <= px (cpos c) <= px (cpos c')
     /\ (forall i, s <= i <= px (cpos c') -> word_char_at u l i)
     /\ (forall i, s = S i -> ~ word_char_at u l i)
     /\ ~ word_char_at u l (S (px (cpos c')))).
Proof.
  intros V Hl. unfold select_word_around. rewrite (idx_ret _ _ Hl), bind_ret. split.
  - intros NW. destruct (length l <=? px (cpos c)) eqn:B; [reflexivity|].
    destruct (nth_error l (px (cpos c))) as [ch|] eqn:N; [|apply nth_error_None in N; lia].
    rewrite (idx_ret _ _ N). simpl. rewrite (word_char_at_ch u _ _ N) in NW.
    destruct (is_word_char u ch); [congruence|reflexivity].
  - intros W. assert (Hx : px (cpos c) < length l).
    { destruct W as (ch & N & _). apply nth_error_Some. congruence. }
    destruct (length l <=? px (cpos c)) eqn:B; [lia|].
    destruct (nth_error l (px (cpos c))) as [ch|] eqn:N; [|apply nth_error_None in N; lia].
    rewrite (idx_ret _ _ N). rewrite !bind_ret. pose proof W as W0. rewrite (word_char_at_ch u _ _ N) in W. rewrite W. simpl negb. cbv iota.
    destruct (@word_start_loop_spec u l (px (cpos c)) ltac:(lia)) as (s & Es & Ls & As & Bs).
    destruct (@word_end_loop_spec u l (S (length l)) (px (cpos c)) ltac:(lia) ltac:(lia)) as (e & Ee & Le & Ae & Be).
    rewrite Es, bind_ret, Ee, bind_ret.
    eexists _, s. split; [reflexivity|]. split; [|split; [reflexivity|split; [reflexivity|split; [reflexivity|]]]].
    + destruct V as (V1 & V2 & V3 & V4). unfold valid; simpl. split; [assumption|]. split; [|split].
      * exists l. simpl. split; [assumption|lia].
      * intros t Et. inversion Et; subst t. exists l. simpl. split; [assumption|lia].
      * assumption.
    + simpl. split; [lia|]. split; [|split; assumption].
      intros i Hi. destruct (Nat.lt_trichotomy i (px (cpos c))) as [L|[L|L]].
      * apply As. lia.
      * subst i. assumption.
      * apply Ae. lia.
Qed.

(** ** Selection *)

Lemma selection_ends c : valid c ->
  valid_pos (clines c) (rmin (selection c)) /\ valid_pos (clines c) (rmax (selection c))
  /\ pos_le (rmin (selection c)) (rmax (selection c)).
Proof.
  intros (_ & A & B & _). unfold selection. destruct (ctail c) as [t|].
  - specialize (B t eq_refl). destruct (pos_ltb t (cpos c)) eqn:E; simpl; repeat split; auto; unfold pos_ltb, pos_le in *; lia.
  - simpl. repeat split; auto. unfold pos_le. lia.
Qed.

Lemma selection_is c :
  match ctail c with
  | None => selection c = mkRange (cpos c) (cpos c)
  | Some t => (pos_le t (cpos c) /\ selection c = mkRange t (cpos c))
              \/ (pos_le (cpos c) t /\ selection c = mkRange (cpos c) t)
  end.
Proof.
  unfold selection. destruct (ctail c) as [t|]; [|reflexivity].
  destruct (pos_ltb t (cpos c)) eqn:E; [left|right]; split; auto; unfold pos_ltb, pos_le in *; lia.
Qed.

Lemma range_contains_spec r x y : pos_le (rmin r) (rmax r) ->
  (range_contains r x y = true <-> pos_le (rmin r) (mkPos y x) /\ pos_le (mkPos y x) (rmax r)).
Proof.
  destruct r as [[ay ax] [by_ bx]]. unfold pos_le, range_contains. simpl. intros H.
  destruct (ay =? by_) eqn:E1; [lia|].
  destruct ((y <? ay) || (by_ <? y)) eqn:E2; [split; [discriminate|lia]|].
  destruct (y =? ay) eqn:E3; [lia|].
  destruct (y =? by_) eqn:E4; [lia|]. split; [lia|reflexivity].
Qed.

Lemma selection_string_spec c : valid c ->
  selection_string c = Ret (slice (offset c (rmin (selection c))) (S (offset c (rmax (selection c)))) (text c)).
Proof.
  intros V. destruct (selection_ends V) as (A & B & C). unfold selection_string.
  apply chars_collect_spec; auto. pose proof (flat_length_fuel (clines c)). lia.
Qed.

(** ** Line swaps *)

Lemma vec_swap_spec {A} a b (l : list A) : a < length l -> b < length l ->
  exists l', vec_swap a b l = Ret l' /\ length l' = length l
  /\ nth_error l' a = nth_error l b /\ nth_error l' b = nth_error l a
  /\ forall i, i <> a -> i <> b -> nth_error l' i = nth_error l i.
Proof.
  intros Ha Hb. unfold vec_swap.
  destruct (nth_error l a) as [xa|] eqn:Na; [|apply nth_error_None in Na; lia].
  destruct (nth_error l b) as [xb|] eqn:Nb; [|apply nth_error_None in Nb; lia].
  rewrite (idx_ret _ _ Na), (idx_ret _ _ Nb), !bind_ret.
  eexists. split; [reflexivity|]. rewrite !set_nth_length. split; [reflexivity|].
  split; [|split].
  - destruct (Nat.eq_dec a b) as [->|Ne].
    + rewrite nth_error_set_nth_eq by (rewrite set_nth_length; lia). congruence.
    + rewrite nth_error_set_nth_neq by auto. apply nth_error_set_nth_eq. assumption.
  - apply nth_error_set_nth_eq. rewrite set_nth_length. assumption.
  - intros i H1 H2. rewrite !nth_error_set_nth_neq by auto. reflexivity.
Qed.


Lemma lines_swapped_clean a b ls ls' : lines_swapped a b ls ls' -> clean ls -> clean ls'.
Proof.
  intros (_ & A & B & C) H l ch Hl Hch. apply In_nth_error in Hl. destruct Hl as (i & Hi).
  destruct (Nat.eq_dec i a) as [->|Na]; [|destruct (Nat.eq_dec i b) as [->|Nb]].
  - rewrite A in Hi. apply nth_error_In in Hi. eauto.
  - rewrite B in Hi. apply nth_error_In in Hi. eauto.
  - rewrite C in Hi by assumption. apply nth_error_In in Hi. eauto.
Qed.

Lemma swap_lines_spec c a b : valid c ->
  ((a = b \/ length (clines c) <= a \/ length (clines c) <= b) -> swap_lines c a b = Ret (c, false)) /\
  (a <> b -> a < length (clines c) -> b < length (clines c) ->
     exists c', swap_lines c a b = Ret (c', true) /\ valid c' /\ lines_swapped a b (clines c) (clines c')
     /\ py (cpos c') = py (cpos c)
     /\ (exists l, nth_error (clines c') (py (cpos c)) = Some l /\ px (cpos c') = min (px (cpos c)) (length l))
     /\ tail_kept c c').
Proof.
  intros V. pose proof V as (V1 & V2 & V3 & V4). unfold swap_lines. split.
  - intros H. destruct (negb (a =? b) && (a <? length (clines c)) && (b <? length (clines c))) eqn:B; [lia|reflexivity].
  - intros N Ha Hb. destruct (negb (a =? b) && (a <? length (clines c)) && (b <? length (clines c))) eqn:B; [|lia].
    destruct (vec_swap_spec (clines c) Ha Hb) as (ls' & E & S). rewrite E, bind_ret.
    assert (NE : ls' <> []) by (destruct S as (S & _); intros ->; simpl in S; lia).
    rewrite fix_selection_eq by (simpl; assumption). simpl.
    eexists. split; [reflexivity|]. split; [|split; [|split; [|split]]].
    + apply mk_valid.
      * now apply clamp_valid.
      * intros t'. now apply tail_clamp_valid.
      * eapply lines_swapped_clean; [exact S|exact V4].
    + exact S.
    + simpl. unfold clamp. destruct V2 as (l & Hl & _).
      assert (py (cpos c) < length (clines c)) by (apply nth_error_Some; congruence).
      destruct (length ls' <=? py (cpos c)) eqn:B2; [destruct S; lia|reflexivity].
    + simpl. unfold clamp. destruct V2 as (l & Hl & _).
      assert (py (cpos c) < length (clines c)) by (apply nth_error_Some; congruence).
      destruct (length ls' <=? py (cpos c)) eqn:B2; [destruct S; lia|].
      exists (nth (py (cpos c)) ls' []). simpl. split; [|reflexivity]. apply nth_error_nth'. destruct S; lia.
    + apply tail_kept_clamp; auto.
Qed.

Lemma fix_valid c : valid c -> fix_selection c = Ret c.
Proof.
  intros (A & B & C & D). rewrite fix_selection_eq by assumption. destruct c as [p [t|] ls]; simpl in *.
  - rewrite !clamp_id; auto.
  - rewrite clamp_id; auto.
Qed.

Lemma tail_kept_trans_pos c c' p : tail_kept c c' -> tail_kept c (set_cpos c' p).
Proof. auto. Qed.

Lemma move_current_line_up_spec c : valid c ->
  (py (cpos c) = 0 -> move_current_line_up c = Ret (c, false)) /\
  (forall y', py (cpos c) = S y' -> exists c' l0, move_current_line_up c = Ret (c', true) /\ valid c'
     /\ lines_swapped y' (S y') (clines c) (clines c') /\ py (cpos c') = y'
     /\ nth_error (clines c) y' = Some l0 /\ px (cpos c') = min (px (cpos c)) (length l0)
     /\ tail_kept c c').
Proof.
  intros V. pose proof V as (V1 & (l & Hl & Hx) & V3 & V4). unfold move_current_line_up. split.
  - intros ->. reflexivity.
  - intros y' Hy. rewrite Hy. destruct (0 <? S y') eqn:B; [|lia].
    assert (L : S y' < length (clines c)) by (rewrite <- Hy; apply nth_error_Some; congruence).
    replace (S y' - 1) with y' by lia.
    destruct (@swap_lines_spec c y' (S y') V) as [_ H].
    destruct H as (c1 & E1 & W1 & S1 & P1 & (l1 & Q1 & R1) & T1); [lia|lia|lia|].
    rewrite E1. simpl. rewrite P1, Hy in *. rewrite csub_ret by lia. rewrite bind_ret. replace (S y' - 1) with y' by lia.
    pose proof S1 as (SL & SA & SB & SC).
    assert (Vm : valid (set_cpos c1 (mkPos y' (px (cpos c1))))).
    { apply valid_move; [assumption|]. exists l. simpl. rewrite SA. split; [assumption|]. rewrite R1. lia. }
    rewrite fix_valid by exact Vm. simpl.
    exists (set_cpos c1 (mkPos y' (px (cpos c1)))), l1.
    split; [reflexivity|]. split; [exact Vm|]. split; [exact S1|]. split; [reflexivity|].
    split; [congruence|]. split; [assumption|]. assumption.
Qed.

Lemma move_current_line_down_spec c : valid c ->
  (py (cpos c) + 1 = length (clines c) -> move_current_line_down c = Ret (c, false)) /\
  (py (cpos c) + 1 < length (clines c) -> exists c' l0, move_current_line_down c = Ret (c', true) /\ valid c'
     /\ lines_swapped (py (cpos c)) (py (cpos c) + 1) (clines c) (clines c') /\ py (cpos c') = py (cpos c) + 1
     /\ nth_error (clines c) (py (cpos c) + 1) = Some l0 /\ px (cpos c') = min (px (cpos c)) (length l0)
     /\ tail_kept c c').
Proof.
  intros V. pose proof V as (V1 & (l & Hl & Hx) & V3 & V4). unfold move_current_line_down. split.
  - intros H. destruct (@swap_lines_spec c (py (cpos c) + 1) (py (cpos c)) V) as [A _]. rewrite A by lia. reflexivity.
  - intros L.
    destruct (@swap_lines_spec c (py (cpos c) + 1) (py (cpos c)) V) as [_ H].
    destruct H as (c1 & E1 & W1 & S1 & P1 & (l1 & Q1 & R1) & T1); [lia|lia|lia|].
    rewrite E1. simpl. rewrite P1.
    pose proof S1 as (SL & SA & SB & SC).
    assert (Vm : valid (set_cpos c1 (mkPos (py (cpos c) + 1) (px (cpos c1))))).
    { apply valid_move; [assumption|]. exists l. simpl. rewrite SA. split; [assumption|]. rewrite R1. lia. }
    rewrite fix_valid by exact Vm. simpl.
    exists (set_cpos c1 (mkPos (py (cpos c) + 1) (px (cpos c1)))), l1.
    split; [reflexivity|]. split; [exact Vm|]. split; [|split; [reflexivity|]].
    + unfold lines_swapped in *. simpl. intuition.
    + split; [congruence|]. split; [assumption|]. assumption.
Qed.

(** ** Deleting the selection *)

Lemma subseq_nil_l {A} (s : list A) : subseq [] s.
Proof. induction s; constructor; auto. Qed.
Lemma subseq_refl {A} (s : list A) : subseq s s.
Proof. induction s; constructor; auto. Qed.
Lemma subseq_app {A} (a b c d : list A) : subseq a b -> subseq c d -> subseq (a ++ c) (b ++ d).
Proof. induction 1; simpl; intros; auto; constructor; auto. Qed.

Lemma no_nl_app a b : no_nl (a ++ b) = no_nl a ++ no_nl b.
Proof. apply filter_app. Qed.

Lemma no_nl_clean l : cleanl l -> no_nl l = l.
Proof.
  induction l as [|ch l IH]; intros H; [reflexivity|]. apply cleanl_cons in H. destruct H as [(A & _) B].
  unfold no_nl in *. simpl. apply N.eqb_neq in A. rewrite A. simpl. now rewrite IH.
Qed.

Lemma no_nl_pj pre : clean pre -> no_nl (pj pre) = concat pre.
Proof.
  induction pre as [|l pre IH]; intros H; [reflexivity|]. apply clean_cons' in H. destruct H.
  rewrite pj_cons, no_nl_app, no_nl_clean by assumption. simpl. f_equal. now apply IH.
Qed.

Lemma no_nl_sj post : clean post -> no_nl (sj post) = concat post.
Proof.
  induction post as [|l post IH]; intros H; [reflexivity|]. apply clean_cons' in H. destruct H.
  rewrite sj_cons. change (c_nl :: l ++ sj post) with ([c_nl] ++ l ++ sj post).
  rewrite !no_nl_app, (no_nl_clean (l:=l)) by assumption. simpl. f_equal. now apply IH.
Qed.

Lemma no_nl_flat ls : clean ls -> no_nl (flat ls) = concat ls.
Proof.
  destruct ls as [|l ls]; [reflexivity|]. intros H. apply clean_cons' in H. destruct H.
  change (flat (l :: ls)) with (l ++ sj ls). rewrite no_nl_app, no_nl_clean, no_nl_sj by assumption. reflexivity.
Qed.


Lemma slice_app (s1 s2 s3 : str) a b : a = length s1 -> b = length s1 + length s2 -> slice a b (s1 ++ s2 ++ s3) = s2.
Proof.
  intros -> ->. unfold slice. rewrite skipn_app_exact by reflexivity. apply firstn_app_exact. lia.
Qed.

(** Decomposition of the text by two positions on the same line *)
Lemma decomp2_same ls a b : valid_pos ls a -> valid_pos ls b -> py a = py b -> px a <= px b ->
  exists pre l1 l2 l3 post, ls = pre ++ (l1 ++ l2 ++ l3) :: post
  /\ a = mkPos (length pre) (length l1) /\ b = mkPos (length pre) (length (l1 ++ l2)).
Proof.
  intros Ha Hb Hy Hx. destruct (decomp Hb) as (pre & l12 & l3 & post & E & Eb). subst b. simpl in *.
  destruct (@split_at _ l12 (px a)) as (l1 & l2 & E12 & L1); [assumption|]. subst l12.
  exists pre, l1, l2, l3, post. rewrite <- app_assoc in E. split; [assumption|]. destruct a; simpl in *; subst. auto.
Qed.

Lemma decomp2_diff ls a b : valid_pos ls a -> valid_pos ls b -> py a < py b ->
  exists pre l1 l2 mid m1 m2 post, ls = pre ++ (l1 ++ l2) :: mid ++ (m1 ++ m2) :: post
  /\ a = mkPos (length pre) (length l1) /\ b = mkPos (length (pre ++ (l1 ++ l2) :: mid)) (length m1).
Proof.
  intros Ha Hb Hy. destruct (decomp Hb) as (preb & m1 & m2 & post & E & Eb). subst b. simpl in *.
  destruct Ha as (l & Hl & Hx). rewrite E in Hl. rewrite nth_error_app1 in Hl by assumption.
  apply split_nth in Hl. destruct Hl as (pre & mid & Ep & Lp). subst preb.
  destruct (split_at l Hx) as (l1 & l2 & El & L1). subst l.
  exists pre, l1, l2, mid, m1, m2, post. rewrite <- app_assoc in E. simpl in E. split; [assumption|].
  destruct a; simpl in *; subst. auto.
Qed.

Lemma at_least_one_nonnil ls : at_least_one ls <> [].
Proof. destruct ls; discriminate. Qed.
Lemma at_least_one_concat ls : concat (at_least_one ls) = concat ls.
Proof. destruct ls; reflexivity. Qed.
Lemma at_least_one_clean ls : clean ls -> clean (at_least_one ls).
Proof. destruct ls; [|auto]. intros _ l ch [<-|[]] []. Qed.
Lemma at_least_one_id ls : ls <> [] -> at_least_one ls = ls.
Proof. destruct ls; [congruence|reflexivity]. Qed.

Lemma drain_end {A} (a b : list A) : vec_drain (length a) (length (a ++ b)) (a ++ b) = Ret a.
Proof.
  pose proof (@vec_drain_mid A a b [] (length a) (length (a ++ b))) as H.
  rewrite !app_nil_r in H. apply H; lens.
Qed.

(** The lines computed by [del_selection] on a wide selection *)
Definition del_lines (ls : list Line) (mn mx : Pos) : outcome (list Line) :=
  if py mn =? py mx then
    l <- idx ls (py mn) ;;
    if px mx =? length l then
      if px mn =? 0 then
        ls <- vec_drain (py mn) (py mn + 1) ls ;;
        Ret (at_least_one ls)
      else
        l' <- vec_drain (px mn) (length l) l ;;
        Ret (set_nth (py mn) l' ls)
    else
      l' <- vec_drain (px mn) (px mx + 1) l ;;
      Ret (set_nth (py mn) l' ls)
  else
    '(min_y, ls1) <-
      (if 0 <? px mn then
         l <- idx ls (py mn) ;;
         Ret (py mn + 1, set_nth (py mn) (firstn (px mn) l) ls)
       else Ret (py mn, ls)) ;;
    lmax <- idx ls1 (py mx) ;;
    '(max_y, ls2) <-
      (if px mx <? length lmax then
         l' <- vec_drain 0 (px mx) lmax ;;
         m <- csub (py mx) 1 ;;
         Ret (m, set_nth (py mx) l' ls1)
       else Ret (py mx, ls1)) ;;
    if min_y <? max_y then
      ls3 <- vec_drain min_y (min (max_y + 1) (length ls2)) ls2 ;;
      Ret (at_least_one ls3)
    else Ret ls2.

Lemma del_selection_lines c :
  rmin (selection c) <> rmax (selection c) ->
  del_selection c = (ls <- del_lines (clines c) (rmin (selection c)) (rmax (selection c)) ;;
                     c' <- set_cursor_pos (set_clines c ls) (rmin (selection c)) ;;
                     Ret (set_ctail c' None, true)).
Proof.
  intros H. unfold del_selection.
  destruct ((py (rmin (selection c)) =? py (rmax (selection c))) && (px (rmin (selection c)) =? px (rmax (selection c)))) eqn:B.
  - exfalso. apply H. destruct (rmin (selection c)), (rmax (selection c)); simpl in *. f_equal; lia.
  - reflexivity.
Qed.

(** What [del_lines] does on the text, line feeds aside *)
Lemma del_lines_spec ls mn mx : clean ls -> valid_pos ls mn -> valid_pos ls mx -> pos_le mn mx -> mn <> mx ->
  exists ls', del_lines ls mn mx = Ret ls' /\ ls' <> [] /\ clean ls'
  /\ exists k, subseq k (no_nl (slice (offset_in ls mn) (S (offset_in ls mx)) (flat ls)))
     /\ concat ls' = no_nl (firstn (offset_in ls mn) (flat ls)) ++ k ++ no_nl (skipn (S (offset_in ls mx)) (flat ls)).
Proof.
  intros Hc Hn Hx Hle Hne. destruct (Nat.eq_dec (py mn) (py mx)) as [Ey|Ny].
  - assert (Hxx : px mn < px mx).
    { destruct Hle as [|[_ Hle]]; [lia|]. destruct mn, mx; simpl in *. subst.
      destruct (Nat.eq_dec px px0) as [->|]; [congruence|lia]. }
    destruct (decomp2_same Hn Hx Ey ltac:(lia)) as (pre & l1 & l2 & l3 & post & E & En & Ex). subst mn mx ls.
    cbn [py px] in *. unfold del_lines. cbn [py px]. rewrite Nat.eqb_refl. rewrite idx_app_mid, bind_ret.
    rewrite !offset_mid, flat_mid.
    assert (Pn : firstn (length (pj pre) + length l1) (pj pre ++ (l1 ++ l2 ++ l3) ++ sj post) = pj pre ++ l1).
    { rewrite <- app_assoc, app_assoc. apply firstn_app_exact. lens. }
    rewrite Pn. rewrite no_nl_app, no_nl_pj by cln. rewrite (no_nl_clean (l:=l1)) by cln.
    destruct l3 as [|ch l3].
    + rewrite app_nil_r in *. rewrite Nat.eqb_refl.
      assert (Ps : no_nl (skipn (S (length (pj pre) + length (l1 ++ l2))) (pj pre ++ (l1 ++ l2) ++ sj post)) = concat post).
      { rewrite app_assoc. destruct post as [|l post].
        - rewrite skipn_all2; [reflexivity|]. rewrite !app_length. simpl. lia.
        - rewrite sj_cons. rewrite skipn_cons_exact by lens. rewrite no_nl_app, no_nl_clean, no_nl_sj by cln. reflexivity. }
      rewrite Ps.
      destruct (length l1 =? 0) eqn:B.
      * assert (l1 = []) by (destruct l1; [reflexivity|simpl in B; lia]). subst l1.
        replace (pre ++ ([] ++ l2) :: post) with (pre ++ [l2] ++ post) by reflexivity.
        rewrite vec_drain_mid by (simpl; lia). rewrite bind_ret.
        exists (at_least_one (pre ++ post)). split; [reflexivity|]. split; [apply at_least_one_nonnil|].
        split; [apply at_least_one_clean; cln|].
        exists []. split; [apply subseq_nil_l|].
        rewrite at_least_one_concat, concat_app. simpl. now rewrite app_nil_r.
      * rewrite drain_end, bind_ret, set_nth_mid.
        exists (pre ++ l1 :: post). split; [reflexivity|]. split; [auto|]. split; [cln|].
        exists []. split; [apply subseq_nil_l|].
        rewrite concat_app. simpl. now rewrite app_assoc.
    + destruct (length (l1 ++ l2) =? length (l1 ++ l2 ++ ch :: l3)) eqn:B; [lens|].
      assert (DR : vec_drain (length l1) (length (l1 ++ l2) + 1) (l1 ++ l2 ++ ch :: l3) = Ret (l1 ++ l3)).
      { replace (l1 ++ l2 ++ ch :: l3) with (l1 ++ (l2 ++ [ch]) ++ l3) by (now rewrite <- app_assoc).
        apply vec_drain_mid; lens. }
      rewrite DR, bind_ret, set_nth_mid.
      exists (pre ++ (l1 ++ l3) :: post). split; [reflexivity|]. split; [auto|]. split; [cln|].
      exists []. split; [apply subseq_nil_l|].
      assert (Ps : skipn (S (length (pj pre) + length (l1 ++ l2))) (pj pre ++ (l1 ++ l2 ++ ch :: l3) ++ sj post) = l3 ++ sj post).
      { replace (pj pre ++ (l1 ++ l2 ++ ch :: l3) ++ sj post) with ((pj pre ++ l1 ++ l2) ++ ch :: (l3 ++ sj post)) by (rewrite <- !app_assoc; reflexivity).
        apply skipn_cons_exact. lens. }
      rewrite Ps, no_nl_app, no_nl_clean, no_nl_sj by cln.
      rewrite concat_app. simpl. now rewrite <- !app_assoc.
  - assert (Hyy : py mn < py mx) by (destruct Hle; lia).
    destruct (decomp2_diff Hn Hx Hyy) as (pre & l1 & l2 & mid & m1 & m2 & post & E & En & Ex). subst mn mx ls.
    cbn [py px] in *. unfold del_lines. cbn [py px].
    assert (Lp : length (pre ++ (l1 ++ l2) :: mid) = length pre + S (length mid)) by lens.
    destruct (length pre =? length (pre ++ (l1 ++ l2) :: mid)) eqn:B0; [lia|].
    rewrite offset_mid.
    assert (F : flat (pre ++ (l1 ++ l2) :: mid ++ (m1 ++ m2) :: post)
                = (pj pre ++ l1) ++ (l2 ++ [c_nl] ++ pj mid ++ m1) ++ m2 ++ sj post).
    { replace (pre ++ (l1 ++ l2) :: mid ++ (m1 ++ m2) :: post) with ((pre ++ (l1 ++ l2) :: mid) ++ (m1 ++ m2) :: post)
        by (rewrite <- app_assoc; reflexivity).
      rewrite flat_mid, pj_app, pj_cons. repeat (rewrite <- app_assoc; simpl). reflexivity. }
    assert (O : offset_in (pre ++ (l1 ++ l2) :: mid ++ (m1 ++ m2) :: post) (mkPos (length (pre ++ (l1 ++ l2) :: mid)) (length m1))
                = length ((pj pre ++ l1) ++ (l2 ++ [c_nl] ++ pj mid ++ m1))).
    { replace (pre ++ (l1 ++ l2) :: mid ++ (m1 ++ m2) :: post) with ((pre ++ (l1 ++ l2) :: mid) ++ (m1 ++ m2) :: post)
        by (rewrite <- app_assoc; reflexivity).
      rewrite offset_mid, pj_app, pj_cons. lens. }
    rewrite O, F.
    assert (CC : cleanl l1 /\ cleanl l2 /\ clean mid /\ cleanl m1 /\ cleanl m2 /\ clean post /\ clean pre) by cln.
    destruct CC as (C1 & C2 & C3 & C4 & C5 & C6 & C7).
    rewrite (firstn_app_exact (pj pre ++ l1)) by lens.
    rewrite no_nl_app, no_nl_pj, (no_nl_clean (l:=l1)) by assumption.
    (* the selected text and what follows it *)
    assert (SL : exists hd tl, m2 = hd ++ tl /\ length hd <= 1 /\ (hd = [] -> m2 = []) /\
      no_nl (slice (length (pj pre) + length l1) (S (length ((pj pre ++ l1) ++ l2 ++ [c_nl] ++ pj mid ++ m1)))
        ((pj pre ++ l1) ++ (l2 ++ [c_nl] ++ pj mid ++ m1) ++ m2 ++ sj post)) = (l2 ++ concat mid ++ m1) ++ hd
      /\ no_nl (skipn (S (length ((pj pre ++ l1) ++ l2 ++ [c_nl] ++ pj mid ++ m1)))
        ((pj pre ++ l1) ++ (l2 ++ [c_nl] ++ pj mid ++ m1) ++ m2 ++ sj post)) = tl ++ concat post).
    { assert (NM : no_nl (l2 ++ [c_nl] ++ pj mid ++ m1) = l2 ++ concat mid ++ m1).
      { rewrite !no_nl_app, no_nl_pj, (no_nl_clean (l:=l2)), (no_nl_clean (l:=m1)) by assumption. reflexivity. }
      destruct m2 as [|ch m2].
      - exists [], []. split; [reflexivity|]. split; [simpl; lia|]. split; [reflexivity|]. rewrite app_nil_r. simpl (_ ++ concat post).
        destruct post as [|l post].
        + unfold sj; simpl (concat (map _ [])). rewrite app_nil_r. split.
          * unfold slice. rewrite (skipn_app_exact (pj pre ++ l1)) by lens. rewrite firstn_all2; [exact NM|]. rewrite !app_length. cbn [length]. lia.
          * rewrite skipn_all2; [reflexivity|]. lia.
        + rewrite sj_cons. split.
          * replace ((pj pre ++ l1) ++ (l2 ++ [c_nl] ++ pj mid ++ m1) ++ [] ++ c_nl :: l ++ sj post)
              with ((pj pre ++ l1) ++ ((l2 ++ [c_nl] ++ pj mid ++ m1) ++ [c_nl]) ++ (l ++ sj post)) by (rewrite <- !app_assoc; reflexivity).
            rewrite slice_app by lens. rewrite no_nl_app, NM. simpl. apply app_nil_r.
          * replace ((pj pre ++ l1) ++ (l2 ++ [c_nl] ++ pj mid ++ m1) ++ [] ++ c_nl :: l ++ sj post)
              with (((pj pre ++ l1) ++ (l2 ++ [c_nl] ++ pj mid ++ m1)) ++ c_nl :: (l ++ sj post)) by (rewrite <- !app_assoc; reflexivity).
            rewrite skipn_cons_exact by lens. rewrite no_nl_app, no_nl_clean, no_nl_sj by cln. reflexivity.
      - exists [ch], m2. split; [reflexivity|]. split; [simpl; lia|]. split; [discriminate|]. split.
        + replace ((pj pre ++ l1) ++ (l2 ++ [c_nl] ++ pj mid ++ m1) ++ (ch :: m2) ++ sj post)
            with ((pj pre ++ l1) ++ ((l2 ++ [c_nl] ++ pj mid ++ m1) ++ [ch]) ++ (m2 ++ sj post)) by (rewrite <- !app_assoc; reflexivity).
          rewrite slice_app by lens. rewrite no_nl_app, NM. f_equal. apply no_nl_clean. cln.
        + replace ((pj pre ++ l1) ++ (l2 ++ [c_nl] ++ pj mid ++ m1) ++ (ch :: m2) ++ sj post)
            with (((pj pre ++ l1) ++ (l2 ++ [c_nl] ++ pj mid ++ m1)) ++ ch :: (m2 ++ sj post)) by (rewrite <- !app_assoc; reflexivity).
          rewrite skipn_cons_exact by lens. rewrite no_nl_app, no_nl_clean, no_nl_sj by cln. reflexivity. }
    destruct SL as (hd & tl & Em2 & _ & Hhd & S1 & S2). rewrite S1, S2. clear S1 S2 F O.
    (* first and last lines after truncation *)
    set (first := if 0 <? length l1 then l1 else l1 ++ l2).
    assert (ST1 : (if 0 <? length l1
            then l <- idx (pre ++ (l1 ++ l2) :: mid ++ (m1 ++ m2) :: post) (length pre);;
                 Ret (length pre + 1, set_nth (length pre) (firstn (length l1) l) (pre ++ (l1 ++ l2) :: mid ++ (m1 ++ m2) :: post))
            else Ret (length pre, pre ++ (l1 ++ l2) :: mid ++ (m1 ++ m2) :: post))
            = Ret (length pre + (if 0 <? length l1 then 1 else 0), pre ++ first :: mid ++ (m1 ++ m2) :: post)).
    { unfold first. destruct (0 <? length l1).
      - rewrite idx_app_mid, bind_ret, set_nth_mid. rewrite firstn_app_exact by reflexivity. reflexivity.
      - rewrite Nat.add_0_r. reflexivity. }
    rewrite ST1, bind_ret. clear ST1.
    assert (R1 : forall z, pre ++ first :: mid ++ z :: post = (pre ++ first :: mid) ++ z :: post)
      by (intros; rewrite <- app_assoc; reflexivity).
    rewrite (R1 (m1 ++ m2)). 
    replace (length (pre ++ (l1 ++ l2) :: mid)) with (length (pre ++ first :: mid)) by lens.
    rewrite idx_app_mid, bind_ret.
    set (last' := if length m1 <? length (m1 ++ m2) then m2 else m1 ++ m2).
    set (nb := if length m1 <? length (m1 ++ m2) then 0 else 1).
    assert (ST2 : (if length m1 <? length (m1 ++ m2)
            then l' <- vec_drain 0 (length m1) (m1 ++ m2);;
                 m <- csub (length (pre ++ first :: mid)) 1;;
                 Ret (m, set_nth (length (pre ++ first :: mid)) l' ((pre ++ first :: mid) ++ (m1 ++ m2) :: post))
            else Ret (length (pre ++ first :: mid), (pre ++ first :: mid) ++ (m1 ++ m2) :: post))
            = Ret (length pre + length mid + nb, (pre ++ first :: mid) ++ last' :: post)).
    { unfold last', nb. destruct (length m1 <? length (m1 ++ m2)).
      - change (m1 ++ m2) with ([] ++ m1 ++ m2) at 1. rewrite vec_drain_mid by (simpl; lia).
        rewrite bind_ret. rewrite csub_ret by lens. rewrite bind_ret, set_nth_mid.
        do 2 f_equal. lens.
      - do 2 f_equal. lens. }
    rewrite ST2, bind_ret. clear ST2.
    set (na := if 0 <? length l1 then 1 else 0).
    assert (Cf : cleanl first) by (unfold first; destruct (0 <? length l1); cln).
    assert (Cl : cleanl last') by (unfold last'; destruct (length m1 <? length (m1 ++ m2)); cln).
    destruct (length pre + na <? length pre + length mid + nb) eqn:B3.
    + (* lines are drained *)
      replace (Nat.min (length pre + length mid + nb + 1) (length ((pre ++ first :: mid) ++ last' :: post)))
        with (length pre + length mid + nb + 1)
        by (rewrite !app_length; simpl; unfold nb; destruct (length m1 <? length (m1 ++ m2)); lia).
      set (keepf := if 0 <? length l1 then [l1] else []).
      set (keepl := if length m1 <? length (m1 ++ m2) then [m2] else []).
      assert (D : vec_drain (length pre + na) (length pre + length mid + nb + 1) ((pre ++ first :: mid) ++ last' :: post)
                  = Ret ((pre ++ keepf) ++ (keepl ++ post))).
      { assert (EQ : (pre ++ first :: mid) ++ last' :: post
          = (pre ++ keepf) ++ ((if 0 <? length l1 then [] else [first]) ++ mid ++ (if length m1 <? length (m1 ++ m2) then [] else [last'])) ++ keepl ++ post).
        { unfold first, keepf, keepl, last'. destruct (0 <? length l1), (length m1 <? length (m1 ++ m2)); simpl; rewrite <- ?app_assoc; simpl; rewrite <- ?app_assoc; reflexivity. }
        rewrite EQ. apply vec_drain_mid; unfold keepf, na, nb; destruct (0 <? length l1), (length m1 <? length (m1 ++ m2)); simpl; lens. }
      rewrite D, bind_ret.
      exists (at_least_one ((pre ++ keepf) ++ keepl ++ post)). split; [reflexivity|]. split; [apply at_least_one_nonnil|].
      split.
      { apply at_least_one_clean. unfold keepf, keepl. destruct (0 <? length l1), (length m1 <? length (m1 ++ m2)); cln. }
      exists (if length m1 <? length (m1 ++ m2) then hd else []). split.
      * destruct (length m1 <? length (m1 ++ m2)).
        -- change hd with ([] ++ hd) at 1. apply subseq_app; [apply subseq_nil_l|apply subseq_refl].
        -- apply subseq_nil_l.
      * rewrite at_least_one_concat, !concat_app.
        assert (K1 : concat keepf = l1).
        { unfold keepf. destruct (0 <? length l1) eqn:Z; simpl; [apply app_nil_r|]. destruct l1; [reflexivity|simpl in Z; lia]. }
        rewrite K1. rewrite <- !app_assoc. do 2 f_equal. rewrite app_assoc. f_equal.
        unfold keepl. destruct (length m1 <? length (m1 ++ m2)) eqn:Z; simpl.
        -- rewrite app_nil_r. exact Em2.
        -- assert (m2 = []) by (destruct m2; [reflexivity|lens]). rewrite H in Em2. symmetry in Em2. apply app_eq_nil in Em2. symmetry. tauto.
    + (* at most one line in the range: nothing is drained *)
      exists ((pre ++ first :: mid) ++ last' :: post). split; [reflexivity|]. split; [auto|].
      split; [cln|].
      exists ((if 0 <? length l1 then [] else l2) ++ concat mid ++ (if length m1 <? length (m1 ++ m2) then [] else m1) ++ hd). split.
      * rewrite <- !app_assoc. apply subseq_app; [destruct (0 <? length l1); [apply subseq_nil_l|apply subseq_refl]|].
        apply subseq_app; [apply subseq_refl|].
        apply subseq_app; [destruct (length m1 <? length (m1 ++ m2)); [apply subseq_nil_l|apply subseq_refl]|apply subseq_refl].
      * rewrite concat_app. simpl. rewrite concat_app. simpl.
        unfold first, last'. rewrite <- !app_assoc. f_equal.
        assert (K1 : (if 0 <? length l1 then l1 else l1 ++ l2) = l1 ++ (if 0 <? length l1 then [] else l2)).
        { destruct (0 <? length l1); [now rewrite app_nil_r|reflexivity]. }
        rewrite K1. rewrite <- !app_assoc. do 3 f_equal.
        destruct (length m1 <? length (m1 ++ m2)) eqn:Z; simpl.
        -- rewrite Em2. now rewrite <- app_assoc.
        -- rewrite Em2. now rewrite <- !app_assoc.
Qed.

Lemma del_selection_spec c : valid c ->
  exists c' b, del_selection c = Ret (c', b) /\ valid c' /\
  (rmin (selection c) <> rmax (selection c) ->
     b = true /\ ctail c' = None
     /\ outside_kept c c' (offset c (rmin (selection c))) (S (offset c (rmax (selection c))))
     /\ (valid_pos (clines c') (rmin (selection c)) -> cpos c' = rmin (selection c))) /\
  (rmin (selection c) = rmax (selection c) -> del_selection c = del_char_below c).
Proof.
  intros V. destruct (selection_ends V) as (Hn & Hx & Hle).
  assert (DEC : rmin (selection c) = rmax (selection c) \/ rmin (selection c) <> rmax (selection c)).
  { destruct (pos_eqb (rmin (selection c)) (rmax (selection c))) eqn:B; [left; now apply pos_eqb_spec|right].
    intros H. apply pos_eqb_spec in H. congruence. }
  destruct DEC as [E|N].
  - assert (ED : del_selection c = del_char_below c).
    { unfold del_selection. rewrite E, !Nat.eqb_refl. reflexivity. }
    destruct (del_char_below_spec V) as (A & B & C). pose proof (cursor_le V) as L.
    assert (exists c' b, del_char_below c = Ret (c', b) /\ valid c') as (c' & b & F1 & F2).
    { destruct (Nat.eq_dec (cursor c) (length (text c))) as [Q|Q].
      - assert (LE : last_line_empty c \/ ~ last_line_empty c).
        { destruct V as (V1 & _). destruct (exists_last V1) as (pre & l & El).
          destruct pre as [|p0 pre]; [right|destruct l as [|ch l]; [left|right]].
          - intros (pre' & Np & Ep). rewrite El in Ep. simpl in Ep. destruct pre' as [|x [|]]; simpl in Ep; congruence.
          - exists (p0 :: pre). split; [discriminate|assumption].
          - intros (pre' & Np & Ep). rewrite El in Ep. apply app_inj_tail in Ep. destruct Ep. discriminate. }
        destruct LE as [LE|LE].
        + destruct (C Q LE) as (c' & F1 & F2 & _). eauto.
        + exists c, false. split; [now apply B|assumption].
      - destruct A as (c' & F1 & F2 & _); [lia|]. eauto. }
    exists c', b. rewrite ED. split; [assumption|]. split; [assumption|]. split; [congruence|reflexivity].
  - rewrite del_selection_lines by assumption.
    pose proof V as (_ & _ & _ & Vc).
    destruct (del_lines_spec Vc Hn Hx Hle N) as (ls' & E & NE & C & k & K1 & K2).
    rewrite E, bind_ret. unfold set_cursor_pos. rewrite make_valid_pos_eq by (simpl; assumption). simpl.
    eexists _, true. split; [reflexivity|]. split; [|split; [|congruence]].
    + unfold set_cpos, set_clines, set_ctail; simpl. apply mk_valid; [now apply clamp_valid|discriminate|assumption].
    + intros _. split; [reflexivity|]. split; [reflexivity|]. split.
      * exists k. split; [exact K1|]. unfold text at 1. simpl. rewrite no_nl_flat by assumption. exact K2.
      * simpl. apply clamp_id.
Qed.

(** Cases where exactly the selected text is removed *)
Lemma del_selection_inline c l : valid c ->
  py (rmin (selection c)) = py (rmax (selection c)) -> px (rmin (selection c)) < px (rmax (selection c)) ->
  nth_error (clines c) (py (rmax (selection c))) = Some l ->
  (px (rmax (selection c)) < length l \/ (0 < px (rmin (selection c)) /\ S (py (rmax (selection c))) = length (clines c))) ->
  exists c', del_selection c = Ret (c', true)
  /\ text c' = firstn (offset c (rmin (selection c))) (text c) ++ skipn (S (offset c (rmax (selection c)))) (text c)
  /\ cpos c' = rmin (selection c) /\ cursor c' = offset c (rmin (selection c)).
Proof.
  intros V Hy Hx Hl Hcase. destruct (selection_ends V) as (Vn & Vx & Hle).
  rewrite del_selection_lines by (intros H; rewrite H in Hx; lia).
  destruct (decomp2_same Vn Vx Hy ltac:(lia)) as (pre & l1 & l2 & l3 & post & E & En & Ex).
  pose proof V as (_ & _ & _ & Vc).
  unfold offset, text. rewrite E, En, Ex in *. cbn [py px] in *.
  rewrite nth_error_mid in Hl. inversion Hl; subst l; clear Hl.
  unfold del_lines. cbn [py px]. rewrite Nat.eqb_refl, idx_app_mid, bind_ret.
  rewrite !offset_mid, flat_mid.
  assert (Pn : firstn (length (pj pre) + length l1) (pj pre ++ (l1 ++ l2 ++ l3) ++ sj post) = pj pre ++ l1).
  { rewrite <- app_assoc, app_assoc. apply firstn_app_exact. lens. }
  rewrite Pn.
  destruct l3 as [|ch l3].
  - rewrite app_nil_r in *. rewrite Nat.eqb_refl. destruct Hcase as [Hcase|[Hcase Hlast]]; [lia|].
    destruct (length l1 =? 0) eqn:B; [lia|].
    assert (post = []) by (destruct post; [reflexivity|lens]). subst post.
    rewrite drain_end, bind_ret, set_nth_mid, bind_ret.
    unfold set_cursor_pos. rewrite make_valid_pos_eq by (simpl; auto). simpl bind.
    eexists. split; [reflexivity|]. cbn [set_ctail set_cpos set_clines cpos ctail clines]. rewrite clamp_id by (apply valid_pos_mid; lia).
    split; [|split; [reflexivity|]].
    + rewrite flat_mid, skipn_all2 by lens. unfold sj; simpl. rewrite !app_nil_r. reflexivity.
    + unfold set_ctail, set_cpos, set_clines; simpl. rewrite cursor_mid. lens.
  - destruct (length (l1 ++ l2) =? length (l1 ++ l2 ++ ch :: l3)) eqn:B; [lens|].
    assert (DR : vec_drain (length l1) (length (l1 ++ l2) + 1) (l1 ++ l2 ++ ch :: l3) = Ret (l1 ++ l3)).
    { replace (l1 ++ l2 ++ ch :: l3) with (l1 ++ (l2 ++ [ch]) ++ l3) by (now rewrite <- app_assoc).
      apply vec_drain_mid; lens. }
    rewrite DR, bind_ret, set_nth_mid, bind_ret.
    unfold set_cursor_pos. rewrite make_valid_pos_eq by (simpl; auto). simpl bind.
    eexists. split; [reflexivity|]. cbn [set_ctail set_cpos set_clines cpos ctail clines]. rewrite clamp_id by (apply valid_pos_mid; lens).
    split; [|split; [reflexivity|]].
    + rewrite flat_mid. replace (pj pre ++ (l1 ++ l2 ++ ch :: l3) ++ sj post) with ((pj pre ++ l1 ++ l2) ++ ch :: (l3 ++ sj post)) by (rewrite <- !app_assoc; reflexivity).
      rewrite skipn_cons_exact by lens. rewrite <- !app_assoc. reflexivity.
    + unfold set_ctail, set_cpos, set_clines; simpl. rewrite cursor_mid. lens.
Qed.

(** Whole lines, followed by another line, or the whole text *)
Lemma del_selection_whole_lines c l : valid c ->
  rmin (selection c) <> rmax (selection c) ->
  px (rmin (selection c)) = 0 -> nth_error (clines c) (py (rmax (selection c))) = Some l ->
  px (rmax (selection c)) = length l ->
  (S (py (rmax (selection c))) < length (clines c) \/ py (rmin (selection c)) = 0) ->
  exists c', del_selection c = Ret (c', true)
  /\ text c' = firstn (offset c (rmin (selection c))) (text c) ++ skipn (S (offset c (rmax (selection c)))) (text c)
  /\ cpos c' = rmin (selection c) /\ cursor c' = offset c (rmin (selection c)).
Proof.
  intros V Hne Hx0 Hl Hxl Hcase. destruct (selection_ends V) as (Vn & Vx & Hle).
  rewrite del_selection_lines by assumption.
  pose proof V as (_ & _ & _ & Vc).
  assert (Hy : py (rmin (selection c)) <= py (rmax (selection c))) by (destruct Hle; lia).
  (* lines = pre ++ sel ++ post *)
  destruct (split_nth _ _ Hl) as (prel & post & E & Lpl).
  destruct (@split_at _ prel (py (rmin (selection c)))) as (pre & mid & Ep & Lp); [lia|]. subst prel.
  assert (D : del_lines (clines c) (rmin (selection c)) (rmax (selection c)) = Ret (at_least_one (pre ++ post))).
  { unfold del_lines. destruct (py (rmin (selection c)) =? py (rmax (selection c))) eqn:B.
    - assert (mid = []) by (destruct mid; [reflexivity|lens]). subst mid. rewrite app_nil_r in *.
      rewrite Hx0. simpl. replace (py (rmin (selection c))) with (length pre) by lia.
      rewrite E, idx_app_mid, bind_ret. rewrite Hxl, Nat.eqb_refl.
      change (pre ++ l :: post) with (pre ++ [l] ++ post). rewrite vec_drain_mid by (simpl; lia). reflexivity.
    - rewrite Hx0. simpl. rewrite bind_ret || idtac. replace (py (rmax (selection c))) with (length (pre ++ mid)) by lia.
      rewrite E, idx_app_mid. simpl. rewrite Hxl. destruct (length l <? length l) eqn:B2; [lia|]. simpl.
      rewrite <- Lp. destruct (length pre <? length (pre ++ mid)) eqn:B3; [|lens].
      replace (Nat.min (length (pre ++ mid) + 1) (length ((pre ++ mid) ++ l :: post))) with (length pre + length (mid ++ [l])) by lens.
      replace ((pre ++ mid) ++ l :: post) with (pre ++ (mid ++ [l]) ++ post) by (rewrite <- !app_assoc; reflexivity).
      rewrite vec_drain_mid by reflexivity. reflexivity. }
  rewrite D, bind_ret.
  unfold set_cursor_pos. rewrite make_valid_pos_eq by (simpl; apply at_least_one_nonnil). simpl bind.
  eexists. split; [reflexivity|]. cbn [set_ctail set_cpos set_clines cpos ctail clines].
  assert (P : rmin (selection c) = mkPos (length pre) 0).
  { destruct (rmin (selection c)); simpl in *; subst; reflexivity. }
  assert (O : offset c (rmin (selection c)) = length (pj pre)).
  { rewrite P. unfold offset. rewrite E, <- app_assoc. rewrite offset_mid. lia. }
  assert (OX : offset c (rmax (selection c)) = length (pj (pre ++ mid) ++ l)).
  { assert (PX : rmax (selection c) = mkPos (length (pre ++ mid)) (length l)).
    { destruct (rmax (selection c)); simpl in *; subst; reflexivity. }
    rewrite PX. unfold offset. rewrite E, offset_mid. lens. }
  assert (VP : valid_pos (at_least_one (pre ++ post)) (mkPos (length pre) 0)).
  { destruct post as [|l' post].
    - assert (pre = []) by (destruct Hcase as [Hcase|Hcase]; [rewrite E in Hcase; lens|destruct pre; [reflexivity|lens]]).
      subst pre. exists []. simpl. auto.
    - rewrite at_least_one_id by auto. apply valid_pos_mid. lia. }
  rewrite P, clamp_id by exact VP.
  split; [|split; [reflexivity|]].
  - rewrite <- P. rewrite O, OX. unfold text at 2 3. rewrite E, flat_mid. unfold text. cbn [clines].
    rewrite pj_app. rewrite <- !app_assoc, firstn_app_exact by reflexivity.
    destruct post as [|l' post].
    + assert (pre = []) by (destruct Hcase as [Hcase|Hcase]; [rewrite E in Hcase; lens|destruct pre; [reflexivity|lens]]).
      subst pre. rewrite skipn_all2; [reflexivity|]. unfold sj. rewrite !app_length. cbn. lia.
    + cbn [set_ctail set_cpos set_clines clines]. rewrite at_least_one_id by auto. rewrite flat_mid. f_equal. rewrite sj_cons.
      replace (pj pre ++ pj mid ++ l ++ c_nl :: l' ++ sj post) with ((pj pre ++ pj mid ++ l) ++ c_nl :: (l' ++ sj post)) by (rewrite <- !app_assoc; reflexivity).
      rewrite skipn_cons_exact by lens. reflexivity.
  - rewrite <- P, O. unfold cursor, offset; simpl. destruct post as [|l' post].
    + assert (pre = []) by (destruct Hcase as [Hcase|Hcase]; [rewrite E in Hcase; lens|destruct pre; [reflexivity|lens]]).
      rewrite P. subst pre. reflexivity.
    + rewrite P. rewrite at_least_one_id by auto. rewrite offset_mid. lia.
Qed.

(** ** Other operations *)

Lemma set_cursor_pos_spec c p : valid c -> exists c', set_cursor_pos c p = Ret c' /\ valid c' /\ same_text c c'
  /\ (valid_pos (clines c) p -> cpos c' = p)
  /\ (length (clines c) <= py p -> cursor c' = length (text c))
  /\ (forall l, nth_error (clines c) (py p) = Some l -> cpos c' = mkPos (py p) (min (px p) (length l))).
Proof.
  intros V. pose proof V as (V1 & _). unfold set_cursor_pos. rewrite make_valid_pos_eq by assumption. simpl.
  eexists. split; [reflexivity|]. split; [apply valid_move; [assumption|now apply clamp_valid]|].
  split; [split; reflexivity|]. split; [|split].
  - apply clamp_id.
  - intros H. unfold cursor, offset. simpl. unfold clamp. destruct (length (clines c) <=? py p) eqn:B; [|lia].
    destruct (exists_last V1) as (pre & l & E). unfold text. rewrite E, app_length. simpl.
    replace (length pre + 1 - 1) with (length pre) by lia. rewrite app_nth2, Nat.sub_diag by lia. simpl.
    rewrite offset_mid, flat_mid. unfold sj; simpl. rewrite app_nil_r. lens.
  - intros l Hl. simpl. unfold clamp. assert (py p < length (clines c)) by (apply nth_error_Some; congruence).
    destruct (length (clines c) <=? py p) eqn:B; [lia|]. apply nth_error_nth with (d:=[]) in Hl. now rewrite Hl.
Qed.

Lemma push_char_spec c ch : valid c -> exists c', push_char c ch = Ret c' /\ valid c'
  /\ text c' = text c ++ typed [ch] /\ cpos c' = cpos c /\ ctail c' = ctail c.
Proof.
  intros V. pose proof V as (V1 & V2 & V3 & V4). unfold push_char, typed. simpl.
  destruct (exists_last V1) as (pre & l & E).
  assert (VP : forall l', length l <= length l' -> forall q, valid_pos (clines c) q -> valid_pos (pre ++ [l']) q).
  { intros l' Hl' q (lq & Hq & Hxq). rewrite E in Hq. unfold valid_pos.
    destruct (Nat.lt_trichotomy (py q) (length pre)) as [L|[L|L]].
    - rewrite nth_error_app1 in * by assumption. eauto.
    - rewrite L in *. rewrite nth_error_mid in *. inversion Hq; subst lq. exists l'. split; [reflexivity|lia].
    - rewrite nth_error_app2 in Hq by lia. destruct (py q - length pre) as [|n] eqn:X; [lia|]. simpl in Hq. destruct n; discriminate. }
  destruct (N.eqb ch c_nl) eqn:B1.
  - apply N.eqb_eq in B1. subst ch. simpl. eexists. split; [reflexivity|]. split; [|split; [|split; reflexivity]].
    + unfold set_clines. apply mk_valid.
      * destruct V2 as (l0 & A & B). exists l0. rewrite nth_error_app1 by (apply nth_error_Some; congruence). auto.
      * intros t Et. destruct (V3 _ Et) as (l0 & A & B). exists l0. rewrite nth_error_app1 by (apply nth_error_Some; congruence). auto.
      * fold clean in *. assert (clean (clines c)) by exact V4. cln.
    + unfold text; simpl. rewrite E. rewrite <- app_assoc. simpl. rewrite (flat_mid pre l [[]]), (flat_mid pre l []).
      unfold sj; simpl. rewrite app_nil_r, <- app_assoc. reflexivity.
  - apply N.eqb_neq in B1. destruct (N.eqb ch c_cr) eqn:B2; [|destruct (N.eqb ch c_bs) eqn:B3].
    + simpl. exists c. rewrite app_nil_r. auto.
    + simpl. exists c. rewrite app_nil_r. auto.
    + apply N.eqb_neq in B2, B3. simpl. rewrite E, app_length. simpl. rewrite csub_ret by lia. rewrite bind_ret.
      replace (length pre + 1 - 1) with (length pre) by lia. rewrite idx_app_mid, bind_ret, set_nth_mid.
      eexists. split; [reflexivity|]. split; [|split; [|split; reflexivity]].
      * unfold set_clines. apply mk_valid.
        -- apply VP; [lens|assumption].
        -- intros t Et. apply VP; [lens|auto].
        -- assert (Q : clean (clines c)) by exact V4. rewrite E in Q.
           assert (clean_char ch) by (repeat split; auto). cln.
      * unfold text; simpl. rewrite E, !flat_mid. unfold sj; simpl. rewrite !app_nil_r, <- app_assoc. reflexivity.
Qed.

(** ** Histories *)

Lemma capply_valid u o c : (forall p, o <> OpSetTail p) -> valid c ->
  exists c' b, capply u o c = Ret (c', b) /\ valid c'.
Proof.
  intros NS V. destruct o; simpl; unfold with_true.
  - destruct (set_cursor_pos_spec p V) as (c' & E & V' & _). rewrite E. simpl. eauto.
  - exists (make_selection c), true. split; [reflexivity|]. unfold make_selection. destruct (ctail c) eqn:T; [assumption|].
    destruct V as (A & B & C & D). unfold valid, set_ctail; simpl. repeat split; auto; try (intros t Et; inversion Et; subst; assumption); intros; eapply D; eauto.
  - exists (unselect c), true. split; [reflexivity|].
    destruct V as (A & B & C & D). unfold valid, set_ctail; simpl. split; [assumption|]. split; [assumption|]. split; [discriminate|assumption].
  - exfalso. eapply NS; eauto.
  - destruct (push_char_spec ch V) as (c' & E & V' & _). rewrite E. simpl. eauto.
  - exists content_default, true. split; [reflexivity|]. apply valid_default.
  - destruct (insert_new_line_spec V) as (c' & E & V' & _). rewrite E. simpl. eauto.
  - destruct (insert_char_spec ch V) as (c' & E & V' & _). rewrite E. simpl. eauto.
  - destruct (insert_str_spec s V) as (c' & E & V' & _). rewrite E. simpl. eauto.
  - destruct (set_str_spec s V) as (c' & E & V' & _). rewrite E. simpl. eauto.
  - destruct (del_char_left_spec V) as [A B]. destruct (Nat.eq_dec (cursor c) 0) as [Z|Z].
    + rewrite A by assumption. eauto.
    + destruct B as (c' & E & V' & _); [lia|]. rewrite E. eauto.
  - destruct (cursor_line V) as (l & Hl & Hx). destruct (select_word_spec u V Hl) as [A B].
    assert (word_char_at u l (px (cpos c)) \/ ~ word_char_at u l (px (cpos c))) as [W|W].
    { destruct (nth_error l (px (cpos c))) as [ch|] eqn:N.
      - rewrite (word_char_at_ch u _ _ N). destruct (is_word_char u ch); [now left|right; discriminate].
      - right. intros (ch & N' & _). congruence. }
    + destruct (B W) as (c' & s & E & V' & _). rewrite E. eauto.
    + rewrite (A W). eauto.
  - destruct (@del_selection_spec (set_ctail c None)) as (c' & b & E & V' & _ & F).
    + destruct V as (A & B & C & D). unfold valid, set_ctail; simpl. split; [assumption|]. split; [assumption|]. split; [discriminate|assumption].
    + (* via the specification of del_char_below *)
      clear c' b E V' F. destruct (del_char_below_spec V) as (A & B & C). pose proof (cursor_le V) as L.
      destruct (Nat.eq_dec (cursor c) (length (text c))) as [Q|Q].
      * assert (LE : last_line_empty c \/ ~ last_line_empty c).
        { destruct V as (V1 & _). destruct (exists_last V1) as (pre & l & El).
          destruct pre as [|p0 pre]; [right|destruct l as [|ch l]; [left|right]].
          - intros (pre' & Np & Ep). rewrite El in Ep. simpl in Ep. destruct pre' as [|x [|]]; simpl in Ep; congruence.
          - exists (p0 :: pre). split; [discriminate|assumption].
          - intros (pre' & Np & Ep). rewrite El in Ep. apply app_inj_tail in Ep. destruct Ep. discriminate. }
        destruct LE as [LE|LE].
        -- destruct (C Q LE) as (c' & F1 & F2 & _). eauto.
        -- exists c, false. split; [now apply B|assumption].
      * destruct A as (c' & F1 & F2 & _); [lia|]. eauto.
  - destruct (del_selection_spec V) as (c' & b & E & V' & _). eauto.
  - destruct (@swap_lines_spec c a b V) as [A B].
    destruct (Nat.eq_dec a b) as [Z|Z]; [rewrite A by auto; eauto|].
    destruct (Nat.le_gt_cases (length (clines c)) a) as [Z1|Z1]; [rewrite A by auto; eauto|].
    destruct (Nat.le_gt_cases (length (clines c)) b) as [Z2|Z2]; [rewrite A by auto; eauto|].
    destruct (B Z Z1 Z2) as (c' & E & V' & _). eauto.
  - destruct (move_current_line_up_spec V) as [A B]. destruct (py (cpos c)) as [|y'] eqn:Y.
    + rewrite A by reflexivity. eauto.
    + destruct (B y' eq_refl) as (c' & l0 & E & V' & _). eauto.
  - destruct (move_current_line_down_spec V) as [A B].
    assert (py (cpos c) < length (clines c)) by (destruct V as (_ & (l & Hl & _) & _); apply nth_error_Some; congruence).
    destruct (Nat.eq_dec (py (cpos c) + 1) (length (clines c))) as [Z|Z].
    + rewrite A by assumption. eauto.
    + destruct B as (c' & l0 & E & V' & _); [lia|]. eauto.
  - destruct (move_right_spec V) as [A B]. pose proof (cursor_le V). destruct (Nat.eq_dec (cursor c) (length (text c))) as [Z|Z].
    + rewrite B by assumption. eauto.
    + destruct A as (c' & E & V' & _); [lia|]. eauto.
  - destruct (@move_lines_up_spec u c n V) as [A B]. destruct (Nat.eq_dec (py (cpos c)) 0) as [Z|Z].
    + rewrite A by assumption. eauto.
    + destruct B as (c' & E & V' & _); [lia|]. eauto.
  - destruct (@move_lines_down_spec u c n V) as [A B].
    assert (py (cpos c) < length (clines c)) by (destruct V as (_ & (l & Hl & _) & _); apply nth_error_Some; congruence).
    destruct (Nat.eq_dec (py (cpos c) + 1) (length (clines c))) as [Z|Z].
    + rewrite A by assumption. eauto.
    + destruct B as (c' & E & V' & _); [lia|]. eauto.
  - destruct (move_left_spec V) as [A B]. destruct (Nat.eq_dec (cursor c) 0) as [Z|Z].
    + rewrite B by assumption. eauto.
    + destruct A as (c' & E & V' & _); [lia|]. eauto.
  - destruct (move_to_end_spec V) as (c' & b & E & V' & _). eauto.
  - destruct (move_to_start_spec V) as (c' & b & E & V' & _). rewrite E. eauto.
  - destruct (move_to_line_end_spec V) as (c' & b & l & E & V' & _). eauto.
  - destruct (move_to_line_start_spec V) as (c' & b & E & V' & _). rewrite E. eauto.
  - destruct (move_word_left_spec u V) as [A B]. destruct (Nat.eq_dec (px (cpos c)) 0) as [Z|Z].
    + rewrite A by assumption. eauto.
    + destruct B as (c' & l & E & V' & _); [lia|]. eauto.
  - destruct (cursor_line V) as (l & Hl & Hx). destruct (move_word_right_spec u V Hl) as [A B].
    destruct (Nat.eq_dec (px (cpos c)) (length l)) as [Z|Z].
    + rewrite A by assumption. eauto.
    + destruct B as (c' & E & V' & _); [lia|]. eauto.
  - destruct (del_word_left_spec u V) as [A B]. destruct (Nat.eq_dec (px (cpos c)) 0) as [Z|Z].
    + rewrite A by assumption. eauto.
    + destruct B as (c' & l & E & V' & _); [lia|]. eauto.
  - destruct (cursor_line V) as (l & Hl & Hx). destruct (del_word_right_spec u V Hl) as (A & B & C).
    destruct (Nat.eq_dec (length l) 0) as [Z|Z]; [rewrite C by assumption; eauto|].
    destruct (Nat.eq_dec (px (cpos c)) (length l)) as [Z2|Z2].
    + destruct B as (c' & E & V' & _); [assumption|lia|]. eauto.
    + destruct A as (c' & e & E & V' & _); [lia|]. eauto.
Qed.

Lemma crun_valid u ops : forall c, (forall p, ~ In (OpSetTail p) ops) -> valid c ->
  exists c', crun u ops c = Ret c' /\ valid c'.
Proof.
  induction ops as [|o ops IH]; intros c NS V; [exists c; auto|].
  destruct (@capply_valid u o c) as (c1 & b & E & V1); [intros p ->; eapply NS; now left|assumption|].
  destruct (IH c1) as (c2 & E2 & V2); [intros p Hp; eapply NS; right; eauto|assumption|].
  exists c2. simpl. rewrite E. simpl. auto.
Qed.
