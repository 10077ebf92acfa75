(** * What a laid out table is *)
From Verif Require Import Base L_Base M_Style M_Fit S_Fit L_Fit M_Wrap S_Wrap L_Wrap M_TblFit S_TblFit L_TblFit P_TblFit M_Text S_Text L_Text P_Wrap.
Set Implicit Arguments.

(** all the rows coming from [row_group] have [n] cells as soon as they have enough of them *)
Definition row_len_le (n : nat) (l : FmtLine) : Prop := match l with TableRow cells => length cells <= n | TableRule _ => True | _ => False end.
Lemma group_len u k ws l g : is_table l = true -> row_group u k ws l g -> Forall (row_len_le (length ws)) g.
Proof.
  destruct l as [|cells|r|]; try discriminate; intros _; cbn [row_group].
  - intros (css & H & ->). pose proof (cells_lines_length H) as Hl. rewrite firstn_length in Hl. specialize (Hl ltac:(lia)).
    unfold group_of. constructor.
    + cbn. rewrite app_length, map_length, repeat_length. lia.
    + apply Forall_map, Forall_forall. intros i _. cbn. rewrite map_length. lia.
  - intros ->. repeat constructor.
Qed.
Lemma groups_len u k ws t gs : Forall (fun l => is_table l = true) t -> Forall2 (row_group u k ws) t gs -> Forall (row_len_le (length ws)) (concat gs).
Proof.
  intros Ht H. induction H as [|l g t gs Hg _ IH]; [constructor|]. inversion Ht; subst. cbn. apply Forall_app. split; [eapply group_len; eassumption|auto].
Qed.

Definition line_aligned (removed : bool) (ws : list nat) (l l' : FmtLine) : Prop :=
  match l with
  | TableRow cells => length ws <= length cells /\ exists als, length als = length ws /\ l' = TableRow (spaced ws als cells)
  | TableRule rule => exists pos, l' = TableRule (mkRule pos (ws ++ skipn (length ws) (widths (rule_cols removed (length ws) rule))) (aligns (rule_cols removed (length ws) rule)))
      /\ length ws <= length (widths (rule_cols removed (length ws) rule)) /\ length ws <= length (aligns (rule_cols removed (length ws) rule))
  | _ => False
  end.
Lemma aligned_lines removed ws f als r r' : aligned removed ws f als r r' -> length als = length ws -> Forall2 (line_aligned removed ws) r r'.
Proof.
  induction 1 as [|f als cells r r' H1 H2 IH|f als rule r r' pos H1 H2 H3 H4 IH]; intros Ha; constructor.
  - split; [exact H1|]. exists als. split; [exact Ha|reflexivity].
  - auto.
  - exists pos. auto.
  - apply IH. rewrite firstn_length. lia.
Qed.
Lemma spaced_exact ws als cells : length ws = length cells -> length als = length ws ->
  spaced ws als cells = map (fun cwa => with_spacing (fst cwa) (Some (mkSpacing (fst (snd cwa)) (snd (snd cwa))))) (combine cells (combine ws als)).
Proof. intros H1 H2. unfold spaced. rewrite skipn_all2 by lia. apply app_nil_r. Qed.
Lemma spaced_columns ws als cells : length ws = length cells -> length als = length ws ->
  Forall2 (fun c w => exists a, fc_spacing c = Some (mkSpacing w a)) (spaced ws als cells) ws.
Proof.
  intros H1 H2. rewrite spaced_exact by assumption. revert als cells H1 H2. induction ws as [|w ws IH]; intros [|a als] [|c cells] H1 H2; try discriminate; cbn; constructor.
  - exists a. reflexivity.
  - apply IH; cbn in *; lia.
Qed.
Lemma spaced_aligns ws als cells : length ws = length cells -> length als = length ws ->
  map (fun c => option_map sp_align (fc_spacing c)) (spaced ws als cells) = map Some als.
Proof.
  intros H1 H2. rewrite spaced_exact by assumption. revert als cells H1 H2. induction ws as [|w ws IH]; intros [|a als] [|c cells] H1 H2; try discriminate; cbn; [reflexivity|].
  f_equal. apply IH; cbn in *; lia.
Qed.
Lemma spaced_same {B} (f : FmtComposite -> B) ws als cells : (forall c sp, f (with_spacing c sp) = f c) -> length ws = length cells -> length als = length ws ->
  map f (spaced ws als cells) = map f cells.
Proof.
  intros Hf H1 H2. rewrite spaced_exact by assumption. revert als cells H1 H2. induction ws as [|w ws IH]; intros [|a als] [|c cells] H1 H2; try discriminate; cbn; [reflexivity|].
  rewrite Hf. f_equal. apply IH; cbn in *; lia.
Qed.
Lemma set_nbcols_len r n : length (widths (set_nbcols r n)) = n /\ length (aligns (set_nbcols r n)) = n.
Proof. rewrite set_nbcols_spec. cbn [widths aligns]. rewrite !app_length, !firstn_length, !repeat_length. lia. Qed.
Lemma set_nbcols_aligns r n : aligns (set_nbcols r n) = rule_aligns n r.
Proof.
  rewrite set_nbcols_spec. cbn [aligns]. unfold rule_aligns. rewrite firstn_app. f_equal.
  rewrite <- (firstn_skipn (n - length (aligns r)) (repeat Unspecified n)) at 1.
  assert (H : forall m n, m <= n -> firstn m (repeat Unspecified n) = repeat Unspecified m).
  { clear. induction m; intros [|n] H; try reflexivity; [lia|]. cbn. f_equal. apply IHm. lia. }
  rewrite firstn_skipn, H by lia. reflexivity.
Qed.
Lemma set_nbcols_idem r n : set_nbcols (set_nbcols r n) n = set_nbcols r n.
Proof.
  destruct (set_nbcols_len r n) as [H1 H2]. rewrite set_nbcols_spec at 1. rewrite H1, H2, Nat.sub_diag. cbn [repeat]. rewrite !app_nil_r.
  rewrite !firstn_all2 by lia. destruct (set_nbcols r n) eqn:E. cbn. f_equal. 
Qed.

(** Both ways to lay out a table are the same for most purposes: [n] columns, rules of [n] columns. In the second case, cells aren't
    added before. *)
Definition rule_exact (n : nat) (removed : bool) (l : FmtLine) : Prop :=
  match l with TableRule r => length (widths (rule_cols removed n r)) = n /\ length (aligns (rule_cols removed n r)) = n | _ => True end.
Lemma groups_rules u k ws n removed t gs : Forall (rule_exact n removed) t -> Forall2 (row_group u k ws) t gs -> Forall (rule_exact n removed) (concat gs).
Proof.
  intros Ht H. induction H as [|l g t gs Hg _ IH]; [constructor|]. inversion Ht; subst. cbn. apply Forall_app. split; [|auto].
  destruct l as [|cells|r|]; cbn [row_group] in Hg; try (subst g; constructor; [assumption|constructor]).
  destruct Hg as (css & _ & ->). constructor; [exact I|]. apply Forall_map, Forall_forall. intros; exact I.
Qed.
Lemma aligned_columns removed ws r r' : Forall (row_len_le (length ws)) r -> Forall (rule_exact (length ws) removed) r ->
  Forall2 (line_aligned removed ws) r r' -> Forall (has_columns ws) r'.
Proof.
  intros H1 H2 H. induction H as [|l l' r r' Hl _ IH]; [constructor|]. inversion H1; subst. inversion H2; subst. constructor; [|auto].
  destruct l as [|cells|rule|]; cbn [line_aligned row_len_le rule_exact] in *; try tauto.
  - destruct Hl as (L & als & Ha & ->). cbn. apply spaced_columns; lia.
  - destruct Hl as (pos & -> & L1 & L2). cbn. rewrite skipn_all2 by lia. rewrite app_nil_r. split; [reflexivity|lia].
Qed.
Lemma aligned_follows removed ws f als r r' : Forall (row_len_le (length ws)) r -> Forall (rule_exact (length ws) removed) r -> length als = length ws ->
  aligned removed ws f als r r' -> follows_rules als r'.
Proof.
  intros H1 H2 Ha H. induction H as [|f als cells r r' L1 L2 IH|f als rule r r' pos L1 L2 L3 L4 IH]; [exact I|..]; inversion H1; subst; inversion H2; subst; cbn [follows_rules].
  - cbn [row_len_le] in *. split; [apply spaced_aligns; lia|auto].
  - cbn [aligns]. cbn [rule_exact] in *. rewrite firstn_all2 in IH by lia. apply IH; auto. lia.
Qed.

Lemma laid_pre t n : Forall (fun l => is_table l = true) t -> Forall (fun l => is_table l = true) (map (pad n) t) /\ Forall (rule_exact n false) (map (pad n) t) /\ Forall (rule_exact n true) t.
Proof.
  intros Ht. split; [|split].
  - apply Forall_map. eapply Forall_impl; [|exact Ht]. intros []; cbn; auto.
  - apply Forall_map. apply Forall_forall. intros [|cells|r|] _; cbn [pad rule_exact rule_cols]; auto. apply set_nbcols_len.
  - apply Forall_forall. intros [|cells|r|] _; cbn [pad rule_exact rule_cols]; auto. apply set_nbcols_len.
Qed.

(** The columns of a table *)
Lemma laid_shape u k width t t' : Forall (fun l => is_table l = true) t -> laid_out u k width t t' -> 0 < table_cols t -> 0 < width ->
  exists ws, length ws = shown_cols t width /\ Forall (fun w => 3 <= w) ws /\ sum ws + length ws + 1 <= width
    /\ Forall (has_columns ws) t' /\ follows_rules (repeat Center (length ws)) t'
    /\ (4 * table_cols t + 1 <= width -> exists tf r, tf_new (table_cols t) width = Ret (Some tf) /\ tf_fit (see_cells tf (flat_map seen_of t)) = Ret r /\ ws = col_widths r)
    /\ (width < 4 * table_cols t + 1 -> ws = repeat 3 ((width - 1) / 4)).
Proof.
  intros Ht H H0 Hw. destruct (laid_pre (table_cols t) Ht) as (P1 & P2 & _). destruct (laid_pre ((width - 1) / 4) Ht) as (_ & _ & P3).
  destruct H as [|ws gs _ L Hlen (tf & r & Etf & Er & Ews) HF Ha|ws gs L Ews HF Ha]; [lia|..].
  - exists ws. unfold shown_cols. destruct (Nat.leb_spec (4 * table_cols t + 1) width); [|lia]. split; [exact Hlen|].
    destruct (C21_fit (table_cols t) width (flat_map seen_of t) L) as (tf' & r' & Etf' & Er' & _ & H3 & _).
    assert (tf' = tf) by congruence. subst tf'. assert (r' = r) by congruence. subst r'. rewrite <- Ews in H3. split; [exact H3|].
    pose proof (C21_never_wider _ _ _ _ _ Etf Er) as Hs. rewrite <- Ews in Hs. split; [lia|].
    assert (Hr : Forall (row_len_le (length ws)) (concat gs)) by (eapply groups_len; [|exact HF]; exact P1).
    assert (He : Forall (rule_exact (length ws) false) (concat gs)) by (eapply groups_rules; [|exact HF]; rewrite Hlen; exact P2).
    split; [eapply aligned_columns; [exact Hr|exact He|eapply aligned_lines; [exact Ha|rewrite repeat_length; lia]]|].
    split; [eapply aligned_follows; [exact Hr|exact He|rewrite repeat_length; lia|rewrite Hlen; exact Ha]|]. split; [intros _; exists tf, r; auto|lia].
  - exists ws. unfold shown_cols. destruct (Nat.leb_spec (4 * table_cols t + 1) width); [lia|].
    assert (Hlen : length ws = (width - 1) / 4) by (rewrite Ews; apply repeat_length). split; [exact Hlen|].
    split; [rewrite Ews; apply Forall_forall; intros x Hx; apply repeat_spec in Hx; lia|].
    split. { assert (Hs : forall n, sum (repeat 3 n) = 3 * n) by (induction n; cbn [repeat sum]; lia). rewrite Hlen, Ews, Hs. pose proof (Nat.div_mod (width - 1) 4). lia. }
    assert (Hr : Forall (row_len_le (length ws)) (concat gs)) by (eapply groups_len; [|exact HF]; exact Ht).
    assert (He : Forall (rule_exact (length ws) true) (concat gs)) by (eapply groups_rules; [|exact HF]; rewrite Hlen; exact P3).
    split; [eapply aligned_columns; [exact Hr|exact He|eapply aligned_lines; [exact Ha|rewrite repeat_length; lia]]|].
    split; [eapply aligned_follows; [exact Hr|exact He|rewrite repeat_length; lia|exact Ha]|]. split; [lia|intros _; exact Ews].
Qed.

(** positions of rules *)
Lemma aligned_positions removed ws f als r r' : aligned removed ws f als r r' -> forall i rule, nth_error r' i = Some (TableRule rule) ->
  exists rule0, nth_error r i = Some (TableRule rule0)
  /\ position rule = (if (i =? 0) && f then Top else if S i =? length r' then Bottom else position rule0).
Proof.
  induction 1 as [|f als cells r r' H1 H2 IH|f als rule r r' pos H1 H2 H3 H4 IH]; intros [|i] ru E; cbn [nth_error length Nat.eqb] in *; try discriminate.
  - destruct (IH i ru E) as (r0 & E0 & Hp). exists r0. split; [exact E0|]. rewrite Hp. cbn [Nat.eqb andb]. rewrite andb_false_r. reflexivity.
  - injection E as <-. exists rule. split; [reflexivity|]. cbn [position andb Nat.eqb]. rewrite H3. destruct f; [reflexivity|].
    assert (Hl : length r = length r') by (clear - H4; induction H4; cbn; congruence).
    destruct r, r'; try discriminate; reflexivity.
  - destruct (IH i ru E) as (r0 & E0 & Hp). exists r0. split; [exact E0|]. rewrite Hp. cbn [Nat.eqb andb]. rewrite andb_false_r. reflexivity.
Qed.

(** ** the groups *)
Lemma Forall2_concat {A B} (R : A -> B -> Prop) gs : forall t', Forall2 R (concat gs) t' -> exists gs', t' = concat gs' /\ Forall2 (Forall2 R) gs gs'.
Proof.
  induction gs as [|g gs IH]; intros t' H; cbn in H.
  - inversion H; subst. exists []. split; [reflexivity|constructor].
  - apply Forall2_app_inv_l in H as (g' & r & H1 & H2 & ->). destruct (IH _ H2) as (gs' & -> & H3). exists (g' :: gs'). split; [reflexivity|constructor; assumption].
Qed.
Lemma nth_seq_pad {A} (d : A) l : forall nb, length l <= nb -> map (fun j => nth j l d) (seq 0 nb) = l ++ repeat d (nb - length l).
Proof.
  induction l as [|x l IH]; intros nb H.
  - cbn [length app]. rewrite Nat.sub_0_r. clear. assert (E : forall s, map (fun j => nth j (@nil A) d) (seq s nb) = repeat d nb).
    { induction nb; intros s; cbn [seq map repeat]; [reflexivity|]. rewrite IHnb. f_equal. destruct s; reflexivity. } apply E.
  - destruct nb as [|nb]; [cbn in H; lia|]. cbn [seq map nth length Nat.sub app]. f_equal. rewrite <- seq_shift, map_map. cbn [nth]. apply IH. cbn in H. lia.
Qed.
Lemma column_cons i cells g : column i (TableRow cells :: g) = match nth_error cells i with Some c => c :: column i g | None => column i g end.
Proof. unfold column. cbn. destruct (nth_error cells i); reflexivity. Qed.

Definition nb_more (css : list (list FmtComposite)) : nat := fold_right Nat.max 0 (map (fun ls => length (tl ls)) css).
Lemma column_more i css ls : nth_error css i = Some ls -> forall js,
  column i (map (fun j => TableRow (map (fun l => nth_or_new j (tl l)) css)) js) = map (fun j => nth j (tl ls) fc_new) js.
Proof.
  intros E. induction js as [|j js IH]; [reflexivity|]. cbn [map]. rewrite column_cons, nth_error_map, E. cbn. rewrite IH. reflexivity.
Qed.
Lemma column_group n css i ls : nth_error css i = Some ls -> ls <> [] ->
  column i (group_of n css) = ls ++ repeat fc_new (S (nb_more css) - length ls).
Proof.
  intros E Hne. unfold group_of. rewrite column_cons. rewrite nth_error_app1 by (rewrite map_length; apply nth_error_Some; congruence).
  rewrite nth_error_map, E. cbn [option_map]. rewrite (column_more _ _ E). fold (nb_more css).
  assert (length (tl ls) <= nb_more css) by (apply fold_max_in; apply (in_map (fun ls => length (tl ls))); eapply nth_error_In; exact E).
  rewrite nth_seq_pad by assumption. destruct ls as [|c ls]; [congruence|]. reflexivity.
Qed.
Lemma column_group_none n css i : length css <= i -> Forall (fun c => c = fc_new) (column i (group_of n css)).
Proof.
  intros H. unfold group_of. rewrite column_cons. rewrite nth_error_app2 by (rewrite map_length; exact H). rewrite map_length.
  assert (E : forall js, column i (map (fun j => TableRow (map (fun l => nth_or_new j (tl l)) css)) js) = []).
  { induction js as [|j js IH]; [reflexivity|]. cbn [map]. rewrite column_cons, nth_error_map. rewrite (proj2 (nth_error_None css i)) by exact H. exact IH. }
  rewrite E. destruct (nth_error (repeat fc_new (n - length css)) (i - length css)) as [c|] eqn:Ec; [|constructor].
  constructor; [|constructor]. apply nth_error_In in Ec. apply repeat_spec in Ec. exact Ec.
Qed.

(** columns after alignment *)
Lemma column_aligned {B} (f : FmtComposite -> B) removed ws g g' i : (forall c sp, f (with_spacing c sp) = f c) ->
  Forall (row_len_le (length ws)) g -> Forall2 (line_aligned removed ws) g g' ->
  map f (column i g') = map f (column i g).
Proof.
  intros Hf Hl H. induction H as [|l l' g g' H _ IH]; [reflexivity|]. inversion Hl; subst. destruct l as [|cells|rule|]; cbn [line_aligned row_len_le] in *; try tauto.
  - destruct H as (L & als & Ha & ->). rewrite !column_cons.
    assert (E : map f (spaced ws als cells) = map f cells) by (apply spaced_same; [exact Hf|lia..]).
    apply (f_equal (fun l => nth_error l i)) in E. rewrite !nth_error_map in E. destruct (nth_error (spaced ws als cells) i), (nth_error cells i); try discriminate; cbn [map].
    + injection E as E. rewrite E. f_equal. auto.
    + auto.
  - destruct H as (pos & -> & _). cbn. auto.
Qed.

Lemma cell_lines_inv u k c w ls : cell_lines u k c w = Ret ls -> ls <> [] /\ in_column u k w c ls.
Proof.
  unfold cell_lines, in_column. destruct (Nat.ltb_spec w (visible_length c)).
  - intros E. apply bind_Ret_inv in E as (o & E & E'). destruct o as [[|f r]|]; try discriminate. injection E' as <-. split; [discriminate|]. right. split; [assumption|exact E].
  - intros E. injection E as <-. split; [discriminate|]. left. split; [assumption|reflexivity].
Qed.
Lemma is_row_aligned removed ws g g' : Forall2 (line_aligned removed ws) g g' -> Forall (fun l => exists cells, l = TableRow cells) g -> Forall (fun l => exists cells, l = TableRow cells) g'.
Proof. induction 1 as [|l l' g g' H _ IH]; intros Hg; [constructor|]. inversion Hg as [|? ? (cells & ->) ?]; subst. destruct H as (_ & als & _ & ->). constructor; eauto. Qed.
Lemma group_rows n css : Forall (fun l => exists cells, l = TableRow cells) (group_of n css).
Proof. unfold group_of. constructor; [eauto|]. apply Forall_map, Forall_forall. eauto. Qed.
Lemma group_length n css : length (group_of n css) = S (nb_more css).
Proof. unfold group_of. cbn [length]. rewrite map_length, seq_length. reflexivity. Qed.

Lemma nb_more_lens css css0 : Forall (fun ls => ls <> []) css -> css = css0 ++ repeat [fc_new] (length css - length css0) ->
  S (nb_more css) = Nat.max 1 (fold_right Nat.max 0 (map (@length _) css0)).
Proof.
  intros Hne E. unfold nb_more. rewrite E. rewrite map_app, fold_right_app.
  assert (E0 : forall m, fold_right Nat.max 0 (map (fun ls : list FmtComposite => length (tl ls)) (repeat [fc_new] m)) = 0) by (induction m; cbn in *; lia).
  rewrite E0. clear E0. rewrite E in Hne. apply Forall_app in Hne as [Hne _]. clear E. induction css0 as [|ls css0 IH]; [reflexivity|].
  inversion Hne; subst. cbn [map fold_right]. destruct ls as [|c ls]; [congruence|]. cbn [tl length]. specialize (IH ltac:(assumption)). lia.
Qed.
Lemma combine_firstn_left {A B} (a : list A) (b : list B) : combine (firstn (length b) a) b = combine a b.
Proof. revert b. induction a as [|x a IH]; intros [|y b]; cbn; try reflexivity. rewrite IH. reflexivity. Qed.

(** [cells] are the cells of the row, [pad] the number of added ones *)
Lemma row_replaces u k removed ws cells m css g' : 
  cells_lines u k ws (firstn (length ws) (cells ++ repeat fc_new m)) css -> length ws <= m + length cells \/ m = 0 ->
  Forall2 (line_aligned removed ws) (group_of (length ws) css) g' -> replaces u k ws (TableRow cells) g'.
Proof.
  intros Hc Hm Ha. pose proof (cells_lines_length Hc) as Hlen. rewrite firstn_length in Hlen. specialize (Hlen ltac:(lia)). rewrite app_length, repeat_length in Hlen.
  pose proof (Forall2_len Ha) as Hlg. rewrite group_length in Hlg.
  assert (Hne : Forall (fun ls => ls <> []) css).
  { apply Forall_forall. intros ls Hin. destruct (Forall2_r_in Hc _ Hin) as (cw & _ & E). apply cell_lines_inv in E. apply E. }
  set (css0 := firstn (length (combine cells ws)) css). exists css0.
  assert (Hsplit : firstn (length ws) (cells ++ repeat fc_new m) = firstn (length ws) cells ++ repeat fc_new (Nat.min m (length ws - length cells))).
  { rewrite firstn_app. f_equal. clear. generalize (length ws - length cells) as n. induction m as [|m IH]; intros [|n]; cbn [repeat firstn Nat.min]; try reflexivity. f_equal. apply IH. }
  unfold cells_lines in Hc. rewrite Hsplit in Hc.
  assert (Hcomb : exists rest, combine (firstn (length ws) cells ++ repeat fc_new (Nat.min m (length ws - length cells))) ws = combine cells ws ++ rest
                  /\ Forall (fun cw => fst cw = fc_new) rest).
  { clear. revert ws. induction cells as [|c cells IH]; intros ws.
    - exists (combine (repeat fc_new (Nat.min m (length ws - 0))) ws). split; [destruct ws; reflexivity|]. apply Forall_forall. intros [c w] H. apply in_combine_l in H. apply repeat_spec in H. exact H.
    - destruct ws as [|w ws]; [exists []; split; [cbn; rewrite Nat.min_0_r; reflexivity|constructor]|]. destruct (IH ws) as (rest & E & H). exists rest. cbn [length firstn app combine Nat.sub]. rewrite E. split; [reflexivity|exact H]. }
  destruct Hcomb as (rest & Hcomb & Hrest). rewrite Hcomb in Hc. apply Forall2_app_inv_l in Hc as (l1 & l2 & Hc1 & Hc2 & Ecss).
  assert (El1 : css0 = l1). { unfold css0. rewrite Ecss. apply firstn_app_exact. apply Forall2_len in Hc1. exact Hc1. }
  assert (El2 : l2 = repeat [fc_new] (length css - length css0)).
  { rewrite El1, Ecss, app_length. replace (length l1 + length l2 - length l1) with (length l2) by lia. clear - Hc2 Hrest.
    induction Hc2 as [|[c w] ls rest l2 H _ IH]; [reflexivity|]. inversion Hrest as [|? ? E ?]; subst. cbn [fst snd] in *. subst c. unfold cell_lines in H. cbn in H. injection H as <-.
    cbn. f_equal. auto. }
  split. { rewrite El1. eapply Forall2_impl'; [|exact Hc1]. intros cw ls H. apply cell_lines_inv in H. apply H. }
  assert (Hg : length g' = Nat.max 1 (fold_right Nat.max 0 (map (@length _) css0))).
  { rewrite <- Hlg. apply nb_more_lens; [exact Hne|]. rewrite <- El2, El1. exact Ecss. }
  split; [exact Hg|]. split; [eapply is_row_aligned; [exact Ha|apply group_rows]|].
  assert (Hll : Forall (row_len_le (length ws)) (group_of (length ws) css)).
  { unfold group_of. constructor; [cbn; rewrite app_length, map_length, repeat_length; lia|]. apply Forall_map, Forall_forall. intros; cbn; rewrite map_length; lia. }
  assert (Hcol : forall i B (f : FmtComposite -> B), (forall c sp, f (with_spacing c sp) = f c) -> map f (column i g') = map f (column i (group_of (length ws) css)))
    by (intros; eapply column_aligned; eassumption).
  split.
  - intros i ls Ei. assert (Ei' : nth_error css i = Some ls).
    { rewrite Ecss. rewrite El1 in Ei. rewrite nth_error_app1; [exact Ei|]. apply nth_error_Some. congruence. }
    assert (Hls : ls <> []) by (rewrite Forall_forall in Hne; apply Hne; eapply nth_error_In; exact Ei').
    rewrite !Hcol by reflexivity. rewrite (column_group _ _ _ Ei' Hls). rewrite <- Hlg, !map_app.
    assert (Hrep : forall B (f : FmtComposite -> B) n, map f (repeat fc_new n) = repeat (f fc_new) n) by (intros B f; induction n; cbn; congruence).
    rewrite !Hrep. repeat split; reflexivity.
  - intros i Hi. assert (HN : Forall (fun c => c = fc_new) (column i (group_of (length ws) css))).
    { destruct (Nat.lt_ge_cases i (length css)) as [Hl|Hl]; [|apply column_group_none; exact Hl].
      destruct (nth_error css i) as [ls|] eqn:Ei; [|apply nth_error_None in Ei; lia].
      assert (Hls : ls = [fc_new]).
      { rewrite Ecss in Ei. apply Forall2_len in Hc1. rewrite combine_length in Hc1. rewrite nth_error_app2 in Ei by lia. apply nth_error_In in Ei. rewrite El2 in Ei. apply repeat_spec in Ei. exact Ei. }
      subst ls. rewrite (column_group _ _ _ Ei) by discriminate. cbn [app]. constructor; [reflexivity|]. apply Forall_forall. intros c H. apply repeat_spec in H. exact H. }
    clear - HN Hcol.
    assert (E1 := Hcol i _ fc_compounds (fun _ _ => eq_refl)). assert (E2 := Hcol i _ fc_kind (fun _ _ => eq_refl)). assert (E3 := Hcol i _ visible_length (fun _ _ => eq_refl)).
    clear Hcol. revert E1 E2 E3. generalize (column i g'). induction HN as [|c l Hc _ IH]; intros [|x l'] E1 E2 E3; try discriminate; constructor.
    + subst c. injection E1 as -> _. injection E2 as -> _. injection E3 as -> _. repeat split; reflexivity.
    + apply IH; cbn in *; congruence.
Qed.

Lemma laid_replaces u k width t t' : Forall (fun l => is_table l = true) t -> laid_out u k width t t' -> 0 < table_cols t -> 0 < width ->
  exists ws gs, length ws = shown_cols t width /\ Forall (has_columns ws) t' /\ t' = concat gs /\ Forall2 (replaces u k ws) t gs.
Proof.
  intros Ht H H0 Hw. destruct (laid_shape Ht H H0 Hw) as (ws0 & Hlen & _ & _ & Hcols & _ & Hall & Hcut).
  exists ws0. destruct H as [|ws gs _ L Hlen' (tf & r & Etf & Er & Ews) HF Ha|ws gs L Ews HF Ha]; [lia|..].
  - destruct (Hall L) as (tf' & r' & Etf' & Er' & Ews'). assert (tf' = tf) by congruence. subst tf'. assert (r' = r) by congruence. subst r'. rewrite <- Ews in Ews'. subst ws0.
    apply aligned_lines in Ha; [|rewrite repeat_length; lia]. apply Forall2_concat in Ha as (gs' & -> & Ha). exists gs'. split; [exact Hlen|]. split; [exact Hcols|]. split; [reflexivity|].
    clear - HF Ha Ht Hlen'. revert gs' Ha. remember (map (pad (table_cols t)) t) as tp eqn:Etp. 
    assert (Hle := cols_asked_le t). remember (table_cols t) as n eqn:En. clear En.
    revert gs tp Etp HF. induction t as [|l t IH]; intros gs tp Etp HF gs' Ha; subst tp; inversion HF as [|? g ? gs0 Hg HF']; subst; inversion Ha as [|? g' ? gs0' Hg' Ha']; subst; constructor.
    + inversion Ht as [|? ? Htl Ht']; subst. inversion Hle as [|? ? Hll Hle']; subst. destruct l as [|cells|r|]; try discriminate; cbn [pad row_group cols_asked] in *.
      * destruct Hg as (css & Hc & ->). eapply row_replaces; [exact Hc| |exact Hg']. lia.
      * subst g. inversion Hg' as [|? l' ? ? Hl' Hnil]; subst. inversion Hnil; subst. destruct Hl' as (pos & -> & _ & _). eexists. split; [reflexivity|]. cbn [aligns rule_cols]. apply set_nbcols_aligns.
    + inversion Ht; subst. inversion Hle; subst. eapply IH; [assumption|assumption|reflexivity|eassumption|assumption].
  - rewrite <- Ews in Hcut. assert (ws0 = ws) by (apply Hcut; lia). subst ws0. clear Hcut Hall.
    apply aligned_lines in Ha; [|rewrite repeat_length; lia]. apply Forall2_concat in Ha as (gs' & -> & Ha). exists gs'. split; [exact Hlen|]. split; [exact Hcols|]. split; [reflexivity|].
    clear - HF Ha Ht. revert gs' Ha. induction HF as [|l g t gs Hg _ IH]; intros gs' Ha; inversion Ha as [|? g' ? gs0' Hg' Ha']; subst; constructor.
    + inversion Ht as [|? ? Htl Ht']; subst. destruct l as [|cells|r|]; try discriminate; cbn [row_group] in *.
      * destruct Hg as (css & Hc & ->). eapply (@row_replaces u k true ws cells 0); [cbn [repeat]; rewrite app_nil_r; exact Hc| |exact Hg']. right. reflexivity.
      * subst g. inversion Hg' as [|? l' ? ? Hl' Hnil]; subst. inversion Hnil; subst. destruct Hl' as (pos & -> & _ & _). eexists. split; [reflexivity|]. cbn [aligns rule_cols]. apply set_nbcols_aligns.
    + inversion Ht; subst. apply IH; assumption.
Qed.
