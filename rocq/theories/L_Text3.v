(** * Laying out a table gives a result *)
From Verif Require Import Base L_Base M_Style M_Fit M_Wrap S_Wrap L_Wrap P_Wrap M_TblFit S_TblFit L_TblFit P_TblFit M_Text S_Text L_Text L_Text2.
Set Implicit Arguments.

Lemma cell_lines_some u k c w : 3 <= w -> lead k (fc_kind c) <= 3 -> exists ls, cell_lines u k c w = Ret ls.
Proof.
  intros Hw Hl. unfold cell_lines. destruct (Nat.ltb_spec w (visible_length c)); [|eauto].
  destruct (proj2 (C26_composite u k c w)) as (ls & E); [lia|lia|lia|]. rewrite E, bind_ret.
  destruct (C25_kinds _ _ _ _ E) as (f & o & -> & _). eauto.
Qed.
Lemma cells_lines_some u k ws : Forall (fun w => 3 <= w) ws -> forall cells, Forall (fun c => lead k (fc_kind c) <= 3) cells -> exists css, cells_lines u k ws cells css.
Proof.
  unfold cells_lines. induction 1 as [|w ws Hw _ IH]; intros cells Hc.
  - exists []. destruct cells; constructor.
  - destruct cells as [|c cells]; [exists []; constructor|]. inversion Hc; subst. destruct (IH cells) as (css & H); [assumption|].
    destruct (@cell_lines_some u k c w) as (ls & E); [assumption..|]. exists (ls :: css). constructor; assumption.
Qed.
Lemma row_groups_some u k ws t : Forall (fun w => 3 <= w) ws ->
  Forall (fun l => match l with TableRow cells => Forall (fun c => lead k (fc_kind c) <= 3) cells | _ => True end) t ->
  exists gs, Forall2 (row_group u k ws) t gs.
Proof.
  intros Hw. induction 1 as [|l t H _ (gs & IH)]; [exists []; constructor|].
  assert (exists g, row_group u k ws l g) as (g & Hg).
  { destruct l as [|cells| |]; cbn [row_group]; eauto. destruct (@cells_lines_some u k ws Hw (firstn (length ws) cells)) as (css & Hc).
    - apply Forall_forall. intros c Hin. rewrite Forall_forall in H. apply H. rewrite <- (firstn_skipn (length ws) cells). apply in_or_app. left. exact Hin.
    - eexists. exists css. split; [exact Hc|reflexivity]. }
  exists (g :: gs). constructor; assumption.
Qed.
Definition line_full (removed : bool) (n : nat) (l : FmtLine) : Prop :=
  match l with TableRow cells => n <= length cells | TableRule r => rule_exact n removed l | _ => False end.
Lemma aligned_some removed ws : forall r f als, Forall (line_full removed (length ws)) r -> exists r', aligned removed ws f als r r'.
Proof.
  induction r as [|l r IH]; intros f als H; [exists []; constructor|]. inversion H as [|? ? Hl Hr]; subst. destruct l as [|cells|rule|]; cbn [line_full rule_exact] in Hl; try tauto.
  - destruct (IH false als Hr) as (r' & E). eexists. constructor; [exact Hl|exact E].
  - destruct Hl as (H1 & H2). destruct (IH false (firstn (length ws) (aligns (rule_cols removed (length ws) rule))) Hr) as (r' & E).
    eexists. econstructor; [lia|lia|reflexivity|exact E].
Qed.
Lemma group_full removed u k ws cells css : cells_lines u k ws (firstn (length ws) cells) css -> length ws <= length cells \/ nb_more css = 0 ->
  Forall (line_full removed (length ws)) (group_of (length ws) css).
Proof.
  intros Hc H. pose proof (cells_lines_length Hc) as Hl. rewrite firstn_length in Hl. specialize (Hl ltac:(lia)). unfold group_of. constructor.
  - cbn. rewrite app_length, map_length, repeat_length. lia.
  - fold (nb_more css). destruct H as [H|H]; [|rewrite H; constructor]. apply Forall_map, Forall_forall. intros j _. cbn. rewrite map_length. lia.
Qed.
Lemma short_cells_one u k ws : Forall (fun w => 3 <= w) ws -> forall cells css, Forall (fun c => visible_length c <= 3) cells -> cells_lines u k ws cells css -> nb_more css = 0.
Proof.
  intros Hw cells css Hc H. unfold cells_lines in H. assert (Hl : Forall (fun cw => 3 <= snd cw /\ visible_length (fst cw) <= 3) (combine cells ws)).
  { apply Forall_forall. intros [c w] Hin. rewrite Forall_forall in Hw, Hc. split; [apply Hw; apply in_combine_r in Hin; exact Hin|apply Hc; apply in_combine_l in Hin; exact Hin]. }
  clear Hw Hc. induction H as [|[c w] ls cws css E _ IH]; [reflexivity|]. inversion Hl as [|? ? (H1 & H2) ?]; subst. cbn [fst snd] in *.
  unfold cell_lines in E. destruct (Nat.ltb_spec w (visible_length c)); [lia|]. injection E as <-. unfold nb_more in *. cbn. apply IH. assumption.
Qed.

Lemma laid_some u k width t : Forall (fun l => is_table l = true) t -> table_safe k width t -> exists t', laid_out u k width t t'.
Proof.
  intros Ht Hs. destruct (Nat.eq_dec (table_cols t) 0) as [E0|N0]; [exists t; constructor; auto|].
  destruct (Nat.eq_dec width 0) as [Ew|Nw]; [exists t; constructor; auto|].
  assert (Hlead : Forall (fun l => match l with TableRow cells => Forall (fun c => lead k (fc_kind c) <= 3) cells | _ => True end) t).
  { eapply Forall_impl; [|exact Hs]. intros []; cbn; tauto. }
  destruct (Nat.le_gt_cases (4 * table_cols t + 1) width) as [L|L].
  - destruct (C21_fit (table_cols t) width (flat_map seen_of t) L) as (tf & r & Etf & Er & Hlen & H3 & _).
    destruct (laid_pre (table_cols t) Ht) as (P1 & P2 & _).
    destruct (@row_groups_some u k (col_widths r) (map (pad (table_cols t)) t) H3) as (gs & HF).
    { apply Forall_map. eapply Forall_impl; [|exact Hlead]. intros [|cells| |]; cbn [pad]; auto. intros H. apply Forall_app. split; [exact H|]. apply Forall_forall. intros c Hin. apply repeat_spec in Hin. subst c. cbn. lia. }
    assert (HA : Forall (line_full false (length (col_widths r))) (concat gs)).
    { rewrite Hlen. clear - HF Ht P2 Hlen. pose proof (cols_asked_le t) as Hle. revert HF. remember (table_cols t) as n eqn:En. clear En. revert P2 gs. induction t as [|l t IH]; intros P2 gs HF; inversion HF as [|? g ? gs' Hg HF']; subst gs; subst; [constructor|].
      cbn [map] in *. inversion P2 as [|? ? P2l P2']; subst. inversion Ht as [|? ? Htl Ht']; subst. inversion Hle as [|? ? Hll Hle']; subst. cbn [concat]. apply Forall_app. split; [|auto].
      destruct l as [|cells|ru|]; try discriminate; cbn [pad row_group] in *.
      - destruct Hg as (css & Hc & ->). eapply group_full; [exact Hc|]. left. rewrite app_length, repeat_length. lia.
      - subst g. constructor; [|constructor]. exact P2l. }
    destruct (@aligned_some false (col_widths r) (concat gs) true (repeat Center (table_cols t)) HA) as (t' & E). exists t'.
    eapply lo_all; [lia|exact L|exact Hlen| |exact HF|exact E]. exists tf, r. auto.
  - set (ws := repeat 3 ((width - 1) / 4)). assert (H3 : Forall (fun w => 3 <= w) ws) by (apply Forall_forall; intros w Hin; apply repeat_spec in Hin; lia).
    assert (Hlen : length ws = (width - 1) / 4) by apply repeat_length.
    destruct (laid_pre ((width - 1) / 4) Ht) as (_ & _ & P3). destruct (@row_groups_some u k ws t H3 Hlead) as (gs & HF).
    assert (HA : Forall (line_full true (length ws)) (concat gs)).
    { rewrite <- Hlen in P3. assert (Hs' : Forall (fun l => match l with TableRow cells => length ws <= length cells \/ Forall (fun c => visible_length c <= 3) cells | _ => True end) t).
      { eapply Forall_impl; [|exact Hs]. intros [|cells| |]; auto. fold ws. rewrite Hlen. intros (_ & [H|H]); [lia|exact H]. }
      clear - HF Ht P3 H3 Hs'. induction HF as [|l g t gs Hg _ IH]; [constructor|]. inversion P3; subst. inversion Ht; subst. inversion Hs' as [|? ? Hl ?]; subst. cbn [concat]. apply Forall_app. split; [|auto].
      destruct l as [|cells|ru|]; try discriminate; cbn [row_group] in *.
      - destruct Hg as (css & Hc & ->). eapply group_full; [exact Hc|]. destruct Hl as [Hl|Hl]; [left; exact Hl|right].
        eapply short_cells_one; [exact H3| |exact Hc]. apply Forall_forall. intros c Hin. rewrite Forall_forall in Hl. apply Hl. rewrite <- (firstn_skipn (length ws) cells). apply in_or_app. left. exact Hin.
      - subst g. constructor; [|constructor]. assumption. }
    destruct (@aligned_some true ws (concat gs) true (repeat Center (length ws)) HA) as (t' & E). exists t'.
    eapply lo_cut; [lia|reflexivity|exact HF|exact E].
Qed.

Lemma by_runs_some {A} (p : A -> bool) (P : list A -> Prop) (R : list A -> list A -> Prop) : (forall t, Forall (fun l => p l = true) t -> P t -> exists t', R t t') ->
  forall l, all_runs p P l -> exists l', by_runs p R l l'.
Proof.
  intros H l. induction 1 as [|x l Hx _ (l' & IH)|t a Hn Ht Ha HP _ (l' & IH)]; [exists []; constructor|..].
  - exists (x :: l'). constructor; assumption.
  - destruct (H t Ht HP) as (t' & HR). exists (t' ++ l'). constructor; assumption.
Qed.
