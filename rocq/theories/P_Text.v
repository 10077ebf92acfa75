(** * Properties C30 to C34 and C68: tables, code blocks and texts *)
From Verif Require Import Base L_Base Demo M_Style M_Fit S_Fit L_Fit M_Wrap S_Wrap L_Wrap P_Wrap M_TblFit S_TblFit P_TblFit M_Text S_Text L_Text L_Text2 L_Text3.
Set Implicit Arguments.

(** ** C30 *)

(** Every table which is laid out gets columns: its rows and its rules have them all, and they fit in the width with their
    separators. Lines out of tables are unchanged. *)
Theorem C30_columns : forall u k lines width out, fix_all_tables u k lines width = Ret out -> 0 < width ->
  by_runs is_table (fun t t' => table_cols t = 0 /\ t' = t \/ 0 < table_cols t /\ exists ws,
    length ws = shown_cols t width /\ Forall (fun w => 3 <= w) ws /\ sum ws + length ws + 1 <= width /\ Forall (has_columns ws) t') lines out.
Proof.
  intros u k lines width out E Hw. apply fix_all_iff in E. eapply by_runs_mono; [|exact E]. cbv beta. intros t t' Ht H.
  destruct (Nat.eq_dec (table_cols t) 0) as [E0|N0].
  - left. split; [exact E0|]. destruct H as [_ ->|ws gs H0|ws gs H0]; [reflexivity|lia|lia].
  - right. split; [lia|]. destruct (laid_shape Ht H ltac:(lia) Hw) as (ws & H1 & H2 & H3 & H4 & _). eauto.
Qed.
Print Assumptions C30_columns.

(** The columns have their natural widths when there's enough width, else they are the ones found by the fitter (see C21 and C22),
    and at least 3 columns wide *)
Theorem C30_widths : forall u k lines width out, fix_all_tables u k lines width = Ret out ->
  by_runs is_table (fun t t' => 0 < table_cols t -> 4 * table_cols t + 1 <= width ->
    let cells := flat_map (fun l => match l with TableRow cells => combine (seq 0 (length cells)) (map visible_length cells) | _ => [] end) t in
    exists ws, Forall (has_columns ws) t'
    /\ Forall2 (fun w nat => w <= nat) ws (natural_widths (table_cols t) cells)
    /\ (sum (natural_widths (table_cols t) cells) + table_cols t + 1 <= width -> ws = natural_widths (table_cols t) cells)
    /\ (width < sum (natural_widths (table_cols t) cells) + table_cols t + 1 -> sum ws + table_cols t + 1 = width)) lines out.
Proof.
  intros u k lines width out E. apply fix_all_iff in E. eapply by_runs_mono; [|exact E]. cbv beta zeta. intros t t' Ht H H0 L.
  destruct (laid_shape Ht H H0 ltac:(lia)) as (ws & _ & _ & _ & H4 & _ & H5 & _). exists ws. split; [exact H4|].
  destruct (H5 L) as (tf & r & Etf & Er & ->). destruct (C21_fit (table_cols t) width (flat_map seen_of t) L) as (tf' & r' & Etf' & Er' & _ & _ & H6 & H7 & H8).
  assert (tf' = tf) by congruence. subst tf'. assert (r' = r) by congruence. subst r'. unfold seen_of, seen_cells in *. auto.
Qed.
Print Assumptions C30_widths.

Lemma column_in i g cells c : In (TableRow cells) g -> nth_error cells i = Some c -> In c (column i g).
Proof. intros H E. unfold column. apply in_flat_map. exists (TableRow cells). split; [exact H|]. rewrite E. left. reflexivity. Qed.
Lemma replaces_fit u k ws cells g : additive u -> Forall (fun w => 3 <= w) ws ->
  (forall c, In c cells -> forall ch, In ch (text_of (fc_compounds c)) -> chw u ch + lead k (next_kind (fc_kind c)) <= 3) ->
  replaces u k ws (TableRow cells) g -> forall cells' i c w, In (TableRow cells') g -> nth_error cells' i = Some c -> nth_error ws i = Some w -> visible_length c <= w.
Proof.
  intros Hu H3 Hch (css & HF & _ & _ & Hcol & Hno) cells' i c w Hin Ec Ew. pose proof (column_in _ _ _ Hin Ec) as Hc.
  destruct (nth_error cells i) as [c0|] eqn:E0.
  - assert (Ecw : nth_error (combine cells ws) i = Some (c0, w)).
    { clear - E0 Ew. revert ws i E0 Ew. induction cells as [|x cells IH]; intros [|y ws] [|i]; cbn; try discriminate; [congruence|]. apply IH. }
    destruct (nth_error css i) as [ls|] eqn:El.
    2:{ apply nth_error_None in El. rewrite <- (Forall2_len HF) in El. assert (i < length (combine cells ws)) by (apply nth_error_Some; congruence). lia. }
    assert (Hls : in_column u k w c0 ls).
    { clear - HF Ecw El. revert i Ecw El. induction HF as [|x y l l' H _ IH]; intros [|i]; cbn; try discriminate; [|apply IH]. intros E E'. injection E as ->. injection E' as ->. exact H. }
    destruct (Hcol i ls El) as (_ & _ & Hv). apply (in_map visible_length) in Hc. rewrite Hv in Hc. apply in_app_or in Hc as [Hc|Hc]; [|apply repeat_spec in Hc; lia].
    apply in_map_iff in Hc as (c' & <- & Hc). assert (Hw3 : 3 <= w) by (rewrite Forall_forall in H3; apply H3; eapply nth_error_In; exact Ew).
    destruct Hls as [(Hle & ->)|(_ & E)].
    + destruct Hc as [<-|[]]. exact Hle.
    + pose proof (C25_cached_length k c0 w Hu E) as HL. rewrite Forall_forall in HL. specialize (HL _ Hc). rewrite HL.
      pose proof (@C23_lines_fit_partial u k c0 w ls Hu E) as HS. rewrite Forall_forall in HS. apply HS; [|exact Hc].
      intros ch Hin'. specialize (Hch c0 (nth_error_In _ _ E0) ch Hin'). lia.
  - apply nth_error_None in E0. specialize (Hno i E0). rewrite Forall_forall in Hno. destruct (Hno _ Hc) as (_ & _ & ->). lia.
Qed.
(** No cell is wider than its column, as soon as a char of a cell, with what's written before it, fits in 3 columns *)
Theorem C30_cells_fit_partial : forall u k lines width out, additive u -> fix_all_tables u k lines width = Ret out -> 0 < width ->
  (forall cells c ch, In (TableRow cells) lines -> In c cells -> In ch (text_of (fc_compounds c)) -> chw u ch + lead k (next_kind (fc_kind c)) <= 3) ->
  by_runs is_table (fun t t' => table_cols t = 0 /\ t' = t \/
    forall cells, In (TableRow cells) t' -> Forall (fun c => exists w a, fc_spacing c = Some (mkSpacing w a) /\ visible_length c <= w) cells) lines out.
Proof.
  intros u k lines width out Hu E Hw Hch. apply fix_all_iff in E. revert Hch.
  induction E as [|l a b Hl _ IH|t t' a b Hn Ht Ha H _ IH]; intros Hch.
  - constructor.
  - constructor; [exact Hl|]. apply IH. intros; eapply Hch; [right|..]; eassumption.
  - constructor; [exact Hn|exact Ht|exact Ha| |apply IH; intros; eapply Hch; [apply in_or_app; right|..]; eassumption].
    destruct (Nat.eq_dec (table_cols t) 0) as [E0|N0]; [left; split; [exact E0|]; destruct H as [_ ->|ws gs H0|ws gs H0]; [reflexivity|lia|lia]|right].
    destruct (laid_replaces Ht H ltac:(lia) Hw) as (ws & gs & Hlen & Hcols & -> & HR).
    destruct (laid_shape Ht H ltac:(lia) Hw) as (ws' & Hlen' & H3 & _ & Hcols' & _).
    intros cells Hin. apply in_concat in Hin as (g & Hg & Hin). destruct (Forall2_r_in HR _ Hg) as (l & Hl & Hr).
    assert (Hhc : has_columns ws (TableRow cells)) by (rewrite Forall_forall in Hcols; apply Hcols, in_concat; eauto).
    assert (Hhc' : has_columns ws' (TableRow cells)) by (rewrite Forall_forall in Hcols'; apply Hcols', in_concat; eauto). cbn [has_columns] in *.
    assert (ws' = ws).
    { clear - Hhc Hhc'. revert ws' Hhc'. induction Hhc as [|c w cells ws (al & E) _ IH]; intros ws' H; inversion H as [|? w' ? ws'' (a' & E') H']; subst; [reflexivity|]. f_equal; [congruence|]. apply IH. assumption. }
    subst ws'. destruct l as [|cells0|ru|]; cbn [replaces] in Hr; try tauto.
    2:{ destruct Hr as (r' & -> & _). destruct Hin as [H'|[]]. discriminate. }
    apply Forall_forall. intros c Hc. apply In_nth_error in Hc as (i & Ei).
    assert (exists w al, nth_error ws i = Some w /\ fc_spacing c = Some (mkSpacing w al)) as (w & al & Ew & Es).
    { clear - Hhc Ei. revert i Ei. induction Hhc as [|x w cells ws (al & E) _ IH]; intros [|i]; cbn; try discriminate; [|apply IH]. intros H. injection H as ->. eauto. }
    exists w, al. split; [exact Es|]. eapply (@replaces_fit u k ws cells0 g Hu H3); [|exact Hr|exact Hin|exact Ei|exact Ew].
    intros c0 Hc0 ch Hch0. eapply Hch; [apply in_or_app; left; exact Hl|exact Hc0|exact Hch0].
Qed.
Print Assumptions C30_cells_fit_partial.

Definition cell (s : str) : MComposite := mkMC MParagraph [plain s].
Definition letters (n : nat) : str := repeat 97%N n.
Definition rule (als : list Alignment) : MLine := MTableRule als.
Definition row (ns : list nat) : MLine := MTableRow (map (fun n => cell (letters n)) ns).
Definition prose (n : nat) : MLine := MNormal (mkMC MParagraph [plain (letters n)]).
(** Two tables, the first one being ragged, in 20 columns *)
Definition two_tables : list MLine :=
  [prose 3; rule [ALeft; ARight]; row [4; 12; 5]; row [2]; prose 40; row [1; 2]; row [30; 1]; rule []].
Definition shape (l : FmtLine) : nat * list nat := match l with
  | Normal fc => (0, [visible_length fc]) | TableRow cells => (1, map visible_length cells) | TableRule r => (2, widths r) | HorizontalRule => (3, []) end.
Example C30_example : exists out, fix_all_tables demo skin_default (map (line_from demo skin_default) two_tables) 20 = Ret out
  /\ map shape out = [(0, [3]); (2, [4; 7; 5]); (1, [4; 7; 5]); (1, [0; 5; 0]); (1, [2; 0; 0]); (0, [40]); (1, [1; 2]); (1, [14; 1]); (1, [14; 0]); (1, [2; 0]); (2, [14; 3])].
Proof. eexists. split; [vm_compute; reflexivity|]. vm_compute. reflexivity. Qed.
(** A list item in a cell (a cell made by the program, not parsed): the bullet makes the cell wider than its column *)
Theorem C30_cells_fit_refuted : exists cells out c w a, fix_all_tables demo skin_default [TableRow cells] 5 = Ret out
  /\ In (TableRow [c]) out /\ fc_spacing c = Some (mkSpacing w a) /\ w < visible_length c.
Proof.
  exists [item 1 [97; 98]%N]. eexists. eexists. eexists. eexists. split; [vm_compute; reflexivity|]. split; [right; left; reflexivity|]. split; [reflexivity|]. vm_compute. lia.
Qed.

(** ** C31 *)

(** The lines [g] replacing a row contain, in the column of each cell, the lines of this cell, then nothing: see [replaces] *)
Theorem C31_replaced : forall u k lines width out, fix_all_tables u k lines width = Ret out -> 0 < width ->
  by_runs is_table (fun t t' => table_cols t = 0 /\ t' = t \/
    exists ws gs, length ws = shown_cols t width /\ Forall (has_columns ws) t' /\ t' = concat gs /\ Forall2 (replaces u k ws) t gs) lines out.
Proof.
  intros u k lines width out E Hw. apply fix_all_iff in E. eapply by_runs_mono; [|exact E]. cbv beta. intros t t' Ht H.
  destruct (Nat.eq_dec (table_cols t) 0) as [E0|N0].
  - left. split; [exact E0|]. destruct H as [_ ->|ws gs H0|ws gs H0]; [reflexivity|lia|lia].
  - right. apply (laid_replaces Ht H); lia.
Qed.
Print Assumptions C31_replaced.

(** The text of the column [i] of some lines *)
Definition column_styled (i : nat) (g : list FmtLine) : list (char * (bool * bool * bool * bool)) := flat_map (fun c => styled (fc_compounds c)) (column i g).
(** In a width allowing all the columns, the column of a cell, over the rows replacing its row, has the text of the cell, with its
    style, but for some whitespaces *)
Theorem C31_text : forall u k lines width out, fix_all_tables u k lines width = Ret out ->
  by_runs is_table (fun t t' => 4 * table_cols t + 1 <= width -> exists gs, t' = concat gs /\
    Forall2 (fun l g => match l with
      | TableRow cells => 1 <= length g /\ Forall (fun l => exists cells, l = TableRow cells) g
          /\ forall i, i < table_cols t ->
             thinned u (match nth_error cells i with Some c => styled (fc_compounds c) | None => [] end) (column_styled i g)
      | TableRule r => exists r', g = [TableRule r'] /\ forall i, i < table_cols t -> nth i (aligns r') Unspecified = nth i (aligns r) Unspecified
      | _ => False
      end) t gs) lines out.
Proof.
  intros u k lines width out E. apply fix_all_iff in E. eapply by_runs_mono; [|exact E]. cbv beta. intros t t' Ht H L.
  destruct (Nat.eq_dec (table_cols t) 0) as [E0|N0].
  { assert (t' = t) by (destruct H as [_ ->|ws gs H0|ws gs H0]; [reflexivity|lia|lia]). subst t'. exists (map (fun l => [l]) t).
    split; [clear; induction t; cbn; congruence|]. rewrite E0. clear -Ht. induction Ht as [|l t Hl _ IH]; cbn [map]; constructor; [|exact IH].
    destruct l; try discriminate; [split; [cbn; lia|]; split; [repeat constructor; eauto|intros; lia]|]. eexists. split; [reflexivity|]. intros; lia. }
  destruct (laid_replaces Ht H ltac:(lia) ltac:(lia)) as (ws & gs & Hlen & _ & -> & HR). exists gs. split; [reflexivity|].
  unfold shown_cols in Hlen. destruct (Nat.leb_spec (4 * table_cols t + 1) width); [|lia]. pose proof (cols_asked_le t) as Hle. rewrite <- Hlen in *.
  clear - HR Hle. induction HR as [|l g t gs Hr _ IH]; constructor; [|inversion Hle; auto]. inversion Hle as [|? ? Hl _]; subst.
  destruct l as [|cells|r|]; cbn [replaces cols_asked] in *; try tauto.
  - destruct Hr as (css & HF & Hg & Hrow & Hcol & Hno). split; [lia|]. split; [exact Hrow|]. intros i Hi. unfold column_styled.
    pose proof (Forall2_len HF) as Hlc. rewrite combine_length in Hlc.
    assert (Hmap : forall a b : list FmtComposite, map fc_compounds a = map fc_compounds b -> flat_map (fun c => styled (fc_compounds c)) a = flat_map (fun c => styled (fc_compounds c)) b).
    { intros a b Eab. rewrite !flat_map_concat_map. f_equal. rewrite <- (map_map fc_compounds styled), Eab, map_map. reflexivity. }
    destruct (nth_error cells i) as [c|] eqn:Ec.
    + assert (i < length cells) by (apply nth_error_Some; congruence). destruct (nth_error css i) as [ls|] eqn:El; [|apply nth_error_None in El; lia].
      destruct (Hcol i ls El) as (Hc & _). rewrite (Hmap _ (ls ++ repeat fc_new (length g - length ls))).
      2:{ rewrite map_app, Hc. f_equal. clear. induction (length g - length ls); cbn; congruence. }
      rewrite flat_map_app. replace (flat_map _ (repeat fc_new _)) with (@nil (char * (bool * bool * bool * bool))) by (clear; induction (length g - length ls); cbn; congruence).
      rewrite app_nil_r.
      assert (exists w, in_column u k w c ls) as (w & [(_ & ->)|(_ & E)]).
      { clear - HF Ec El Hi Hl Hlc. assert (exists w, nth_error (combine cells ws) i = Some (c, w)) as (w & Ew).
        { clear - Ec Hi. revert ws i Ec Hi. induction cells as [|x cells IH]; intros [|w ws] [|i]; cbn; try discriminate; try lia; [intros H; injection H as ->; eauto|]. intros Ec Hi. apply IH; [exact Ec|lia]. }
        exists w. clear - HF Ew El. revert i Ew El. induction HF as [|x y l l' H _ IH]; intros [|i]; cbn; try discriminate; [|apply IH]. intros E E'. injection E as ->. injection E' as ->. exact H. }
      * cbn [flat_map]. rewrite app_nil_r. apply thinned_refl.
      * eapply C24_text_kept. exact E.
    + apply nth_error_None in Ec. specialize (Hno i Ec). replace (flat_map _ _) with (@nil (char * (bool * bool * bool * bool))); [constructor|].
      clear - Hno. induction Hno as [|c l (Hc & _) _ IH]; [reflexivity|]. cbn [flat_map]. rewrite Hc. exact IH.
  - destruct Hr as (r' & -> & Ha). exists r'. split; [reflexivity|]. intros i Hi. rewrite Ha. unfold rule_aligns.
    assert (Hn : forall A (d : A) l n i, i < n -> nth i (firstn n (l ++ repeat d n)) d = nth i l d).
    { clear. intros A d. induction l as [|x l IH]; intros [|n] i Hi; try lia.
      - cbn [app]. replace (nth i (@nil A) d) with d by (destruct i; reflexivity). generalize (repeat_length d (S n)). generalize (S n). intros m Em.
        assert (Hr : forall x, In x (firstn m (repeat d m)) -> x = d). { intros x Hx. assert (In x (repeat d m)) by (rewrite <- (firstn_skipn m (repeat d m)); apply in_or_app; left; exact Hx). eapply repeat_spec; eassumption. }
        destruct (Nat.lt_ge_cases i (length (firstn m (repeat d m)))) as [L|L]; [apply Hr, nth_In, L|apply nth_overflow, L].
      - destruct i as [|i]; [reflexivity|]. cbn [app firstn nth]. rewrite <- (IH n i) by lia. f_equal. 
        replace (repeat d (S n)) with (repeat d n ++ [d]) by (clear; induction n; cbn in *; congruence).
        rewrite app_assoc, firstn_app. replace (n - length (l ++ repeat d n)) with 0 by (rewrite app_length, repeat_length; lia). cbn. apply app_nil_r. }
    apply Hn. exact Hi.
Qed.
Print Assumptions C31_text.
Example C31_example : exists out, fix_all_tables demo skin_default (map (line_from demo skin_default) [row [1; 10]; row [2; 1]]) 9 = Ret out
  /\ map (fun l => match l with TableRow cells => map (fun c => text_of (fc_compounds c)) cells | _ => [] end) out
   = [[letters 1; letters 3]; [[]; letters 3]; [[]; letters 3]; [[]; letters 1]; [letters 2; letters 1]].
Proof. eexists. split; [vm_compute; reflexivity|]. vm_compute. reflexivity. Qed.

(** ** C32 *)

(** Without hypothesis: whether the layout panics is only a matter of each table, and tables with enough width, or with full
    rows, or with short cells, don't panic *)
Theorem C32_no_panic_partial : forall u k lines width, all_runs is_table (table_safe k width) lines ->
  exists out, fix_all_tables u k lines width = Ret out.
Proof.
  intros u k lines width H. destruct (@by_runs_some _ is_table (table_safe k width) (laid_out u k width)) with (l := lines) as (out & E).
  - intros t Ht Hs. apply laid_some; assumption.
  - exact H.
  - exists out. apply fix_all_iff. exact E.
Qed.
Print Assumptions C32_no_panic_partial.

Lemma wide_safe k lines width : (forall cells c, In (TableRow cells) lines -> In c cells -> fc_kind c = KParagraph) ->
  (forall l, In l lines -> 4 * cols_asked l + 1 <= width) -> all_runs is_table (table_safe k width) lines.
Proof.
  assert (Hsz : forall l, sized table_size l = is_table l) by (intros []; reflexivity).
  induction lines as [|x l Hx IH|t a Hn Ht Ha IH] using (runs_ind table_size); intros Hk Hc.
  - constructor.
  - constructor; [rewrite <- Hsz; exact Hx|]. apply IH; intros; [eapply Hk; [right|]; eassumption|apply Hc; right; assumption].
  - constructor; [exact Hn|eapply Forall_impl; [|exact Ht]; intros x; cbv beta; rewrite Hsz; auto|destruct a; [exact I|cbn in *; rewrite <- Hsz; exact Ha]| |apply IH; intros; [eapply Hk; [apply in_or_app; right|]; eassumption|apply Hc, in_or_app; right; assumption]].
    apply Forall_forall. intros [|cells| |] Hin; auto. split.
    + apply Forall_forall. intros c Hin'. rewrite (Hk cells c); [cbn; lia|apply in_or_app; left; exact Hin|exact Hin'].
    + left. assert (Hm : table_cols t <= (width - 1) / 4).
      { assert (forall l, In l t -> cols_asked l <= (width - 1) / 4).
        { intros l Hl. specialize (Hc l ltac:(apply in_or_app; left; exact Hl)). apply Nat.div_le_lower_bound; lia. }
        clear - H. revert H. generalize ((width - 1) / 4). intros m H. unfold table_cols. induction t as [|l t IH]; cbn; [lia|]. pose proof (H l (or_introl eq_refl)). specialize (IH ltac:(intros; apply H; right; assumption)). lia. }
      specialize (Hc (TableRow cells) ltac:(apply in_or_app; left; exact Hin)).
      pose proof (Nat.div_mod (width - 1) 4 ltac:(lia)). lia.
Qed.
(** Tables of plain paragraphs never panic when the width allows all their columns *)
Theorem C32_wide_enough : forall u k lines width, (forall cells c, In (TableRow cells) lines -> In c cells -> fc_kind c = KParagraph) ->
  (forall l, In l lines -> 4 * cols_asked l + 1 <= width) -> exists out, fix_all_tables u k lines width = Ret out.
Proof.
  intros u k lines width Hk Hc. apply C32_no_panic_partial, wide_safe; assumption.
Qed.
Print Assumptions C32_wide_enough.

(** A table with 5 columns in 13 columns: 3 columns are kept; the row inserted for the long cell of a short row doesn't have 3 cells *)
Theorem C32_refuted : exists text width, 3 <= width /\ fix_all_tables demo skin_default (map (line_from demo skin_default) text) width = Panic
  /\ from_text demo skin_default 1000 text (Some width) = Panic.
Proof. exists [row [1; 1; 1; 1; 1]; row [10]], 13. split; [lia|]. split; vm_compute; reflexivity. Qed.
(** The same table in one more column per cell doesn't panic *)
Example C32_example : exists out, fix_all_tables demo skin_default (map (line_from demo skin_default) [row [1; 1; 1; 1; 1]; row [10]]) 21 = Ret out
  /\ map shape out = [(1, [1;1;1;1;1]); (1, [3; 0; 0; 0; 0]); (1, [3; 0; 0; 0; 0]); (1, [3; 0; 0; 0; 0]); (1, [1; 0; 0; 0; 0])].
Proof. eexists. split; [vm_compute; reflexivity|]. vm_compute. reflexivity. Qed.

(** ** C33 *)
Lemma groups_position u k ws t gs : Forall (fun l => match l with TableRule r => position r = Other | _ => True end) t ->
  Forall2 (row_group u k ws) t gs -> Forall (fun l => match l with TableRule r => position r = Other | _ => True end) (concat gs).
Proof.
  intros Ht H. induction H as [|l g t gs Hg _ IH]; [constructor|]. inversion Ht; subst. cbn. apply Forall_app. split; [|auto].
  destruct l as [|cells|r|]; cbn [row_group] in Hg; try (subst g; constructor; [assumption|constructor]).
  destruct Hg as (css & _ & ->). constructor; [exact I|]. apply Forall_map, Forall_forall. intros; exact I.
Qed.
(** In the texts to format, the position of rules is [Other] *)
Theorem C33_position_before : forall u k text r, In (TableRule r) (map (line_from u k) text) -> position r = Other /\ widths r = [].
Proof. intros u k text r H. apply in_map_iff in H as ([] & E & _); try discriminate; cbn in E; injection E as <-; split; reflexivity. Qed.
Print Assumptions C33_position_before.
Theorem C33_positions : forall u k lines width out, fix_all_tables u k lines width = Ret out -> 0 < width ->
  (forall r, In (TableRule r) lines -> position r = Other) ->
  by_runs is_table (fun t t' => table_cols t = 0 /\ t' = t \/
    exists ws, Forall (has_columns ws) t' /\ forall i r, nth_error t' i = Some (TableRule r) ->
      widths r = ws /\ (position r = Top <-> i = 0) /\ (position r = Bottom <-> i <> 0 /\ S i = length t')) lines out.
Proof.
  intros u k lines width out E Hw Hp. apply fix_all_iff in E. revert Hp.
  induction E as [|l a b Hl _ IH|t t' a b Hn Ht Ha H _ IH]; intros Hp.
  - constructor.
  - constructor; [exact Hl|]. apply IH. intros; apply Hp; right; assumption.
  - constructor; [exact Hn|exact Ht|exact Ha| |apply IH; intros; apply Hp, in_or_app; right; assumption].
    destruct (Nat.eq_dec (table_cols t) 0) as [E0|N0]; [left; split; [exact E0|]; destruct H as [_ ->|ws gs H0|ws gs H0]; [reflexivity|lia|lia]|right].
    destruct (laid_shape Ht H ltac:(lia) Hw) as (ws' & _ & _ & _ & Hcols & _). exists ws'. split; [exact Hcols|]. intros i r Er.
    assert (Hwr : widths r = ws') by (rewrite Forall_forall in Hcols; apply nth_error_In in Er; apply Hcols in Er; apply Er). split; [exact Hwr|].
    assert (Hp' : Forall (fun l => match l with TableRule r => position r = Other | _ => True end) t).
    { apply Forall_forall. intros [| |r0|] Hin; auto. apply Hp, in_or_app. left. exact Hin. }
    assert (Hpos : position r = if i =? 0 then Top else if S i =? length t' then Bottom else Other).
    { destruct H as [|ws gs _ _ _ _ HF Hal|ws gs _ _ HF Hal]; [lia|..]; destruct (aligned_positions Hal _ Er) as (r0 & E0 & ->); rewrite andb_true_r.
      - apply groups_position in HF; [|apply Forall_map; eapply Forall_impl; [|exact Hp']; intros [|cells|r1|]; cbn [pad]; auto; rewrite set_nbcols_spec; auto].
        rewrite Forall_forall in HF. apply nth_error_In in E0. apply HF in E0. rewrite E0. reflexivity.
      - apply groups_position in HF; [|exact Hp']. rewrite Forall_forall in HF. apply nth_error_In in E0. apply HF in E0. rewrite E0. reflexivity. }
    rewrite Hpos. destruct (Nat.eqb_spec i 0), (Nat.eqb_spec (S i) (length t')); split; split; try discriminate; try lia; auto.
Qed.
Print Assumptions C33_positions.
Example C33_example : exists out, fix_all_tables demo skin_default (map (line_from demo skin_default) [rule [ALeft]; row [3]; rule []; row [3]; rule []; prose 2; rule [Center]]) 20 = Ret out
  /\ flat_map (fun l => match l with TableRule r => [(position r, widths r)] | _ => [] end) out = [(Top, [3]); (Other, [3]); (Bottom, [3]); (Top, [3])].
Proof. eexists. split; [vm_compute; reflexivity|]. vm_compute. reflexivity. Qed.

(** ** C34 *)
Definition code_length (l : FmtLine) : nat := match l with Normal fc => visible_length fc | _ => 0 end.
Lemma justify_pos pre t post n : justify (mkTable (length pre) (length t) n) (pre ++ t ++ post) = pre ++ map (justify_line n) t ++ post.
Proof.
  unfold justify. cbn [tb_start tb_height tb_nbcols]. rewrite firstn_app_exact, skipn_app_exact by reflexivity. rewrite firstn_app_exact, skipn_app_exact by reflexivity. reflexivity.
Qed.
(** The lines of a block get a spacing which is the biggest length of those lines, with a left alignment. Nothing else changes. *)
Theorem C34_justified : forall lines, 
  by_runs is_code (fun t t' => exists w, (forall l, In l t -> code_length l <= w) /\ (exists l, In l t /\ code_length l = w)
    /\ Forall2 (fun l l' => exists fc, l = Normal fc /\ l' = Normal (mkFC (fc_kind fc) (fc_compounds fc) (visible_length fc) (Some (mkSpacing w ALeft)))) t t')
    lines (justify_blocks lines).
Proof.
  intros lines. destruct (@fold_runs_fwd _ code_line_length justify justify_line) with (l := lines) (pre := @nil FmtLine) as (l' & E & H).
  { intros pre t post. apply justify_pos. }
  cbn [app length] in E. unfold justify_blocks, find_blocks. rewrite E.
  assert (Hsz : forall l, sized code_line_length l = is_code l) by (intros [fc| | |]; try reflexivity; unfold sized, code_line_length, is_code; destruct (fc_kind fc); reflexivity).
  assert (Hm : forall t, Forall (fun l => is_code l = true) t -> max_size code_line_length t = fold_right Nat.max 0 (map code_length t)).
  { induction 1 as [|l t Hl _ IH]; [reflexivity|]. unfold max_size in *. cbn [map fold_right]. rewrite IH. f_equal. unfold size_of. destruct l as [fc| | |]; try discriminate. cbn in *. destruct (fc_kind fc); try discriminate. reflexivity. }
  clear E. induction H as [|l a b Hl _ IH|t t' a b Hn Ht Ha -> _ IH]; [constructor|..].
  - constructor; [rewrite <- Hsz; exact Hl|exact IH].
  - assert (Ht' : Forall (fun l => is_code l = true) t) by (eapply Forall_impl; [|exact Ht]; intros x; cbv beta; rewrite Hsz; auto).
    constructor; [exact Hn|exact Ht'|destruct a; [exact I|cbn in *; rewrite <- Hsz; exact Ha]| |exact IH].
    exists (max_size code_line_length t). rewrite (Hm _ Ht'). split; [|split].
    + intros l Hl. apply fold_max_in, in_map, Hl.
    + clear - Hn. assert (H : exists n, In n (map code_length t) /\ n = fold_right Nat.max 0 (map code_length t)).
      { destruct t as [|l t]; [congruence|]. cbn [map]. generalize (map code_length t) (code_length l). clear. induction l as [|y l IH]; intros x; cbn; [exists x; split; [tauto|lia]|].
        destruct (IH y) as (n & Hin & E). cbn in E. destruct (Nat.le_gt_cases n x).
        - exists x. split; [tauto|]. lia.
        - exists n. cbn in Hin. split; [tauto|]. lia. }
      destruct H as (n & Hin & <-). apply in_map_iff in Hin as (l & <- & Hl). exists l. split; [exact Hl|reflexivity].
    + clear - Ht'. generalize (fold_right Nat.max 0 (map code_length t)) as w. intros w. induction Ht' as [|l t Hl _ IH]; cbn [map]; constructor; [|exact IH].
      destruct l as [fc| | |]; try discriminate. exists fc. split; reflexivity.
Qed.
Print Assumptions C34_justified.
Definition code (n : nat) : MLine := MNormal (mkMC MCode [mkCompound (letters n) false false true false]).
Example C34_example : map (fun l => match l with Normal fc => option_map sp_width (fc_spacing fc) | _ => None end)
   (justify_blocks (map (line_from demo skin_default) [code 3; code 7; prose 9; code 2; MHorizontalRule; code 4; code 1]))
  = [Some 7; Some 7; None; Some 2; None; Some 4; Some 4].
Proof. vm_compute. reflexivity. Qed.

(** ** C68: alignment of the cells *)
Theorem C68_alignments : forall u k lines width out, fix_all_tables u k lines width = Ret out -> 0 < width ->
  by_runs is_table (fun t t' => table_cols t = 0 /\ t' = t \/
    follows_rules (repeat Center (shown_cols t width)) t') lines out.
Proof.
  intros u k lines width out E Hw. apply fix_all_iff in E. eapply by_runs_mono; [|exact E]. cbv beta. intros t t' Ht H.
  destruct (Nat.eq_dec (table_cols t) 0) as [E0|N0].
  - left. split; [exact E0|]. destruct H as [_ ->|ws gs H0|ws gs H0]; [reflexivity|lia|lia].
  - right. destruct (laid_shape Ht H ltac:(lia) Hw) as (ws & H1 & _ & _ & _ & H5 & _). rewrite <- H1. exact H5.
Qed.
Print Assumptions C68_alignments.
Example C68_example : exists out, fix_all_tables demo skin_default (map (line_from demo skin_default) [row [3; 3]; rule [ALeft]; row [3; 3]; rule [ARight; Center]; row [3]]) 20 = Ret out
  /\ flat_map (fun l => match l with TableRow cells => [map (fun c => option_map sp_align (fc_spacing c)) cells] | _ => [] end) out
   = [[Some Center; Some Center]; [Some ALeft; Some Unspecified]; [Some ARight; Some Center]].
Proof. eexists. split; [vm_compute; reflexivity|]. vm_compute. reflexivity. Qed.

(** ** C32, C69: formatting a text *)
Definition line_ok (k : MadSkin) (width : nat) (l : FmtLine) : Prop :=
  match l with
  | Normal fc => good_kind (fc_kind fc) /\ forall lm rm, margins_of k (fc_kind fc) width lm rm -> lead k (fc_kind fc) + lm + rm <= width
  | _ => True
  end.
Lemma laid_line_ok u k width w t t' : Forall (fun l => is_table l = true) t -> laid_out u k w t t' -> Forall (line_ok k width) t'.
Proof.
  intros Ht H. destruct (Nat.eq_dec (table_cols t) 0) as [E0|N0]; [|destruct (Nat.eq_dec w 0) as [Ew|Nw]].
  - assert (t' = t) by (destruct H as [_ ->|ws gs H0|ws gs H0]; [reflexivity|lia|lia]). subst t'. eapply Forall_impl; [|exact Ht]. intros []; cbn; tauto || discriminate.
  - assert (t' = t) by (destruct H as [_ ->|ws gs H0|ws gs H0]; [reflexivity|lia|lia]). subst t'. eapply Forall_impl; [|exact Ht]. intros []; cbn; tauto || discriminate.
  - destruct (laid_shape Ht H ltac:(lia) ltac:(lia)) as (ws & _ & _ & _ & H4 & _). eapply Forall_impl; [|exact H4]. intros []; cbn; tauto.
Qed.
Lemma by_runs_Forall {A} (p : A -> bool) (R : list A -> list A -> Prop) (P Q : A -> Prop) : (forall t t', Forall (fun l => p l = true) t -> Forall P t -> R t t' -> Forall Q t') -> (forall l, p l = false -> P l -> Q l) ->
  forall a b, by_runs p R a b -> Forall P a -> Forall Q b.
Proof.
  intros H1 H2 a b. induction 1 as [|l a b Hl _ IH|t t' a b Hn Ht Ha H _ IH]; intros HP; [constructor|..].
  - inversion HP; subst. constructor; auto.
  - apply Forall_app in HP as [HP1 HP2]. apply Forall_app. split; [eapply H1; eassumption|auto].
Qed.
(** A text in 3 columns or more doesn't panic, when its tables are safe and when the bullets and margins of its lines fit *)
Theorem C32_text_no_panic_partial : forall u k usize_max text width, skin_ok k ->
  all_runs is_table (table_safe k width) (map (line_from u k) text) -> Forall (line_ok k width) (map (line_from u k) text) ->
  exists t, from_text u k usize_max text (Some width) = Ret t /\ txt_width t = Some width.
Proof.
  intros u k um text width Hk Hs Hl. destruct (C32_no_panic_partial u Hs) as (l1 & E). unfold from_text. rewrite E, bind_ret.
  destruct (Nat.leb_spec 3 width) as [H3|H3]; [|eexists; split; reflexivity].
  assert (Hl1 : Forall (line_ok k width) l1).
  { apply fix_all_iff in E. eapply by_runs_Forall; [| |exact E|exact Hl]; [|auto]. intros t t' Ht _ H. eapply laid_line_ok; eassumption. }
  assert (Hl2 : Forall (line_ok k width) (justify_blocks l1)).
  { eapply by_runs_Forall; [| |apply C34_justified|exact Hl1]; [|auto]. cbv beta. intros t t' _ HP (w & _ & _ & HF). clear - HP HF.
    induction HF as [|l l' t t' (fc & -> & ->) _ IH]; [constructor|]. inversion HP; subst. constructor; [assumption|auto]. }
  destruct (@C26_no_panic_partial u k (justify_blocks l1) width Hk) as (l3 & E3).
  - eapply Forall_impl; [|exact Hl2]. intros []; cbn; tauto.
  - exact H3.
  - intros fc lm rm Hin Hm. rewrite Forall_forall in Hl2. apply Hl2 in Hin. apply Hin. exact Hm.
  - rewrite E3, bind_ret. eexists. split; reflexivity.
Qed.
Print Assumptions C32_text_no_panic_partial.

(** The lines of a text before the tables are fixed *)
Theorem C69_lines : forall u k l, match l, line_from u k l with
  | MNormal c, Normal fc => fc_compounds fc = mc_compounds c /\ fc_kind fc = kind_of (mc_style c) /\ fc_spacing fc = None
  | MTableRow cells, TableRow cells' => Forall2 (fun c fc => fc_compounds fc = mc_compounds c /\ fc_kind fc = kind_of (mc_style c) /\ fc_spacing fc = None) cells cells'
  | MTableRule als, TableRule r => aligns r = als
  | MHorizontalRule, HorizontalRule => True
  | MCodeFence, HorizontalRule => True
  | _, _ => False
  end.
Proof.
  intros u k []; cbn; auto. induction cells; cbn; constructor; auto.
Qed.
Print Assumptions C69_lines.

Lemma laid_tables u k w t t' : Forall (fun l => is_table l = true) t -> laid_out u k w t t' -> Forall (fun l => is_table l = true) t'.
Proof.
  intros Ht H. destruct (Nat.eq_dec (table_cols t) 0) as [E0|N0]; [|destruct (Nat.eq_dec w 0) as [Ew|Nw]].
  - assert (t' = t) by (destruct H as [_ ->|ws gs H0|ws gs H0]; [reflexivity|lia|lia]). subst t'. exact Ht.
  - assert (t' = t) by (destruct H as [_ ->|ws gs H0|ws gs H0]; [reflexivity|lia|lia]). subst t'. exact Ht.
  - destruct (laid_shape Ht H ltac:(lia) ltac:(lia)) as (ws & _ & _ & _ & H4 & _). eapply Forall_impl; [|exact H4]. intros []; cbn; tauto.
Qed.
Lemma prose_app a b : prose_of (a ++ b) = prose_of a ++ prose_of b.
Proof. apply flat_map_app. Qed.
Lemma prose_tables t : Forall (fun l => is_table l = true) t -> prose_of t = [].
Proof. induction 1 as [|l t H _ IH]; [reflexivity|]. unfold prose_of in *. cbn. rewrite IH. destruct l; try discriminate; reflexivity. Qed.
(** Whatever the width and the tables, the text out of tables, with its style, is kept but for some whitespaces; and nothing is
    changed when no width is given, or when it's too small *)
Theorem C69_prose_kept : forall u k usize_max text width t, from_text u k usize_max text width = Ret t ->
  thinned u (prose_of (map (line_from u k) text)) (prose_of (txt_lines t)) /\ txt_width t = width
  /\ (match width with None => True | Some w => w < 3 end -> prose_of (txt_lines t) = prose_of (map (line_from u k) text)).
Proof.
  intros u k um text width t E. unfold from_text in E. apply bind_Ret_inv in E as (l1 & E1 & E). apply fix_all_iff in E1.
  assert (H1 : prose_of l1 = prose_of (map (line_from u k) text)).
  { clear E. revert E1. generalize (map (line_from u k) text). intros l. induction 1 as [|x a b Hx _ IH|t0 t' a b Hn Ht Ha H _ IH]; [reflexivity|..].
    - change (prose_of ([x] ++ b) = prose_of ([x] ++ a)). rewrite !prose_app, IH. reflexivity.
    - rewrite !prose_app, IH. rewrite (prose_tables Ht), (prose_tables (laid_tables Ht H)). reflexivity. }
  assert (H2 : prose_of (justify_blocks l1) = prose_of l1).
  { clear E E1 H1. pose proof (C34_justified l1) as H. revert H. generalize (justify_blocks l1). intros l2. induction 1 as [|x a b Hx _ IH|t0 t' a b Hn Ht Ha H _ IH]; [reflexivity|..].
    - change (prose_of ([x] ++ b) = prose_of ([x] ++ a)). rewrite !prose_app, IH. reflexivity.
    - rewrite !prose_app, IH. f_equal. destruct H as (w & _ & _ & HF). clear - HF. induction HF as [|l l' t t' (fc & -> & ->) _ IH]; [reflexivity|]. unfold prose_of in *. cbn. rewrite IH. reflexivity. }
  rewrite <- H1, <- H2. destruct width as [w|].
  - destruct (Nat.leb_spec 3 w) as [H3|H3].
    + apply bind_Ret_inv in E as ([l3|] & E3 & E); [|discriminate]. injection E as <-. cbn [txt_lines txt_width]. split; [|split; [reflexivity|lia]].
      apply C26_lines in E3 as (gs & -> & HF). clear - HF. induction HF as [|l g ls gs Hg _ IH]; [constructor|].
      cbn [concat]. change (l :: ls) with ([l] ++ ls). rewrite !prose_app.
      assert (Hl : thinned u (prose_of [l]) (prose_of g)).
      { destruct l as [fc| | |]; try (subst g; apply thinned_refl). destruct Hg as (lm & rm & _ & [(_ & ->)|(_ & fcs & E & ->)]); [apply thinned_refl|].
        apply C24_text_kept in E. unfold prose_of. cbn. rewrite app_nil_r. replace (flat_map _ (map Normal fcs)) with (flat_map (fun l => styled (fc_compounds l)) fcs); [exact E|].
        clear. induction fcs; cbn; congruence. }
      clear - Hl IH. induction Hl; cbn [app]; [exact IH|constructor; assumption|constructor; assumption].
    + injection E as <-. cbn [txt_lines txt_width]. split; [apply thinned_refl|]. split; reflexivity.
  - injection E as <-. cbn [txt_lines txt_width]. split; [apply thinned_refl|]. split; reflexivity.
Qed.
Print Assumptions C69_prose_kept.
Example C69_example : exists t, from_text demo skin_default 1000 [prose 10; row [2; 12]; code 3; prose 2] (Some 9) = Ret t
  /\ map shape (txt_lines t) = [(0, [9]); (0, [1]); (1, [2; 3]); (1, [0; 3]); (1, [0; 3]); (1, [0; 3]); (0, [3]); (0, [2])].
Proof. eexists. split; [vm_compute; reflexivity|]. vm_compute. reflexivity. Qed.

(** In a formatted text every line out of the tables fits in the width with its margins, when the chars aren't too wide *)
Theorem C69_fits_partial : forall u k usize_max text width t, additive u -> (forall c, chw u c <= 2) -> 3 <= width ->
  from_text u k usize_max text (Some width) = Ret t ->
  forall fc lm rm, In (Normal fc) (txt_lines t) -> margins_of k (fc_kind fc) width lm rm -> lead k (fc_kind fc) = 0 ->
  shown u k fc + lm + rm <= width.
Proof.
  intros u k um text width t Hu H2 H3 E fc lm rm Hin Hm Hl0. unfold from_text in E. apply bind_Ret_inv in E as (l1 & E1 & E).
  destruct (Nat.leb_spec 3 width); [|lia]. apply bind_Ret_inv in E as ([l3|] & E3 & E); [|discriminate]. injection E as <-. cbn [txt_lines] in Hin.
  assert (Hok : Forall (fun l => match l with Normal fc => length_ok u k fc | _ => True end) (justify_blocks l1)).
  { eapply by_runs_Forall with (P := fun l => match l with Normal fc => length_ok u k fc | _ => True end); [| |apply C34_justified|]; [|auto|].
    - cbv beta. intros t t' _ HP (w & _ & _ & HF). clear - HP HF. induction HF as [|l l' t t' (fc & -> & ->) _ IH]; [constructor|]. inversion HP; subst. constructor; [assumption|auto].
    - apply fix_all_iff in E1. eapply by_runs_Forall with (P := fun l => match l with Normal fc => length_ok u k fc | _ => True end); [| |exact E1|]; [|auto|].
      + intros t t' Ht _ H'. pose proof (laid_tables Ht H') as Ht'. eapply Forall_impl; [|exact Ht']. intros []; auto; discriminate.
      + apply Forall_forall. intros l Hl. apply in_map_iff in Hl as ([c| | | |] & <- & _); cbn; auto. apply C25_from_length. exact Hu. }
  apply C26_lines in E3 as (gs & -> & HF). apply in_concat in Hin as (g & Hg & Hin). destruct (Forall2_r_in HF _ Hg) as (l & Hl & Hr).
  rewrite Forall_forall in Hok. specialize (Hok l Hl). destruct l as [fc0| | |]; try (subst g; destruct Hin as [Hin|[]]; discriminate).
  destruct Hr as (lm' & rm' & Hm' & [(Hle & ->)|(Hgt & fcs & E & ->)]).
  - destruct Hin as [Hin|[]]. injection Hin as ->. assert ((lm', rm') = (lm, rm)) as Ep by (destruct Hm as (? & Ea & Eb), Hm' as (? & Ec & Ed); congruence).
    injection Ep as -> ->. unfold length_ok in Hok. rewrite <- Hok. exact Hle.
  - apply in_map_iff in Hin as (fc' & Ef & Hin). injection Ef as ->.
    destruct (C25_kinds _ _ _ _ E) as (f & o & Eo & Hk1 & Hk2 & _).
    assert (Hmm : lm' + rm' <= width /\ lm' = lm /\ rm' = rm).
    { assert (Hw : 3 <= width - lm' - rm') by (apply wrap_inv in E; apply E). split; [lia|].
      assert (Hline : line_style k (fc_kind fc) = line_style k (fc_kind fc0)).
      { rewrite Eo in Hin. destruct Hin as [<-|Hin]; [rewrite Hk1; reflexivity|]. rewrite Forall_forall in Hk2. rewrite (Hk2 _ Hin). destruct (fc_kind fc0); reflexivity. }
      destruct Hm as (? & Ea & Eb), Hm' as (? & Ec & Ed). rewrite Hline in Ea. split; congruence. }
    destruct Hmm as (Hw & -> & ->). pose proof (C25_cached_length k fc0 _ Hu E) as HL.
    assert (Hs : Forall (fun l => shown u k l <= width - lm - rm) fcs).
    { apply C23_lines_fit_partial with (fc := fc0); [exact Hu|exact E|]. intros c _. specialize (H2 c).
      assert (lead k (next_kind (fc_kind fc0)) = 0).
      { rewrite Eo in Hin. destruct Hin as [<-|Hin]; [rewrite Hk1 in Hl0; pose proof (lead_next k (fc_kind fc0)); lia|]. rewrite Forall_forall in Hk2. rewrite (Hk2 _ Hin) in Hl0. exact Hl0. }
      assert (Hw3 : 3 <= width - lm - rm) by (apply wrap_inv in E; apply E). lia. }
    rewrite Forall_forall in Hs. specialize (Hs _ Hin). lia.
Qed.
Print Assumptions C69_fits_partial.

(** The content width is the biggest length of a line *)
Theorem C69_content_width : forall t, (forall l, In l (txt_lines t) -> line_visible_length l <= content_width t)
  /\ (txt_lines t <> [] -> exists l, In l (txt_lines t) /\ line_visible_length l = content_width t) /\ (txt_lines t = [] -> content_width t = 0).
Proof.
  intros t. unfold content_width. generalize (txt_lines t). intros ls.
  assert (H : forall m, (forall l, In l ls -> line_visible_length l <= fold_left (fun cw l => Nat.max cw (line_visible_length l)) ls m)
    /\ m <= fold_left (fun cw l => Nat.max cw (line_visible_length l)) ls m
    /\ (fold_left (fun cw l => Nat.max cw (line_visible_length l)) ls m = m \/ exists l, In l ls /\ line_visible_length l = fold_left (fun cw l => Nat.max cw (line_visible_length l)) ls m)).
  { induction ls as [|x ls IH]; intros m; cbn [fold_left]; [split; [intros l []|]; split; [lia|]; left; reflexivity|].
    destruct (IH (Nat.max m (line_visible_length x))) as (H1 & H2 & H3). split; [|split].
    - intros l [<-|Hl]; [lia|apply H1, Hl].
    - lia.
    - destruct H3 as [H3|(l & Hl & E)]; [|right; exists l; split; [right; exact Hl|exact E]].
      rewrite H3. destruct (Nat.max_spec m (line_visible_length x)) as [[_ ->]|[_ ->]]; [right; exists x; split; [left; reflexivity|reflexivity]|left; reflexivity]. }
  destruct (H 0) as (H1 & _ & H3). split; [exact H1|]. split; [|intros ->; reflexivity].
  intros Hn. destruct H3 as [H3|H3]; [|exact H3]. destruct ls as [|x ls]; [congruence|]. exists x. split; [left; reflexivity|]. specialize (H1 x (or_introl eq_refl)). lia.
Qed.
Print Assumptions C69_content_width.
Theorem C69_line_lengths : (forall cells, line_visible_length (TableRow cells) = sum (map visible_length cells))
  /\ (forall r, line_visible_length (TableRule r) = sum (widths r) + length (widths r) + 1) /\ line_visible_length HorizontalRule = 0
  /\ (forall fc, line_visible_length (Normal fc) = visible_length fc)
  /\ (forall t w, txt_lines (set_rendering_width t w) = txt_lines t /\ txt_width (set_rendering_width t w) = Some w).
Proof.
  split; [|split; [|repeat split; reflexivity]].
  - intros cells. unfold line_visible_length. assert (H : forall m, fold_left (fun s c => s + visible_length c) cells m = m + sum (map visible_length cells)).
    { induction cells as [|c cells IH]; intros m; cbn [fold_left map]; [cbn; lia|]. rewrite IH. cbn. lia. } rewrite H. reflexivity.
  - intros r. unfold line_visible_length. assert (H : forall m, fold_left (fun s w => s + w + 1) (widths r) m = m + sum (widths r) + length (widths r)).
    { induction (widths r) as [|c cells IH]; intros m; cbn [fold_left]; [cbn; lia|]. rewrite IH. cbn. lia. } rewrite H. lia.
Qed.
Print Assumptions C69_line_lengths.
(** The content width counts neither the borders nor the paddings of the rows of a table *)
Theorem C69_row_width_refuted : exists t, from_text demo skin_default 1000 [row [2; 2]; row [1; 5]] (Some 80) = Ret t
  /\ content_width t = 6 /\ exists cells, In (TableRow cells) (txt_lines t) /\ content_width t < fold_right (fun c n => n + 1 + match fc_spacing c with Some sp => sp_width sp | None => 0 end) 1 cells.
Proof. eexists. split; [vm_compute; reflexivity|]. split; [reflexivity|]. eexists. split; [left; reflexivity|]. vm_compute. lia. Qed.
