(** * Properties of input fields: scroll, display and clicks (C12, C13, C15, C42, C71) *)
From Verif Require Import Base L_Base Demo M_Style M_Fit S_Fit L_Fit M_View S_View L_View M_Content S_Content L_Content L_Content2 L_Content3 L_Content4 M_Input S_Input L_Input L_Input2.
Set Implicit Arguments.
Open Scope nat_scope.

(** ** C12 The cursor of a focused input field stays visible

    The functions changing the content or moving the cursor call [fix_scroll] (see [C14] and [C72] for which ones do and don't). *)

(** The scroll is left as it was when it's not needed to change it, but for being bounded to the text *)
Theorem C12_only_scroll : forall u f, field_ok f -> exists f', fix_scroll u f = Ret f' /\ only_scroll f f'.
Proof.
  intros u f [V [W _]]. destruct (@fix_scroll_spec u f V ltac:(lia)) as (sy & sx & l & E & _). eexists. split; [exact E|]. eexists. reflexivity.
Qed.
(** The line of the cursor is in the window, unless it was below it, not being the last line *)
Definition below (f : InputField) : Prop :=
  height f < nb_lines f /\ Nat.min (py (if_scroll f)) (nb_lines f - height f) + height f <= cursor_row f /\ S (cursor_row f) < nb_lines f.
Theorem C12_row_partial : forall u f f', field_ok f -> focused f = true -> 1 <= height f -> ~ below f -> fix_scroll u f = Ret f' -> row_visible f'.
Proof.
  intros u f f' [V [W _]] F H NB E. destruct (@fix_scroll_spec u f V ltac:(lia)) as (sy & sx & l & E' & El & Hl & Ey & _). rewrite E in E'. apply Ret_inj in E' as ->.
  assert (Hy : cursor_row f < nb_lines f) by (apply nth_error_Some; unfold cursor_row in El; unfold nb_lines, cursor_row; congruence).
  destruct (@fix_scroll_y_spec (focused f) (height f) (nb_lines f) (cursor_row f) (py (if_scroll f)) Hy) as (s & Es & S1 & _ & _ & S2). rewrite Ey in Es. apply Ret_inj in Es as <-.
  change (row_visible (with_scroll f (mkPos sy sx))) with (sy <= cursor_row f < sy + height f).
  unfold below in NB. destruct (Nat.le_gt_cases (nb_lines f) (height f)) as [L|L]; [rewrite (S1 L); lia|].
  destruct (S2 L F) as (A1 & A2 & A3). cbv zeta in *. set (t := Nat.min _ _) in *. clearbody t.
  assert (D : cursor_row f < t \/ t <= cursor_row f < t + height f \/ t + height f <= cursor_row f) by lia. destruct D as [D|[D|D]].
  - rewrite (A2 D). destruct (Nat.ltb_spec 0 (cursor_row f)), (Nat.ltb_spec 4 (height f)); cbn [andb]; lia.
  - rewrite (A1 D). lia.
  - rewrite (A3 D). destruct (Nat.eqb_spec (cursor_row f + 1) (nb_lines f)); lia.
Qed.
(** Otherwise it's just below the window *)
Theorem C12_below_hidden : forall u f f', field_ok f -> focused f = true -> below f -> fix_scroll u f = Ret f' ->
  cursor_row f' = py (if_scroll f') + height f' /\ ~ row_visible f'.
Proof.
  intros u f f' [V [W _]] F NB E. destruct (@fix_scroll_spec u f V ltac:(lia)) as (sy & sx & l & E' & El & Hl & Ey & _). rewrite E in E'. apply Ret_inj in E' as ->.
  assert (Hy : cursor_row f < nb_lines f) by (apply nth_error_Some; unfold cursor_row in El; unfold nb_lines, cursor_row; congruence).
  destruct (@fix_scroll_y_spec (focused f) (height f) (nb_lines f) (cursor_row f) (py (if_scroll f)) Hy) as (s & Es & _ & _ & _ & S2). rewrite Ey in Es. apply Ret_inj in Es as <-.
  change (cursor_row f = sy + height f /\ ~ (sy <= cursor_row f < sy + height f)).
  destruct NB as (L & B & NL). destruct (S2 L F) as (_ & _ & A3). cbv zeta in A3. rewrite (A3 B). destruct (Nat.eqb_spec (cursor_row f + 1) (nb_lines f)); lia.
Qed.
(** What the vertical scroll becomes *)
Theorem C12_vertical_scroll : forall u f f', field_ok f -> fix_scroll u f = Ret f' ->
  let t := Nat.min (py (if_scroll f)) (nb_lines f - height f) in
  (nb_lines f <= height f -> py (if_scroll f') = 0)
  /\ (height f < nb_lines f -> focused f = false \/ t <= cursor_row f < t + height f -> py (if_scroll f') = t)
  /\ (height f < nb_lines f -> focused f = true -> cursor_row f < t -> py (if_scroll f') = cursor_row f - (if 4 <? height f then 1 else 0))
  /\ (height f < nb_lines f -> focused f = true -> t + height f <= cursor_row f -> S (cursor_row f) = nb_lines f -> py (if_scroll f') = nb_lines f - height f).
Proof.
  intros u f f' [V [W _]] E t. destruct (@fix_scroll_spec u f V ltac:(lia)) as (sy & sx & l & E' & El & Hl & Ey & _). rewrite E in E'. apply Ret_inj in E' as ->.
  assert (Hy : cursor_row f < nb_lines f) by (apply nth_error_Some; unfold cursor_row in El; unfold nb_lines, cursor_row; congruence).
  destruct (@fix_scroll_y_spec (focused f) (height f) (nb_lines f) (cursor_row f) (py (if_scroll f)) Hy) as (s & Es & S1 & _ & S3 & S2). rewrite Ey in Es. apply Ret_inj in Es as <-.
  cbn [with_scroll if_scroll py]. split; [exact S1|]. split; [|split].
  - intros L [F|D]; [exact (S3 L F)|]. destruct (focused f) eqn:F; [apply (S2 L eq_refl); exact D|exact (S3 L eq_refl)].
  - intros L F D. destruct (S2 L F) as (_ & A2 & _). rewrite (A2 D). destruct (Nat.ltb_spec 0 (cursor_row f)), (Nat.ltb_spec 4 (height f)); cbn [andb]; lia.
  - intros L F D Q. destruct (S2 L F) as (_ & _ & A3). rewrite (A3 D). destruct (Nat.eqb_spec (cursor_row f + 1) (nb_lines f)); lia.
Qed.
(** What the horizontal scroll becomes, when there are at least 4 columns: it's zero if the line is shorter than the width, or else
    the least change leaving two columns on each side of the cursor, bounded by the end of the line *)
Theorem C12_horizontal_scroll : forall u f f' l, field_ok f -> fix_scroll u f = Ret f' -> nth_error (clines (if_content f)) (cursor_row f) = Some l ->
  let w := text_width f in let sx := px (if_scroll f) in let x := cursor_col u f in let last := columns u l + 1 - w in
  (columns u l < w -> px (if_scroll f') = 0)
  /\ (w <= columns u l -> focused f = false -> px (if_scroll f') = Nat.min sx last)
  /\ (w <= columns u l -> focused f = true -> 4 <= w -> (sx + 2 <= x <= sx + w - 2 -> px (if_scroll f') = Nat.min sx last)
        /\ (x < sx + 2 -> px (if_scroll f') = Nat.min (x - 2) last) /\ (sx + w - 2 < x -> px (if_scroll f') = Nat.min (x + 2 - w) last))
  /\ (w <= columns u l -> focused f = true -> w < 4 -> let i := px (cpos (if_content f)) in
        (i < 2 -> px (if_scroll f') = 0) /\ (2 <= i < sx + 1 -> px (if_scroll f') = Nat.min (i - 1) last)
        /\ (2 <= i -> sx + w < i -> px (if_scroll f') = Nat.min (i + 1 - w) last) /\ (2 <= i -> sx + 1 <= i <= sx + w -> px (if_scroll f') = Nat.min sx last)).
Proof.
  intros u f f' l [V [W _]] E El w sx x last. destruct (@fix_scroll_spec u f V ltac:(lia)) as (sy & s & l' & E' & El' & Hl & _ & Ex). rewrite E in E'. apply Ret_inj in E' as ->.
  rewrite El in El'. injection El' as <-.
  destruct (@fix_scroll_x_spec u (focused f) w l (px (cpos (if_content f))) sx Hl) as (s' & Es & X1 & X2). unfold w, sx in Es. rewrite Ex in Es. apply Ret_inj in Es as <-.
  assert (Ecol : cursor_col u f = columns u (firstn (px (cpos (if_content f))) l)) by (unfold cursor_col; rewrite El; reflexivity).
  cbn [with_scroll if_scroll px]. cbv zeta in X1, X2. rewrite <- Ecol in X2. fold x in X2. split; [exact X1|].
  split; [|split].
  - intros Hw F. destruct (X2 Hw) as (t & -> & T & _). rewrite (T F). reflexivity.
  - intros Hw F W4. destruct (X2 Hw) as (t & -> & _ & T & _). destruct (T F W4) as (T1 & T2 & T3). repeat split; intros H; [rewrite (T1 H)|rewrite (T2 H)|rewrite (T3 H)]; reflexivity.
  - intros Hw F W4. destruct (X2 Hw) as (t & -> & _ & _ & T). destruct (T F W4) as (T1 & T2 & T3 & T4). repeat split; intros; [rewrite T1 by assumption|rewrite T2 by assumption|rewrite T3 by assumption|rewrite T4 by assumption]; auto.
Qed.
Lemma cursor_col_le u f l : nth_error (clines (if_content f)) (cursor_row f) = Some l -> cursor_col u f <= columns u l.
Proof. intros E. unfold cursor_col. rewrite E. apply columns_firstn_le. Qed.
(** The column is always visible with at least 4 columns. Missing: the smaller widths ([C12_small_width_refuted]) *)
Theorem C12_column_partial : forall u f f', field_ok f -> focused f = true -> 4 <= text_width f -> fix_scroll u f = Ret f' -> col_visible u f'.
Proof.
  intros u f f' OK F W4 E. pose proof OK as [V _]. destruct (cursor_line_of f V) as (l & El & Hl).
  destruct (@C12_horizontal_scroll u f f' l OK E El) as (A & _ & B & _). pose proof (cursor_col_le u f El) as HC.
  assert (Eo : cursor_col u f' = cursor_col u f /\ text_width f' = text_width f) by (destruct (C12_only_scroll u OK) as (f0 & E0 & s & ->); rewrite E in E0; apply Ret_inj in E0 as ->; split; reflexivity).
  unfold col_visible. destruct Eo as [-> ->]. cbv zeta in *. set (w := text_width f) in *. set (x := cursor_col u f) in *. set (sx := px (if_scroll f)) in *. clearbody w x sx.
  destruct (Nat.lt_ge_cases (columns u l) w) as [L|L]; [rewrite (A L); lia|]. destruct (B L F W4) as (B1 & B2 & B3).
  assert (D : x < sx + 2 \/ sx + 2 <= x <= sx + w - 2 \/ sx + w - 2 < x) by lia. destruct D as [D|[D|D]]; [rewrite (B2 D)|rewrite (B1 D)|rewrite (B3 D)]; clear - L D W4 HC; lia.
Qed.
(** When its line is in the window, the cursor really is on the screen, in the right place: the char at the cursor (or an ellipsis replacing it
    at the right end, or a space after the end of the line) is drawn with the cursor style *)
Theorem C12_drawn_partial : forall u f f' l out p, usual_widths u -> field_ok f -> focused f = true -> 4 <= text_width f ->
  nth_error (clines (if_content f)) (cursor_row f) = Some l -> (password_mode f = true -> narrow u l) -> no_tab_shown f -> (N.of_nat (nb_lines f) < 65536)%N ->
  fix_scroll u f = Ret f' -> row_visible f' -> display_on u f' = Ret (out, p) ->
  let x := px (cpos (if_content f)) in
  p <> None /\ exists k c, In (mkSpot (N.to_nat (a_left (if_area f)) + b2n (left_ellipsis f') + (cursor_col u f - columns u (firstn k l)))
                       (N.to_nat (a_top (if_area f)) + (cursor_row f - py (if_scroll f'))) (Some (cursor_style f)) c) (screen u 0 0 out)
    /\ k <= x /\ first_idx_at u l (px (if_scroll f') + b2n (left_ellipsis f')) k
    /\ match nth_error (masked f l) x with Some ch => c = ch \/ c = c_ellipsis | None => c = 32%N end.
Proof.
  intros u f f' l out p HU OK F W4 El HP NT HL E RV ED x. pose proof OK as [V [HW HS]]. destruct (cursor_line_of f V) as (l0 & El0 & Hx). rewrite El in El0. injection El0 as <-. fold x in Hx.
  assert (CV : col_visible u f') by (eapply C12_column_partial; eauto).
  destruct (C12_only_scroll u OK) as (f0 & E0 & s & Ef). rewrite E in E0. apply Ret_inj in E0 as <-.
  assert (ES : if_scroll f' = s) by (rewrite Ef; reflexivity).
  assert (NT' : no_tab_shown f') by (rewrite Ef; exact NT).
  assert (W4' : text_width f' = text_width f) by (rewrite Ef; reflexivity).
  assert (Ecol : cursor_col u f = columns u (firstn x l)) by (unfold cursor_col; rewrite El; reflexivity).
  assert (HS' : on_screen (if_area f')) by (rewrite Ef; exact HS). assert (HW1 : 1 <= text_width f') by lia.
  destruct (@display_on_spec u f' out p HU HS' HW1 ED) as (sb & rows & ps & Esb & -> & -> & L1 & L2 & HR).
  assert (Hsb : N.to_nat (a_width (if_area f')) - (if sb then 1 else 0) = text_width f).
  { rewrite <- W4'. unfold text_width. destruct sb as [b|].
    - apply scrollbar_lines in Esb. rewrite (proj2 (Nat.ltb_lt _ _) Esb). reflexivity.
    - destruct (Nat.ltb_spec (height f') (nb_lines f')) as [LL|LL]; [exfalso|reflexivity]. unfold area_scrollbar in Esb. rewrite compute_scrollbar_eq in Esb.
      assert (HL' : (N.of_nat (line_count (if_content f')) < 65536)%N) by (rewrite Ef; exact HL).
      rewrite (N.mod_small _ U16 HL') in Esb. destruct (N.leb_spec (N.of_nat (line_count (if_content f'))) (a_height (if_area f'))); [unfold nb_lines, height, line_count in *; lia|].
      destruct (_ && _) in Esb; discriminate. }
  rewrite Hsb in HR. set (w := text_width f) in *.
  unfold row_visible in RV. assert (ER : cursor_row f' = cursor_row f) by (rewrite Ef; reflexivity). rewrite ER in RV.
  set (i := cursor_row f - py (if_scroll f')) in *.
  destruct (nth_error rows i) as [row|] eqn:Erow; [|apply nth_error_None in Erow; unfold i in Erow; lia].
  destruct (nth_error ps i) as [q|] eqn:Eq; [|apply nth_error_None in Eq; unfold i in Eq; lia].
  pose proof (HR i row q Erow Eq) as HROW. pose proof HROW as (content & bar & Erow' & HC & _). cbv zeta in HC.
  rewrite Nat2N.id in HC. replace (py (if_scroll f') + i) with (cursor_row f) in HC by (unfold i; lia).
  assert (Ecl : clines (if_content f') = clines (if_content f)) by (rewrite Ef; reflexivity). rewrite Ecl, El in HC.
  fold (left_ellipsis f') in *. assert (Ele : (0 <? px (if_scroll f')) && (4 <? w) = left_ellipsis f') by (unfold left_ellipsis; rewrite W4'; reflexivity).
  rewrite Ele in HC. set (e := left_ellipsis f') in *. destruct HC as (k & cells & HF & HSH & Econ & Hq).
  assert (EM : masked f' l = masked f l) by (rewrite Ef; reflexivity). rewrite EM in HF, HSH.
  assert (MC : forall n, columns u (firstn n (masked f l)) = columns u (firstn n l)) by (intros n; apply masked_columns; assumption).
  assert (ML : length (masked f l) = length l) by apply masked_length.
  assert (HF' : first_idx_at u l (px (if_scroll f') + b2n e) k).
  { destruct HF as [A B]. rewrite MC, ML in A. split; [exact A|]. intros m Hm. rewrite <- MC. apply B. exact Hm. }
  (* the bounds *)
  assert (HB : px (if_scroll f') + b2n e <= columns u (firstn x l) /\ (columns u (firstn x l) < px (if_scroll f') + w)).
  { unfold col_visible in CV. rewrite W4' in CV. fold w in CV. assert (EC' : cursor_col u f' = cursor_col u f) by (rewrite Ef; reflexivity). rewrite EC', Ecol in CV.
    split; [|lia]. unfold e, left_ellipsis. destruct (Nat.ltb_spec 0 (px (if_scroll f'))) as [P|P]; cbn [andb]; [|cbn [b2n]; lia].
    destruct (4 <? text_width f'); [|cbn [b2n]; lia]. cbn [b2n].
    destruct (@C12_horizontal_scroll u f f' l OK E El) as (A & _ & B & _). cbv zeta in A, B. rewrite Ecol in B. fold w in A, B. destruct (Nat.lt_ge_cases (columns u l) w) as [L|L]; [rewrite (A L) in P; lia|].
    destruct (B L F W4) as (B1 & B2 & B3). set (cx := columns u (firstn x l)) in *. clearbody cx. set (sx := px (if_scroll f)) in *. clearbody sx.
    assert (D : cx < sx + 2 \/ sx + 2 <= cx <= sx + w - 2 \/ sx + w - 2 < cx) by lia. destruct D as [D|[D|D]]; [pose proof (B2 D) as Q|pose proof (B1 D) as Q|pose proof (B3 D) as Q]; clear - Q P L D CV W4; lia. }
  assert (Hk : k <= x).
  { destruct HF' as [_ B]. destruct (Nat.le_gt_cases k x) as [|G]; [assumption|]. specialize (B x G). lia. }
  assert (Hkc : px (if_scroll f') + b2n e <= columns u (firstn k l) \/ k = length l) by (destruct HF' as [[A|A] _]; [left; apply A|right; exact A]).
  assert (We : b2n e <= 1 /\ (b2n e = 1 -> 4 < w)).
  { unfold e, left_ellipsis. destruct (0 <? px (if_scroll f')); cbn [andb]; [|cbn; lia]. destruct (Nat.ltb_spec 4 (text_width f')); cbn [b2n]; lia. }
  assert (HW' : columns u (firstn x l) - columns u (firstn k l) < w - b2n e).
  { destruct Hkc as [Hkc| ->]; [lia|]. replace (firstn x l) with (firstn (length l) l) by (f_equal; lia). lia. }
  assert (NL : ~ In 9%N (masked f l)) by (apply masked_no_tab; [exact NT|eapply nth_error_In; exact El]).
  set (Y := N.to_nat (a_top (if_area f)) + i). set (X := N.to_nat (a_left (if_area f)) + b2n e).
  destruct (@shows_cursor u (w - b2n e) (masked f l) (is_selected f' (cursor_row f)) (cursor_at_end f' (cursor_row f) l) k cells x X Y (normal_style f') (cursor_style f') HU NL HSH) as [SC1 SC2];
    [rewrite ML; lia|rewrite !MC; exact HW'|].
  rewrite !MC, <- Ecol, ML in *.
  assert (Hsel : is_selected f' (cursor_row f) x = true) by (rewrite Ef; unfold is_selected, x, cursor_row; cbn [with_scroll focused if_content]; rewrite F, cursor_selected by exact V; reflexivity).
  rewrite Hsel in SC1.
  assert (Hae : x = length l -> cursor_at_end f' (cursor_row f) l = true).
  { intros Hxl. rewrite Ef. unfold cursor_at_end. cbn [with_scroll focused if_content]. rewrite F. fold x. unfold cursor_row. cbn [if_content]. rewrite Nat.eqb_refl. cbn [andb]. apply Nat.eqb_eq. exact Hxl. }
  assert (INROW : forall sp, In sp (screen u X Y (styled (normal_style f') (cursor_style f') cells)) -> In sp (screen u 0 0 (SetBg Reset :: concat rows))).
  { intros sp Hsp. cbn [screen]. rewrite screen_rows.
    - apply in_concat. exists (screen u 0 0 row). split; [apply in_map; eapply nth_error_In; exact Erow|].
      rewrite Erow'. cbn [screen]. rewrite Econ, <- app_assoc.
      assert (EY : N.to_nat (a_top (if_area f') + N.of_nat i) = Y) by (rewrite Ef; cbn [with_scroll if_area]; unfold Y; lia).
      assert (EX : N.to_nat (a_left (if_area f')) = N.to_nat (a_left (if_area f))) by (rewrite Ef; reflexivity). rewrite EY, EX.
      assert (G : In sp (screen u X Y (styled (normal_style f') (cursor_style f') cells ++ bar))) by (rewrite screen_app by apply styled_text; apply in_or_app; left; exact Hsp).
      unfold X in G. destruct e; cbn [app b2n] in *.
      + cbn [screen]. apply in_or_app. right. replace (sumw (chw u) [c_ellipsis]) with 1 by (unfold sumw, c_ellipsis; cbn; destruct HU as (_ & -> & _); reflexivity). exact G.
      + rewrite Nat.add_0_r in G. exact G.
    - apply Forall_forall. intros r Hr. apply In_nth_error in Hr as (m & Hm). destruct (nth_error ps m) as [pm|] eqn:Epm;
        [|apply nth_error_None in Epm; assert (m < length rows) by (apply nth_error_Some; congruence); lia].
      destruct (row_shown_text (HR m r pm Hm Epm)) as (a & -> & Ha). eauto. }
  assert (ECS : cursor_style f' = cursor_style f) by (rewrite Ef; reflexivity). rewrite ECS in *.
  assert (EXI : exists c, In (mkSpot (X + (cursor_col u f - columns u (firstn k l))) Y (Some (cursor_style f)) c) (screen u X Y (styled (normal_style f') (cursor_style f) cells))
    /\ match nth_error (masked f l) x with Some ch => c = ch \/ c = c_ellipsis | None => c = 32%N end).
  { destruct (Nat.eq_dec x (length l)) as [Q|Q].
    - exists 32%N. split; [apply SC2; auto|]. replace (nth_error (masked f l) x) with (@None char); [reflexivity|]. symmetry. apply nth_error_None. lia.
    - destruct SC1 as (c & SC1 & Hc); [lia|]. exists c. split; [exact SC1|]. destruct (nth_error (masked f l) x) as [ch|] eqn:En; [|apply nth_error_None in En; lia].
      apply nth_error_nth with (d := 0%N) in En. rewrite En in Hc. exact Hc. }
  destruct EXI as (c & SCIN & Hc).
  split.
  - assert (HLF : last_flag u 0 cells <> None).
    { intros HN. destruct (@shows_cursor u (w - b2n e) (masked f l) (is_selected f' (cursor_row f)) (cursor_at_end f' (cursor_row f) l) k cells x 0 0 cs_default (cs_add_attr cs_default Reverse) HU NL HSH) as [Z1 Z2];
        [rewrite ML; lia|rewrite !MC, <- Ecol; exact HW'|]. rewrite Hsel, ML in Z1. rewrite ML in Z2.
      destruct (Nat.eq_dec x (length l)) as [Q|Q].
      - specialize (Z2 Q (Hae Q)). apply (@last_flag_none u cs_default (cs_add_attr cs_default Reverse) 0 cells 0 HN) in Z2. discriminate Z2.
      - destruct Z1 as (c1 & Z1 & _); [lia|]. apply (@last_flag_none u cs_default (cs_add_attr cs_default Reverse) 0 cells 0 HN) in Z1. discriminate Z1. }
    destruct (last_flag u 0 cells) as [z|] eqn:Ez; [|congruence]. eapply last_some_none. rewrite Eq, Hq. reflexivity.
  - exists k, c. split; [apply INROW; exact SCIN|]. auto.
Qed.

Definition demo_lines (n : nat) : str := concat (map (fun i => [N.of_nat (97 + i); c_nl]) (seq 0 (n - 1))) ++ [122%N].
Definition demo_field (w h : N) : InputField := if_new (mkArea 3 4 w h).
(** ten lines in an area of 3 rows *)
Definition field_10 := if_run demo (demo_field 20 3) [IfSetStr (demo_lines 10); IfToStart].
Example C12_example : exists f0 f, field_10 = Ret f0 /\ field_ok f0 /\ focused f0 = true /\ ~ below f0 /\ if_run demo f0 [IfDown; IfDown; IfToEnd] = Ret f
  /\ row_visible f /\ col_visible demo f /\ py (if_scroll f) = 7.
Proof.
  eexists _, _. split; [vm_compute; reflexivity|]. split; [split; [apply validb_ok; vm_compute; reflexivity|split; vm_compute; [discriminate|split; reflexivity]]|].
  split; [reflexivity|]. split; [unfold below; vm_compute; lia|]. split; [vm_compute; reflexivity|]. unfold row_visible, col_visible. vm_compute; lia.
Qed.
(** Going down to the line just below the window doesn't scroll *)
Theorem C12_below_refuted : exists f0 f, field_10 = Ret f0 /\ if_run demo f0 [IfDown; IfDown; IfDown] = Ret f /\ focused f = true /\ ~ row_visible f.
Proof. eexists _, _. split; [vm_compute; reflexivity|]. split; [vm_compute; reflexivity|]. split; [reflexivity|]. unfold row_visible. vm_compute; lia. Qed.
(** The backspace key doesn't scroll *)
Theorem C12_backspace_refuted : exists f0 f, field_10 = Ret f0 /\ if_run demo f0 [IfToEnd; IfUp; IfUp; IfToLineStart; IfKeycode KBackspace false] = Ret f
  /\ focused f = true /\ ~ row_visible f.
Proof. eexists _, _. split; [vm_compute; reflexivity|]. split; [vm_compute; reflexivity|]. split; [reflexivity|]. unfold row_visible. vm_compute; lia. Qed.
(** nor does the delete key, even when what's displayed is wholly removed *)
Theorem C12_delete_refuted : exists f0 f, field_10 = Ret f0
  /\ if_run demo f0 [IfKeycode KDown true; IfKeycode KPageDown true; IfKeycode KPageDown true; IfKeycode KDelete false] = Ret f
  /\ focused f = true /\ ~ row_visible f.
Proof. eexists _, _. split; [vm_compute; reflexivity|]. split; [vm_compute; reflexivity|]. split; [reflexivity|]. unfold row_visible. vm_compute; lia. Qed.
(** With 3 columns *)
Theorem C12_small_width_refuted : exists f, if_run demo (demo_field 3 1) [IfSetStr [97; 98; 99; 100; 101]%N; IfToStart; IfRight; IfRight; IfRight] = Ret f
  /\ focused f = true /\ text_width f = 3 /\ ~ col_visible demo f.
Proof. eexists. split; [vm_compute; reflexivity|]. split; [reflexivity|]. split; [reflexivity|]. unfold col_visible. vm_compute; lia. Qed.
(** With wide chars as a password, the cursor isn't drawn *)
Theorem C12_password_refuted : exists f out, if_run demo (demo_field 10 1) [IfPassword true; IfPut 20013; IfPut 20013; IfPut 20013; IfPut 20013; IfPut 20013; IfPut 20013; IfPut 20013; IfPut 20013;
    IfPut 20013; IfPut 20013; IfPut 20013; IfPut 20013; IfPut 20013; IfPut 20013; IfPut 20013; IfLeft] = Ret f
  /\ focused f = true /\ display_on demo f = Ret (out, None).
Proof. eexists _, _. split; [vm_compute; reflexivity|]. split; [reflexivity|]. vm_compute. reflexivity. Qed.

(** ** C13 An input field draws exactly its area *)

(** Drawing writes the rows of the area, from the top one to the bottom one, each one once, from the left to the right without hole or overflow.
    Missing: the areas with no room left for the text ([C13_no_room_refuted]) and the tabs ([C13_tab_refuted]) *)
Theorem C13_rows_partial : forall u f out p, usual_widths u -> on_screen (if_area f) -> 1 <= text_width f -> no_tab_shown f -> display_on u f = Ret (out, p) ->
  let a := if_area f in
  exists rows, screen u 0 0 out = concat rows /\ length rows = N.to_nat (a_height a)
    /\ forall j row, nth_error rows j = Some row -> tiles u (N.to_nat (a_top a) + j) (N.to_nat (a_left a)) row (N.to_nat (a_left a) + N.to_nat (a_width a)).
Proof.
  intros u f out p HU HS W1 NT ED a. destruct (@display_on_spec u f out p HU HS W1 ED) as (sb & rows & ps & Esb & -> & -> & L1 & L2 & HR).
  exists (map (screen u 0 0) rows). split; [cbn [screen]; apply screen_rows; eapply rows_text; [rewrite L1, L2; reflexivity|exact HR]|].
  rewrite map_length. split; [exact L1|]. intros j r Hr. rewrite nth_error_map in Hr. destruct (nth_error rows j) as [row|] eqn:Erow; [|discriminate]. injection Hr as <-.
  assert (Hj : j < length ps) by (rewrite L2, <- L1; apply nth_error_Some; congruence).
  destruct (nth_error ps j) as [q|] eqn:Eq; [|apply nth_error_None in Eq; lia].
  pose proof (HR j row q Erow Eq) as H. unfold text_width in W1.
  assert (HW : 1 <= N.to_nat (a_width (if_area f)) - (if sb then 1 else 0)).
  { destruct sb; [apply scrollbar_lines in Esb; rewrite (proj2 (Nat.ltb_lt _ _) Esb) in W1; exact W1|]. destruct (_ <? _) in W1; lia. }
  pose proof (row_shown_width HU NT HW H) as Ew. destruct (row_shown_text H) as (cmds & -> & Hc). cbn [screen].
  replace (N.to_nat (a_top (if_area f) + N.of_nat j)) with (N.to_nat (a_top a) + j) by (unfold a; lia).
  replace (N.to_nat (a_left a) + N.to_nat (a_width a)) with (N.to_nat (a_left a) + sumw (chw u) (out_text cmds)); [apply screen_tiles; exact Hc|].
  change (out_text (MoveTo (a_left (if_area f)) (a_top (if_area f) + N.of_nat j) :: cmds)) with (out_text cmds) in Ew. rewrite Ew. unfold a. destruct sb; lia.
Qed.
(** Drawing never panics, when the scroll isn't after the last lines: all functions of the field ensure it ([C12_vertical_scroll]) *)
Theorem C13_no_panic : forall u f, usual_widths u -> field_ok f -> 1 <= text_width f -> (1 <= a_height (if_area f))%N ->
  (N.of_nat (nb_lines f) < 65536)%N -> py (if_scroll f) <= nb_lines f - height f -> exists out p, display_on u f = Ret (out, p).
Proof. intros u f HU [_ [_ HS]] W1 HH HL HSC. apply display_on_ret; assumption. Qed.
(** The returned cursor position is inside the area; it's on a cell drawn with the cursor style when there's no ellipsis on the left,
    and just before it when there's one. Missing: being on it in this case ([C13_cursor_refuted]) *)
Theorem C13_cursor_partial : forall u f out x y, usual_widths u -> on_screen (if_area f) -> 1 <= text_width f -> no_tab_shown f -> (N.of_nat (nb_lines f) < 65536)%N ->
  display_on u f = Ret (out, Some (x, y)) ->
  cell_in (if_area f) x y /\ focused f = true
  /\ exists c, In (mkSpot (N.to_nat x + b2n (left_ellipsis f)) (N.to_nat y) (Some (cursor_style f)) c) (screen u 0 0 out).
Proof.
  intros u f out x y HU HS W1 NT HL ED. destruct (@display_on_spec u f out _ HU HS W1 ED) as (sb & rows & ps & Esb & -> & Ep & L1 & L2 & HR).
  destruct (@scrollbar_width f sb HL Esb) as [Ew _]. rewrite Ew in HR. symmetry in Ep. apply last_some_nth in Ep as (i & Ei).
  assert (Hi : i < length rows) by (rewrite L1, <- L2; apply nth_error_Some; congruence).
  destruct (nth_error rows i) as [row|] eqn:Erow; [|apply nth_error_None in Erow; lia].
  pose proof (HR i row _ Erow Ei) as (content & bar & Erow' & HC & _). cbv zeta in HC. fold (left_ellipsis f) in HC.
  destruct (nth_error (clines (if_content f)) _) as [l|] eqn:El; [|destruct HC as (_ & _ & Z); discriminate Z].
  destruct HC as (k & cells & HF & HSH & Econ & Hq). destruct (last_flag u 0 cells) as [z|] eqn:Ez; [|discriminate Hq]. cbn [option_map at_] in Hq. injection Hq as -> ->.
  pose proof (shows_last HU HSH Ez) as Hz.
  assert (EF : focused f = true).
  { destruct (focused f) eqn:F; [reflexivity|exfalso]. destruct HSH as (p & q & mark & _ & HC & HQ). cbv zeta in HC.
    assert (NF : forall c b, In (c, b) cells -> b = false).
    { intros c b. rewrite HC, !in_app_iff. unfold cursor_at_end, is_selected in *. rewrite F in *. cbn [andb] in *. rewrite andb_false_r. intros [H|[H|[[]|H]]].
      - unfold flagged in H. apply in_combine_r in H. apply in_map_iff in H as (? & <- & _). reflexivity.
      - destruct q; [destruct HQ as (_ & _ & ->); destruct H|destruct HQ as (_ & _ & _ & ->); destruct H as [H|[]]; injection H as _ <-; reflexivity].
      - apply repeat_spec in H. injection H as _ ->. reflexivity. }
    clear - NF Ez. assert (G : forall d, last_flag u d cells = None); [|rewrite G in Ez; discriminate]. clear Ez. induction cells as [|[c b] cells IH]; intros d; [reflexivity|]. cbn [last_flag].
    rewrite IH by (intros c' b' H; eapply NF; right; exact H). rewrite (NF c b) by (left; reflexivity). reflexivity. }
  assert (Hh : i < height f) by lia. unfold height, text_width in *. split; [unfold cell_in; lia|]. split; [exact EF|].
  assert (NL : ~ In 9%N (masked f l)) by (apply masked_no_tab; [exact NT|eapply nth_error_In; exact El]).
  destruct (@last_flag_spot u (N.to_nat (a_top (if_area f)) + i) (normal_style f) (cursor_style f) (N.to_nat (a_left (if_area f)) + b2n (left_ellipsis f)) cells 0 z (cells_no_tab NL HSH) Ez) as (c & Hc).
  exists c. cbn [screen]. rewrite screen_rows by (eapply rows_text; [rewrite L1, L2; reflexivity|exact HR]). apply in_concat. exists (screen u 0 0 row).
  split; [apply in_map; eapply nth_error_In; exact Erow|]. rewrite Erow'. cbn [screen]. rewrite Econ, <- app_assoc, Nat.add_0_r in *.
  replace (N.to_nat (a_left (if_area f) + N.of_nat z) + b2n (left_ellipsis f)) with (N.to_nat (a_left (if_area f)) + b2n (left_ellipsis f) + z) by lia.
  replace (N.to_nat (a_top (if_area f) + N.of_nat i)) with (N.to_nat (a_top (if_area f)) + i) by lia.
  assert (G : forall b, In (mkSpot (N.to_nat (a_left (if_area f)) + b2n (left_ellipsis f) + z) (N.to_nat (a_top (if_area f)) + i) (Some (cursor_style f)) c)
     (screen u (N.to_nat (a_left (if_area f)) + b2n (left_ellipsis f)) (N.to_nat (a_top (if_area f)) + i) (styled (normal_style f) (cursor_style f) cells ++ b)))
    by (intros b; rewrite screen_app by apply styled_text; apply in_or_app; left; exact Hc).
  specialize (G bar). destruct (left_ellipsis f); cbn [app b2n] in *.
  - cbn [screen]. apply in_or_app. right. replace (sumw (chw u) [c_ellipsis]) with 1 by (unfold sumw, c_ellipsis; cbn; destruct HU as (_ & -> & _); reflexivity). exact G.
  - rewrite Nat.add_0_r in G |- *. exact G.
Qed.

Lemma demo_usual : usual_widths demo. Proof. repeat split; reflexivity. Qed.
Definition cell (s : spot) := (N.of_nat (s_x s), N.of_nat (s_y s), s_char s).
(** A field with narrow and wide chars, a scrollbar, an horizontal scroll and a selection *)
Definition field_wide := if_run demo (demo_field 7 2) [IfSetStr [97; c_nl; 98; 20013; 20014; 99; 100; 101; 102; 103; 104; c_nl; 105]%N; IfUp; IfToLineEnd; IfKeycode KLeft true].
Example C13_example : exists f out p, field_wide = Ret f /\ on_screen (if_area f) /\ text_width f = 6 /\ no_tab_shown f /\ display_on demo f = Ret (out, Some p) /\ left_ellipsis f = true
  /\ map cell (screen demo 0 0 out)
     = [(3, 4, 8230); (4, 4, 101); (5, 4, 102); (6, 4, 103); (7, 4, 104); (8, 4, 32); (9, 4, 9616);
        (3, 5, 8230); (4, 5, 32); (5, 5, 32); (6, 5, 32); (7, 5, 32); (8, 5, 32); (9, 5, 9616)]%N.
Proof.
  eexists _, _, _. split; [vm_compute; reflexivity|]. split; [split; vm_compute; reflexivity|]. split; [vm_compute; reflexivity|].
  split; [right; intros l [<-|[<-|[<-|[]]]]; repeat (intros [H|H]; [discriminate H|revert H]); intros []|]. split; [vm_compute; reflexivity|]. split; vm_compute; reflexivity.
Qed.
(** a wide char not completely displayed is replaced with an ellipsis *)
Example C13_wide_example : exists f out, if_run demo (demo_field 6 2) [IfSetStr [97; 20013; 20014; 20015; 98]%N; IfToStart] = Ret f
  /\ display_on demo f = Ret (out, Some (3, 4)%N)
  /\ map cell (screen demo 0 0 out) = [(3, 4, 97); (4, 4, 20013); (6, 4, 20014); (8, 4, 8230); (3, 5, 32); (4, 5, 32); (5, 5, 32); (6, 5, 32); (7, 5, 32); (8, 5, 32)]%N.
Proof. eexists _, _. split; [vm_compute; reflexivity|]. split; vm_compute; reflexivity. Qed.
(** With an ellipsis on the left, the returned position isn't on the cell drawn with the cursor style: it's one column before *)
Theorem C13_cursor_refuted : exists f out x y, field_wide = Ret f /\ display_on demo f = Ret (out, Some (x, y))
  /\ forall c, ~ In (mkSpot (N.to_nat x) (N.to_nat y) (Some (cursor_style f)) c) (screen demo 0 0 out).
Proof.
  eexists _, _, _, _. split; [vm_compute; reflexivity|]. split; [vm_compute; reflexivity|]. intros c. vm_compute. intros H.
  repeat (destruct H as [H|H]; [discriminate H|]). exact H.
Qed.
(** An area of one column with a scrollbar: the text also takes a column *)
Theorem C13_no_room_refuted : exists f out p, if_run demo (demo_field 1 1) [IfSetStr [97; c_nl; 98]%N] = Ret f /\ field_ok f
  /\ display_on demo f = Ret (out, p) /\ map cell (screen demo 0 0 out) = [(3, 4, 8230); (4, 4, 9616)]%N.
Proof.
  eexists _, _, _. split; [vm_compute; reflexivity|].
  split; [split; [apply validb_ok; vm_compute; reflexivity|split; vm_compute; [discriminate|split; reflexivity]]|]. split; vm_compute; reflexivity.
Qed.
(** The width of a tab is counted as 2 but the tab is written as is: the row is then filled as if it took 2 columns, whatever the tab stops of the terminal *)
Theorem C13_tab_refuted : exists f out p, if_run demo (demo_field 8 1) [IfSetStr [97; c_tab; 98]%N] = Ret f /\ field_ok f
  /\ display_on demo f = Ret (out, p) /\ out_text out = [97; 9; 98; 32; 32; 32; 32]%N.
Proof.
  eexists _, _, _. split; [vm_compute; reflexivity|].
  split; [split; [apply validb_ok; vm_compute; reflexivity|split; vm_compute; [discriminate|split; reflexivity]]|]. split; vm_compute; reflexivity.
Qed.

(** ** C15 A click puts the cursor on the clicked character *)

Lemma contains_in a x y : on_screen a -> cell_in a x y -> contains a x y = Ret true.
Proof.
  intros [Hx Hy] H. unfold contains, cell_in in *. destruct (N.leb_spec (a_left a) x); cbn [negb]; [|lia]. rewrite add16_ret, bind_ret by assumption.
  destruct (N.ltb_spec x (a_left a + a_width a)); cbn [negb]; [|lia]. destruct (N.leb_spec (a_top a) y); cbn [negb]; [|lia].
  rewrite add16_ret, bind_ret by assumption. f_equal. lia.
Qed.
Lemma contains_out a x y : on_screen a -> ~ cell_in a x y -> contains a x y = Ret false.
Proof.
  intros [Hx Hy] H. unfold contains, cell_in in *. destruct (N.leb_spec (a_left a) x); cbn [negb]; [|reflexivity]. rewrite add16_ret, bind_ret by assumption.
  destruct (N.ltb_spec x (a_left a + a_width a)); cbn [negb]; [|reflexivity]. destruct (N.leb_spec (a_top a) y); cbn [negb]; [|reflexivity].
  rewrite add16_ret, bind_ret by assumption. f_equal. lia.
Qed.
Lemma set_cursor_exact c p : valid c -> valid_pos (clines c) p -> set_cursor_pos c p = Ret (set_cpos c p).
Proof.
  intros V (l & El & Hl). unfold set_cursor_pos, make_valid_pos. assert (HL : py p < length (clines c)) by (apply nth_error_Some; congruence).
  destruct (Nat.leb_spec (length (clines c)) (py p)); [lia|]. unfold idx. rewrite El. cbn [bind]. rewrite Nat.min_l by exact Hl. destruct p; reflexivity.
Qed.
Lemma cell_pos_spec u f x y : field_ok f -> cell_in (if_area f) x y -> exists p, cell_pos u f x y = Ret p /\ clicked u f x y p /\ valid_pos (clines (if_content f)) p.
Proof.
  intros [V [_ HS]] HC. unfold cell_in in HC. unfold cell_pos, sub16, csub, line_count. rewrite (proj2 (N.leb_le _ _)) by lia. cbn [bind].
  pose proof V as (V1 & _). assert (HL : 1 <= length (clines (if_content f))) by (destruct (clines (if_content f)); [congruence|cbn; lia]).
  rewrite (proj2 (Nat.leb_le _ _)) by lia. cbn [bind].
  set (row := Nat.min _ _). assert (Hrow : row < length (clines (if_content f))) by (unfold row; lia).
  unfold idx. destruct (nth_error (clines (if_content f)) row) as [l|] eqn:El; [|apply nth_error_None in El; lia]. cbn [bind]. rewrite (proj2 (N.leb_le _ _)) by lia. cbn [bind].
  pose proof (col_to_char_idx_spec u l (N.to_nat (x - a_left (if_area f)) + px (if_scroll f))) as F.
  eexists. split; [reflexivity|]. split.
  - split; [cbn [py]; unfold row, nb_lines; lia|]. cbn [py px]. exists l. split; [exact El|]. rewrite Nat.add_comm. exact F.
  - exists l. cbn [py px]. split; [exact El|]. eapply first_idx_le. exact F.
Qed.
(** A click in the area of a focused field puts the cursor at the clicked place, which is in the text, and changes nothing else.
    A click in a field which isn't focused only focuses it, and a click elsewhere does nothing *)
Theorem C15_click : forall u f x y, field_ok f ->
  (cell_in (if_area f) x y -> focused f = true -> exists p, clicked u f x y p /\ valid_pos (clines (if_content f)) p
     /\ apply_click_event u f x y = Ret (with_content f (set_cpos (if_content f) p), true))
  /\ (cell_in (if_area f) x y -> focused f = false -> apply_click_event u f x y = Ret (with_focus f true, true))
  /\ (~ cell_in (if_area f) x y -> apply_click_event u f x y = Ret (f, false)).
Proof.
  intros u f x y OK. pose proof OK as [V [_ HS]]. unfold apply_click_event. split; [|split]; intros H.
  - intros F. rewrite contains_in by assumption. cbn [bind]. rewrite F. destruct (@cell_pos_spec u f x y OK H) as (p & -> & H1 & H2). cbn [bind]. rewrite set_cursor_exact by assumption. eauto.
  - intros F. rewrite contains_in by assumption. cbn [bind]. rewrite F. reflexivity.
  - rewrite contains_out by assumption. reflexivity.
Qed.
(** The position is unique: the line and the char are determined *)
Lemma first_idx_unique u l col i j : first_idx_at u l col i -> first_idx_at u l col j -> i = j.
Proof.
  intros [A1 A2] [B1 B2]. destruct (Nat.lt_trichotomy i j) as [L|[L|L]]; [|exact L|]; exfalso.
  - specialize (B2 _ L). destruct A1 as [[_ A1]|A1]; [lia|]. destruct B1 as [[B1 _]|B1]; lia.
  - specialize (A2 _ L). destruct B1 as [[_ B1]|B1]; [lia|]. destruct A1 as [[A1 _]|A1]; lia.
Qed.
Theorem C15_unique : forall u f x y p q, clicked u f x y p -> clicked u f x y q -> p = q.
Proof.
  intros u f x y p q [A1 (l & A2 & A3)] [B1 (m & B2 & B3)]. assert (E : py p = py q) by congruence. rewrite E in A2. assert (l = m) by congruence. subst m.
  pose proof (first_idx_unique A3 B3) as E'. destruct p, q; cbn in *; congruence.
Qed.
(** The char on which the cursor is put after a click on the char [i] of the line, in its first column *)
Lemma visible_idx u l i : all_visible u l -> i <= length l -> first_idx_at u l (columns u (firstn i l)) i.
Proof.
  intros HV Hi. split; [destruct (Nat.eq_dec i (length l)); [right; assumption|left; split; [lia|reflexivity]]|]. intros j Hj.
  assert (E : firstn (S j) l = firstn j l ++ [nth j l 0%N]).
  { clear HV. revert j Hj. revert i Hi. induction l as [|c l IH]; intros i Hi j Hj; [cbn in Hi; lia|]. destruct j; [reflexivity|].
    cbn [firstn nth app]. f_equal. cbn in Hi. apply IH with (i := i - 1); lia. }
  pose proof (@columns_firstn_mono u (S j) i l Hj) as M. rewrite E, columns_app in M. specialize (HV (nth j l 0%N) ltac:(apply nth_In; lia)). lia.
Qed.
(** When no char is hidden and the first displayed char isn't cut, each displayed char [i] of a line is drawn in a cell, or replaced there by the right ellipsis,
    and a click on this cell puts the cursor on it. Missing: the second column of the wide chars and the cut ones ([C15_wide_refuted], [C15_cut_refuted]) *)
Theorem C15_displayed_partial : forall u f out q j l k i, usual_widths u -> field_ok f -> focused f = true -> 1 <= text_width f -> no_tab_shown f -> (N.of_nat (nb_lines f) < 65536)%N ->
  display_on u f = Ret (out, q) -> j < height f -> nth_error (clines (if_content f)) (py (if_scroll f) + j) = Some l ->
  (password_mode f = true -> narrow u l) -> all_visible u l ->
  let e := b2n (left_ellipsis f) in
  first_idx_at u l (px (if_scroll f) + e) k -> columns u (firstn k l) = px (if_scroll f) + e ->
  k <= i < length l -> columns u (firstn i l) - columns u (firstn k l) < text_width f - e ->
  let x := (a_left (if_area f) + N.of_nat (e + (columns u (firstn i l) - columns u (firstn k l))))%N in let y := (a_top (if_area f) + N.of_nat j)%N in
  (exists st c, In (mkSpot (N.to_nat x) (N.to_nat y) st c) (screen u 0 0 out) /\ (c = nth i (masked f l) 0%N \/ c = c_ellipsis))
  /\ apply_click_event u f x y = Ret (with_content f (set_cpos (if_content f) (mkPos (py (if_scroll f) + j) i)), true).
Proof.
  intros u f out q j l k i HU OK F W1 NT HL ED Hj El HP HV e HK EK Hi Hw x y. pose proof OK as [V [HW HS]].
  assert (MC : forall n, columns u (firstn n (masked f l)) = columns u (firstn n l)) by (intros n; apply masked_columns; assumption).
  assert (ML : length (masked f l) = length l) by apply masked_length.
  assert (He : e <= 1 /\ e <= text_width f).
  { unfold e, left_ellipsis. destruct (0 <? px (if_scroll f)); cbn [andb]; [|cbn; lia]. destruct (Nat.ltb_spec 4 (text_width f)); cbn [b2n]; lia. }
  split.
  - destruct (@display_spot u f out q j l HU HS W1 NT HL ED Hj El) as (k' & HK' & D). fold e in HK', D.
    assert (k' = k).
    { eapply first_idx_unique; [|exact HK]. destruct HK' as [A B]. rewrite MC, ML in A. split; [exact A|]. intros m Hm. rewrite <- MC. apply B. exact Hm. }
    subst k'. destruct (D i) as [D1 _]; [lia|rewrite !MC; exact Hw|]. destruct D1 as (c & Hc & Hcc); [lia|]. rewrite !MC in Hc.
    replace (N.to_nat x) with (N.to_nat (a_left (if_area f)) + e + (columns u (firstn i l) - columns u (firstn k l))) by (unfold x; lia).
    replace (N.to_nat y) with (N.to_nat (a_top (if_area f)) + j) by (unfold y; lia). eauto.
  - assert (HC : cell_in (if_area f) x y).
    { unfold cell_in, x, y, text_width, height in *. destruct (N.to_nat (a_height (if_area f)) <? nb_lines f) in *; lia. }
    destruct (@C15_click u f x y OK) as (A & _). destruct (A HC F) as (p & Hp & _ & ->). f_equal. f_equal. f_equal. f_equal.
    assert (HN : py (if_scroll f) + j < nb_lines f) by (apply nth_error_Some; congruence).
    eapply C15_unique; [exact Hp|]. split; cbn [py px].
    + unfold y. replace (N.to_nat (a_top (if_area f) + N.of_nat j - a_top (if_area f))) with j by lia. lia.
    + exists l. split; [exact El|]. replace (px (if_scroll f) + N.to_nat (x - a_left (if_area f))) with (columns u (firstn i l)); [apply visible_idx; [exact HV|lia]|].
      pose proof (@columns_firstn_mono u k i l ltac:(lia)). unfold x. lia.
Qed.
(** With chars of one column: the char at this column, or the end of the line *)
Theorem C15_narrow : forall u f x y p l, clicked u f x y p -> nth_error (clines (if_content f)) (py p) = Some l -> narrow u l ->
  px p = Nat.min (px (if_scroll f) + N.to_nat (x - a_left (if_area f))) (length l).
Proof.
  intros u f x y p l [_ (l' & El' & HF)] El HN. assert (l' = l) by congruence. subst l'. set (col := px (if_scroll f) + _) in *. eapply first_idx_unique; [exact HF|].
  assert (EC : forall i, i <= length l -> columns u (firstn i l) = i).
  { clear - HN. induction l as [|c l IH]; intros [|i] Hi; try reflexivity; [cbn in Hi; lia|]. cbn [firstn]. rewrite columns_cons, (HN c) by (left; reflexivity).
    rewrite IH; [reflexivity|intros c' H; apply HN; right; exact H|cbn in Hi; lia]. }
  split.
  - destruct (Nat.le_gt_cases (length l) col); [right; lia|left]. split; [lia|]. rewrite EC; lia.
  - intros m Hm. rewrite EC; lia.
Qed.
(** After the last char, whatever the widths *)
Theorem C15_line_end : forall u f x y p l, clicked u f x y p -> nth_error (clines (if_content f)) (py p) = Some l -> all_visible u l ->
  columns u l <= px (if_scroll f) + N.to_nat (x - a_left (if_area f)) -> px p = length l.
Proof.
  intros u f x y p l [_ (l' & El' & HF)] El HV HC. assert (l' = l) by congruence. subst l'. set (col := px (if_scroll f) + _) in *. eapply first_idx_unique; [exact HF|].
  split; [right; reflexivity|]. intros m Hm. pose proof (@visible_idx u l (length l) HV (le_n _)) as [_ G]. specialize (G m Hm). rewrite firstn_all in G. lia.
Qed.
Example C15_example : exists f, if_run demo (demo_field 10 3) [IfSetStr [97; 98; c_nl; 20013; 99; 100]%N] = Ret f /\ field_ok f
  /\ apply_click_event demo f 5 5 = Ret (with_content f (set_cpos (if_content f) (mkPos 1 1)), true)
  /\ apply_click_event demo f 10 6 = Ret (with_content f (set_cpos (if_content f) (mkPos 1 3)), true)
  /\ apply_click_event demo f 2 5 = Ret (f, false).
Proof.
  eexists. split; [vm_compute; reflexivity|]. split; [split; [apply validb_ok; vm_compute; reflexivity|split; vm_compute; [discriminate|split; reflexivity]]|].
  repeat split; vm_compute; reflexivity.
Qed.
(** The hypotheses of [C15_displayed_partial] are met with a scrolled line *)
Example C15_displayed_example : exists f out q l, if_run demo (demo_field 6 1) [IfSetStr [97; 98; 99; 20013; 100; 101; 102; 103]%N] = Ret f
  /\ display_on demo f = Ret (out, q) /\ nth_error (clines (if_content f)) 0 = Some l /\ all_visible demo l
  /\ left_ellipsis f = true /\ px (if_scroll f) + 1 = 5 /\ first_idx_at demo l 5 4 /\ columns demo (firstn 4 l) = 5
  /\ In (mkSpot 5 4 (Some cs_default) 101) (screen demo 0 0 out)
  /\ apply_click_event demo f 5 4 = Ret (with_content f (set_cpos (if_content f) (mkPos 0 5)), true).
Proof.
  eexists _, _, _, _. split; [vm_compute; reflexivity|]. split; [vm_compute; reflexivity|]. split; [reflexivity|].
  split; [intros c H; repeat (destruct H as [<-|H]; [vm_compute; lia|]); destruct H|]. split; [vm_compute; reflexivity|]. split; [reflexivity|].
  split; [split; [left; split; apply Nat.leb_le; vm_compute; reflexivity|intros [|[|[|[|j]]]] H; try (apply Nat.ltb_lt; vm_compute; reflexivity); exfalso; lia]|]. split; [vm_compute; reflexivity|].
  split; [|vm_compute; reflexivity]. vm_compute. auto 10.
Qed.
(** A click on the second column of a wide char puts the cursor after it *)
Theorem C15_wide_refuted : exists f out q, if_run demo (demo_field 10 1) [IfSetStr [20013; 97]%N] = Ret f /\ display_on demo f = Ret (out, q)
  /\ map cell (firstn 2 (screen demo 0 0 out)) = [(3, 4, 20013); (5, 4, 97)]%N
  /\ apply_click_event demo f 4 4 = Ret (with_content f (set_cpos (if_content f) (mkPos 0 1)), true).
Proof. eexists _, _, _. split; [vm_compute; reflexivity|]. repeat split; vm_compute; reflexivity. Qed.
(** When a wide char is cut by the left side, a click on the second displayed char ("e") puts the cursor on the first one ("d") *)
Theorem C15_cut_refuted : exists f out q, if_run demo (demo_field 6 1) [IfSetStr [97; 98; 99; 20013; 100; 101; 102; 103]%N; IfLeft; IfLeft; IfLeft; IfLeft] = Ret f
  /\ display_on demo f = Ret (out, q) /\ map cell (firstn 3 (screen demo 0 0 out)) = [(3, 4, 8230); (4, 4, 100); (5, 4, 101)]%N
  /\ apply_click_event demo f 5 4 = Ret (with_content f (set_cpos (if_content f) (mkPos 0 4)), true).
Proof. eexists _, _, _. split; [vm_compute; reflexivity|]. repeat split; vm_compute; reflexivity. Qed.

(** ** C42 A scrollbar is displayed exactly when there's something to scroll *)

(** In an input field: each row has a scrollbar when there are more lines than rows, and no row has one otherwise.
    Missing: the fields of more than 65535 lines ([C42_tall_field_refuted]) *)
Theorem C42_input_field_partial : forall u f out p, usual_widths u -> on_screen (if_area f) -> 1 <= text_width f -> (N.of_nat (nb_lines f) < 65536)%N ->
  display_on u f = Ret (out, p) ->
  exists (sb : option (N * N)) rows ps, out = SetBg Reset :: concat rows /\ length rows = height f /\ length ps = height f
    /\ (forall i row p, nth_error rows i = Some row -> nth_error ps i = Some p -> row_shown u f (scrollbar_style f) (text_width f) sb (N.of_nat i) row p)
    /\ (sb <> None <-> height f < nb_lines f).
Proof.
  intros u f out p HU HS W1 HL ED. destruct (@display_on_spec u f out p HU HS W1 ED) as (sb & rows & ps & Esb & E & _ & L1 & L2 & HR).
  destruct (@scrollbar_width f sb HL Esb) as [Ew HB]. rewrite Ew in HR. exists sb, rows, ps. auto.
Qed.
Definition tall_field : InputField := with_content (demo_field 5 2) (mkContent (mkPos 0 0) None (repeat [97%N] (N.to_nat 65537))).
(** An input field with 65537 lines has no scrollbar *)
Theorem C42_tall_field_refuted : exists out p, (N.of_nat (nb_lines tall_field) = 65537)%N /\ a_height (if_area tall_field) = 2%N /\ display_on demo tall_field = Ret (out, p)
  /\ out_text out = [97; 32; 32; 32; 32; 97; 32; 32; 32; 32]%N.
Proof. eexists _, _. split; [vm_compute; reflexivity|]. split; [reflexivity|]. split; vm_compute; reflexivity. Qed.
(** Whatever the number of lines: what counts is this number as a [u16], so that the scrollbar is wrong exactly for the fields of at least 65536
    lines whose number of lines, as a [u16], isn't over the height *)
Theorem C42_field_exact : forall u f out p, usual_widths u -> on_screen (if_area f) -> 1 <= text_width f -> display_on u f = Ret (out, p) ->
  exists (sb : option (N * N)) rows ps, out = SetBg Reset :: concat rows /\ length rows = height f /\ length ps = height f
    /\ (forall i row p, nth_error rows i = Some row -> nth_error ps i = Some p ->
          row_shown u f (scrollbar_style f) (N.to_nat (a_width (if_area f)) - (if sb then 1 else 0)) sb (N.of_nat i) row p)
    /\ (sb <> None <-> (a_height (if_area f) < N.of_nat (nb_lines f) mod 65536)%N)
    /\ ((sb <> None <-> height f < nb_lines f) <-> ~ (65536 <= N.of_nat (nb_lines f) /\ N.of_nat (nb_lines f) mod 65536 <= a_height (if_area f))%N).
Proof.
  intros u f out p HU HS W1 ED. destruct (@display_on_spec u f out p HU HS W1 ED) as (sb & rows & ps & Esb & E & _ & L1 & L2 & HR).
  exists sb, rows, ps. split; [exact E|]. split; [exact L1|]. split; [exact L2|]. split; [exact HR|].
  assert (B : sb <> None <-> (a_height (if_area f) < N.of_nat (nb_lines f) mod 65536)%N).
  { unfold area_scrollbar in Esb. change (line_count (if_content f)) with (nb_lines f) in Esb. rewrite compute_scrollbar_eq in Esb. change U16 with 65536%N in Esb.
    destruct (N.leb_spec (N.of_nat (nb_lines f) mod 65536)%N (a_height (if_area f))) as [L|L]; [injection Esb as <-; split; [congruence|lia]|].
    destruct (_ && _); [|discriminate]. injection Esb as <-. split; [intros _; exact L|discriminate]. }
  split; [exact B|]. rewrite B. unfold height. destruct (N.lt_ge_cases (N.of_nat (nb_lines f)) 65536) as [L|L].
  - rewrite N.mod_small by exact L. split; [lia|lia].
  - destruct HS as (_ & HS). revert B. generalize (N.of_nat (nb_lines f) mod 65536)%N. intros m _. split; [lia|lia].
Qed.
Print Assumptions C42_field_exact.
Example C42_input_field_example : exists f0 out p, field_10 = Ret f0 /\ display_on demo f0 = Ret (out, p)
  /\ map cell (filter (fun s => N.eqb (s_char s) 9616) (screen demo 0 0 out)) = [(22, 4, 9616); (22, 5, 9616); (22, 6, 9616)]%N.
Proof. eexists _, _, _. split; [vm_compute; reflexivity|]. split; vm_compute; reflexivity. Qed.

(** ** C71 An input field shows its text from its scroll *)

(** Each row of the area shows the line at this place, from the char at the horizontal scroll, with ellipsis for what's cut: [row_shown]. The terminal
    position is the one of the last cell with the cursor style, and the scrollbar is at the place given by the area *)
Theorem C71_display : forall u f out p, usual_widths u -> on_screen (if_area f) -> 1 <= text_width f -> (N.of_nat (nb_lines f) < 65536)%N -> display_on u f = Ret (out, p) ->
  exists sb rows ps, area_scrollbar (if_area f) (N.of_nat (py (if_scroll f)) mod U16) (N.of_nat (nb_lines f)) = Ret sb
  /\ out = SetBg Reset :: concat rows /\ p = last_some ps /\ length rows = height f /\ length ps = height f
  /\ forall i row p, nth_error rows i = Some row -> nth_error ps i = Some p -> row_shown u f (scrollbar_style f) (text_width f) sb (N.of_nat i) row p.
Proof.
  intros u f out p HU HS W1 HL ED. destruct (@display_on_spec u f out p HU HS W1 ED) as (sb & rows & ps & Esb & E & Ep & L1 & L2 & HR).
  destruct (@scrollbar_width f sb HL Esb) as [Ew HB]. rewrite Ew in HR. exists sb, rows, ps. split; [|repeat split; assumption].
  change (line_count (if_content f)) with (nb_lines f) in Esb. rewrite (N.mod_small _ U16 HL) in Esb. exact Esb.
Qed.
(** The scrollbar has the style of the default skin, on the background of the focused field *)
Theorem C71_scrollbar_style : forall f, let s := scrollbar skin_default in
  (focused f = false -> scrollbar_style f = s)
  /\ (focused f = true -> bg (focused_style f) = None -> scrollbar_style f = s)
  /\ (forall b, focused f = true -> bg (focused_style f) = Some b -> scrollbar_style f = sb_set_bg s b).
Proof. intros f s. unfold scrollbar_style. fold s. split; [intros ->; reflexivity|]. split; [intros -> ->; reflexivity|]. intros b -> ->. reflexivity. Qed.
(** A field which isn't focused shows no cursor and no selection *)
Theorem C71_unfocused : forall u f out p, usual_widths u -> on_screen (if_area f) -> 1 <= text_width f -> (N.of_nat (nb_lines f) < 65536)%N -> no_tab_shown f -> focused f = false ->
  display_on u f = Ret (out, p) -> p = None.
Proof.
  intros u f out [[x y]|] HU HS W1 HL NT F ED; [|reflexivity]. destruct (@C13_cursor_partial u f out x y HU HS W1 NT HL ED) as (_ & G & _). congruence.
Qed.
(** Nothing of a password is displayed but its length: two fields which differ only by the chars of their lines are drawn the same *)
Lemma draw_chars_password u f f' normal sel n w skip j : password_mode f = true -> password_mode f' = true -> if_area f = if_area f' -> cursor_style f = cursor_style f' ->
  forall a b i s d, length a = length b -> draw_chars u f normal sel n w skip j a i s d = draw_chars u f' normal sel n w skip j b i s d.
Proof.
  intros P P' EA EC. induction a as [|c a IH]; intros [|c' b] i s d HL; try discriminate; [reflexivity|]. injection HL as HL. cbn [draw_chars]. rewrite P, P', EA, EC.
  destruct (s <? skip); [apply IH; exact HL|]. destruct (_ && _); [reflexivity|]. destruct (sel i).
  - destruct (cursor_at (if_area f') d j); [|reflexivity|reflexivity]. cbn [bind]. destruct (w <=? _); [reflexivity|]. rewrite (IH b) by exact HL. reflexivity.
  - cbn [bind]. destruct (w <=? _); [reflexivity|]. rewrite (IH b) by exact HL. reflexivity.
Qed.
Theorem C71_password : forall u f ls, password_mode f = true -> Forall2 (fun a b : list char => length a = length b) (clines (if_content f)) ls ->
  display_on u (with_content f (mkContent (cpos (if_content f)) (ctail (if_content f)) ls)) = display_on u f.
Proof.
  intros u f ls P HF. set (f' := with_content f _). unfold display_on. cbv zeta. change (focused f') with (focused f). change (focused_style f') with (focused_style f). change (unfocused_style f') with (unfocused_style f).
  change (if_area f') with (if_area f). change (if_scroll f') with (if_scroll f). change (scrollbar_style f') with (scrollbar_style f).
  assert (EL : line_count (if_content f') = line_count (if_content f)) by (unfold line_count; change (clines (if_content f')) with ls; clear - HF; induction HF; cbn; congruence).
  rewrite EL. change (clines (if_content f')) with ls.
  set (normal := if focused f then _ else _). destruct (area_scrollbar _ _ _) as [sb| |]; [|reflexivity|reflexivity]. cbn [bind]. destruct (match sb with Some _ => _ | None => _ end) as [w| |]; [|reflexivity|reflexivity]. cbn [bind].
  assert (HS : Forall2 (fun a b : list char => length a = length b) (skipn (py (if_scroll f)) (clines (if_content f))) (skipn (py (if_scroll f)) ls)).
  { generalize (py (if_scroll f)) as n. clear - HF. induction HF; intros [|n]; cbn; try constructor; auto. }
  enough (G : forall rows a b y j, Forall2 (fun a b : list char => length a = length b) a b ->
     draw_rows u f' normal (scrollbar_style f) w sb b y j rows = draw_rows u f normal (scrollbar_style f) w sb a y j rows) by (rewrite (G _ _ _ _ _ HS); reflexivity).
  clear - P. induction rows as [|rows IH]; intros a b y j H; [reflexivity|]. cbn [draw_rows]. change (if_area f') with (if_area f).
  destruct (add16 _ _) as [ay| |]; [|reflexivity|reflexivity]. cbn [bind].
  assert (IH' : draw_rows u f' normal (scrollbar_style f) w sb (tl b) (S y) (j + 1) rows = draw_rows u f normal (scrollbar_style f) w sb (tl a) (S y) (j + 1) rows) by (apply IH; destruct H; cbn; [constructor|assumption]).
  rewrite IH'. replace (match b with chars :: _ => draw_line u f' normal w j y chars | [] => _ end) with (match a with chars :: _ => draw_line u f normal w j y chars | [] => o <- filling_queue_styled SPACE_FILLING normal w ;; Ret (o, None) end); [reflexivity|].
  destruct H as [|ca cb a b Hc _]; [reflexivity|]. unfold draw_line. cbv zeta. change (focused f') with (focused f). change (if_scroll f') with (if_scroll f). change (cpos (if_content f')) with (cpos (if_content f)).
  change (selection (if_content f')) with (selection (if_content f)). change (cursor_style f') with (cursor_style f). change (if_area f') with (if_area f). rewrite Hc.
  rewrite (@draw_chars_password u f f' normal) with (b := cb) by (first [exact P|reflexivity|exact Hc]). reflexivity.
Qed.
Example C71_example : exists f out, if_run demo (demo_field 5 1) [IfPassword true; IfPut 97; IfPut 98; IfPut 99] = Ret f /\ to_string (if_content f) = [97; 98; 99]%N
  /\ display_on demo f = Ret (out, Some (6, 4)%N) /\ out_text out = [42; 42; 42; 32; 32]%N.
Proof. eexists _, _. split; [vm_compute; reflexivity|]. repeat split; vm_compute; reflexivity. Qed.

Print Assumptions C12_only_scroll.
Print Assumptions C12_row_partial.
Print Assumptions C12_below_hidden.
Print Assumptions C12_vertical_scroll.
Print Assumptions C12_horizontal_scroll.
Print Assumptions C12_column_partial.
Print Assumptions C12_drawn_partial.
Print Assumptions C12_below_refuted.
Print Assumptions C12_backspace_refuted.
Print Assumptions C12_delete_refuted.
Print Assumptions C12_small_width_refuted.
Print Assumptions C12_password_refuted.
Print Assumptions C13_rows_partial.
Print Assumptions C13_no_panic.
Print Assumptions C13_cursor_partial.
Print Assumptions C13_cursor_refuted.
Print Assumptions C13_no_room_refuted.
Print Assumptions C13_tab_refuted.
Print Assumptions C15_click.
Print Assumptions C15_unique.
Print Assumptions C15_displayed_partial.
Print Assumptions C15_narrow.
Print Assumptions C15_line_end.
Print Assumptions C15_wide_refuted.
Print Assumptions C15_cut_refuted.
Print Assumptions C42_input_field_partial.
Print Assumptions C42_tall_field_refuted.
Print Assumptions C71_display.
Print Assumptions C71_scrollbar_style.
Print Assumptions C71_unfocused.
Print Assumptions C71_password.
