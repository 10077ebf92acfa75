(** * Properties C76 and C77: a whole text drawn in an area, or printed *)
From Verif Require Import Base L_Base Demo M_Style M_Fit S_Fit L_Fit M_Wrap S_Wrap L_Wrap P_Wrap M_TblFit S_TblFit P_TblFit M_Text S_Text L_Text L_Text2 L_Text3 P_Text
  M_Fitter S_Fitter P_Fitter M_View S_View L_View P_View M_Render S_Render L_Render P_Render S_Input L_Input L_Input2 M_Area S_Area.
Set Implicit Arguments.
Open Scope nat_scope.

(** ** Formatting doesn't fail *)
Lemma source_fitting u k w l : (forall c, chw u c <= 2) -> area_source u k w l -> fitting_source u k w l.
Proof.
  intros H2 H. destruct l as [c|cells|als| |]; cbn [area_source fitting_source] in *; auto.
  - destruct H as [_ H]. intros lm rm Hm. destruct (H _ _ Hm) as [Ha Hb]. split; [exact Hb|]. intros ch _. specialize (H2 ch). pose proof (lead_next k (kind_of (mc_style c))). lia.
  - destruct H as (Hn & _ & HF). split; [exact Hn|]. intros c ch Hc _. rewrite Forall_forall in HF. rewrite (HF c Hc). cbn. specialize (H2 ch). lia.
  - apply H.
Qed.
Lemma source_formatted u k um text w : skin_ok k -> 5 <= w -> Forall (area_source u k w) text ->
  exists t, from_text u k um text (Some w) = Ret t /\ txt_width t = Some w.
Proof.
  intros Hk Hw HF. rewrite Forall_forall in HF. apply C32_text_no_panic_partial; [exact Hk|apply wide_safe|].
  - intros cells c Hin Hc. apply in_map_iff in Hin as (m & Em & Hm). specialize (HF _ Hm). destruct m as [|cells0| | |]; try discriminate. cbn [line_from] in Em. injection Em as <-.
    apply in_map_iff in Hc as (c0 & <- & Hc0). destruct HF as (_ & _ & HF). rewrite Forall_forall in HF. apply (HF _ Hc0).
  - intros l Hin. apply in_map_iff in Hin as (m & <- & Hm). specialize (HF _ Hm). destruct m; cbn [line_from cols_asked area_source aligns] in *; try lia.
    rewrite map_length. lia.
  - apply Forall_forall. intros l Hin. apply in_map_iff in Hin as (m & <- & Hm). specialize (HF _ Hm). destruct m; cbn [line_from line_ok area_source] in *; auto.
    destruct HF as [Hg HF]. split; [exact (proj1 Hg)|]. intros lm rm Hmar. destruct (HF _ _ Hmar). cbn [fc_from fc_kind] in *. lia.
Qed.

(** The kinds of the cells *)
Lemma replaces_kinds u k ws cells g : (forall c, In c cells -> fc_kind c = KParagraph) -> replaces u k ws (TableRow cells) g ->
  forall cells' c, In (TableRow cells') g -> length cells' <= length ws -> In c cells' -> fc_kind c = KParagraph.
Proof.
  intros Hok (css & HF & _ & _ & Hcol & Hno) cells' c Hin Hlen' Hc. apply In_nth_error in Hc as (i & Ec).
  assert (Hlen : i < length ws) by (apply Nat.lt_le_trans with (length cells'); [apply nth_error_Some; congruence|exact Hlen']). pose proof (column_in _ _ _ Hin Ec) as Hc.
  destruct (nth_error cells i) as [c0|] eqn:E0.
  - assert (exists w, nth_error (combine cells ws) i = Some (c0, w)) as (w & Ecw).
    { clear - E0 Hlen. revert ws i E0 Hlen. induction cells as [|x cells IH]; intros [|y ws] [|i]; cbn; try discriminate; try lia.
      - intros E. injection E as ->. eauto.
      - intros E Hl. apply IH; [exact E|lia]. }
    destruct (nth_error css i) as [ls|] eqn:El.
    2:{ apply nth_error_None in El. rewrite <- (Forall2_len HF) in El. assert (i < length (combine cells ws)) by (apply nth_error_Some; congruence). lia. }
    assert (Hls : in_column u k w c0 ls).
    { clear - HF Ecw El. revert i Ecw El. induction HF as [|x y l l' H _ IH]; intros [|i]; cbn; try discriminate; [|apply IH]. intros E E'. injection E as ->. injection E' as ->. exact H. }
    destruct (Hcol i ls El) as (_ & H2 & _). apply (in_map fc_kind) in Hc. rewrite H2 in Hc. apply in_app_or in Hc as [Hc|Hc]; [|eapply repeat_spec; exact Hc].
    apply in_map_iff in Hc as (c' & <- & Hc'). specialize (Hok c0 (nth_error_In _ _ E0)). destruct Hls as [(_ & ->)|(_ & E)].
    + destruct Hc' as [<-|[]]. exact Hok.
    + destruct (C25_kinds _ _ _ _ E) as (f & o & Eo & Hk1 & Hk2 & _). rewrite Forall_forall in Hk2. rewrite Hok in *. cbn [next_kind] in Hk2.
      rewrite Eo in Hc'. destruct Hc' as [<-|Hc']; [exact Hk1|apply Hk2, Hc'].
  - apply nth_error_None in E0. specialize (Hno i E0). rewrite Forall_forall in Hno. apply (Hno _ Hc).
Qed.
Lemma next_good kind : drawn_kind kind -> drawn_kind (next_kind kind).
Proof. intros (H & D). split; destruct kind; cbn in *; auto; discriminate. Qed.
Lemma text_good_cells u k um text w t : 5 <= w -> from_text u k um text (Some w) = Ret t -> Forall (area_source u k w) text -> Forall good_cells (txt_lines t).
Proof.
  intros Hw E Hsrc. unfold from_text in E. apply bind_Ret_inv in E as (l1 & E1 & E).
  destruct (Nat.leb_spec 3 w); [|lia]. apply bind_Ret_inv in E as ([l3|] & E3 & E); [|discriminate]. injection E as <-. cbn [txt_lines].
  rewrite Forall_forall in Hsrc.
  assert (S1 : Forall good_cells l1).
  { apply fix_all_iff in E1. eapply by_runs_out; [exact E1|..].
    - intros l Hl _. apply in_map_iff in Hl as (m & <- & Hm). specialize (Hsrc _ Hm). destruct m as [c|cells|als| |]; cbn [line_from good_cells area_source] in *; auto; [apply Hsrc|].
      destruct Hsrc as (_ & _ & HF). rewrite Forall_forall in *. intros c Hc. apply in_map_iff in Hc as (c0 & <- & Hc0). cbn [fc_from fc_kind]. rewrite (HF _ Hc0). split; [discriminate|exact I].
    - intros t t' Hi Hne Ht H1. apply Forall_forall. intros l' Hl'. destruct l' as [fc|cells'| |]; cbn [good_cells]; auto.
      { pose proof (laid_tables Ht H1) as Ht'. rewrite Forall_forall in Ht'. specialize (Ht' _ Hl'). discriminate. }
      assert (Hsrc' : forall cells c, In (TableRow cells) t -> In c cells -> fc_kind c = KParagraph).
      { intros cells c Hin Hc. specialize (Hi _ Hin). apply in_map_iff in Hi as (m & Em & Hm). specialize (Hsrc _ Hm). destruct m as [|cells0| | |]; try discriminate. cbn [line_from] in Em. injection Em as <-.
        apply in_map_iff in Hc as (c0 & <- & Hc0). destruct Hsrc as (_ & _ & HF). rewrite Forall_forall in HF. apply (HF _ Hc0). }
      apply Forall_forall. intros c Hc.
      assert (Hp : fc_kind c = KParagraph).
      { destruct (Nat.eq_dec (table_cols t) 0) as [E0|N0].
        - assert (t' = t) by (destruct H1 as [_ ->|ws gs H0|ws gs H0]; [reflexivity|lia|lia]). subst t'. eapply Hsrc'; eassumption.
        - destruct (laid_replaces Ht H1 ltac:(lia) ltac:(lia)) as (ws & gs & _ & Hcols & -> & HR). pose proof Hl' as Hin. apply in_concat in Hin as (g & Hg & Hin). destruct (Forall2_r_in HR _ Hg) as (l & Hl & Hr).
          rewrite Forall_forall in Hcols. specialize (Hcols _ Hl'). cbn [has_columns] in Hcols. apply Forall2_len in Hcols.
          destruct l as [|cells0|ru|]; cbn [replaces] in Hr; try tauto.
          + eapply (@replaces_kinds u k ws cells0 g); [intros; eapply Hsrc'; eassumption|exact Hr|exact Hin|rewrite Hcols; apply le_n|exact Hc].
          + destruct Hr as (r' & -> & _). destruct Hin as [H'|[]]. discriminate. }
      rewrite Hp. split; [discriminate|exact I]. }
  assert (S2 : Forall good_cells (justify_blocks l1)).
  { rewrite Forall_forall in S1. eapply by_runs_out; [apply C34_justified|..]; [intros; apply S1; assumption|].
    intros t t' Hi _ _ (w0 & _ & _ & HF). apply Forall_forall. intros l' Hl'. destruct (Forall2_r_in HF _ Hl') as (l & Hl & fc & -> & ->).
    specialize (S1 _ (Hi _ Hl)). exact S1. }
  apply C26_lines in E3 as (gs & -> & HF). apply Forall_forall. intros l Hin. apply in_concat in Hin as (g & Hg & Hin). destruct (Forall2_r_in HF _ Hg) as (l0 & Hl0 & Hr).
  rewrite Forall_forall in S2. specialize (S2 _ Hl0). destruct l0 as [fc0| | |]; try (subst g; destruct Hin as [<-|[]]; exact S2).
  destruct Hr as (lm & rm & Hm & [(_ & ->)|(_ & fcs & Ew & ->)]); [destruct Hin as [<-|[]]; exact S2|].
  apply in_map_iff in Hin as (fc & <- & Hin). destruct (C25_kinds _ _ _ _ Ew) as (f & o & Eo & Hk1 & Hk2 & _). rewrite Forall_forall in Hk2. cbn [good_cells] in *.
  rewrite Eo in Hin. destruct Hin as [<-|Hin]; [rewrite Hk1; exact S2|]. rewrite (Hk2 _ Hin). apply next_good, S2.
Qed.

(** ** A line formatted for a width, displayed in one more column *)
Lemma printable_more u k w w' l : w' = S w -> margins_not_just k w' -> printable u k w l -> printable u k w' l.
Proof.
  intros -> Hm (H1 & H2 & H3). split; [exact H1|]. split; [exact H2|]. intros n Hn. destruct l as [fc|cells|r|]; cbn [needs] in *.
  - destruct Hn as (ls & lm & rm & El & [Ha Hb] & ->). specialize (Hb eq_refl). cbv iota in Hb. specialize (Hm _ _ El).
    assert (Hx : room fc + lm + rm <= w); [|lia]. apply H3. exists ls, lm, rm. split; [exact El|]. split; [|reflexivity]. split; [discriminate|]. intros _. destruct Hb as [Hb1 Hb2].
    split; intros; [apply Hb1|apply Hb2]; lia.
  - specialize (H3 _ Hn). lia.
  - specialize (H3 _ Hn). lia.
  - lia.
Qed.

(** ** Everything is written with a style *)
Definition styled_cmd (c : cmd) : Prop := exists cs s, c = Styled cs s.
Local Ltac sty := repeat match goal with
  | |- Forall _ (_ ++ _) => apply Forall_app; split
  | |- Forall _ (_ :: _) => constructor
  | |- Forall _ [] => constructor
  | |- styled_cmd (Styled _ _) => eexists _, _; reflexivity
  end.
Lemma sty_space cs n : Forall styled_cmd (cs_repeat_space cs n).
Proof. unfold cs_repeat_space, cs_repeat_string. destruct (0 <? n); sty. Qed.
Lemma sty_char cs c n : Forall styled_cmd (cs_repeat_char cs c n).
Proof. unfold cs_repeat_char. destruct (0 <? n); sty. Qed.
Lemma sty_concat n l : Forall styled_cmd l -> Forall styled_cmd (concat (repeat l n)).
Proof. intros H. induction n; cbn; sty; auto. Qed.
Lemma sty_composite special k fc o wr wm out : write_fmt_composite special k fc o wr wm = Ret out -> Forall styled_cmd out.
Proof.
  unfold write_fmt_composite. intros E. apply bind_Ret_inv in E as (ls & _ & E). apply bind_Ret_inv in E as ([] & _ & E). destruct (if wm then _ else _) as [lm rm]. destruct (fc_completions fc) as [lpi rpi].
  destruct (optional_completions _ _ _) as [lpo rpo]. injection E as <-. unfold ls_repeat_space. sty; try apply sty_space; try apply sty_char.
  - unfold composite_mark. cbv zeta. sty; [destruct (fc_kind fc)|destruct (indent_mode k), (fc_kind fc)|destruct (fc_kind fc)]; try apply Forall_nil; repeat first [apply Forall_app; split]; try (apply sty_concat); unfold sc_queue, cs_queue; sty.
  - apply Forall_forall. intros c Hc. apply in_flat_map in Hc as (x & _ & Hc). unfold compound_out in Hc. destruct (special x); destruct Hc as [<-|[]]; eexists _, _; reflexivity.
  - destruct wr; [apply sty_char|constructor].
Qed.
Lemma sty_cells special k cells out : write_cells special k cells = Ret out -> Forall styled_cmd out.
Proof.
  revert out. induction cells as [|c cells IH]; intros out E; cbn [write_cells] in E; [injection E as <-; constructor|].
  apply bind_Ret_inv in E as (l & E1 & E). apply bind_Ret_inv in E as (r & E2 & E). injection E as <-. unfold cs_queue. apply sty_composite in E1. apply IH in E2. cbn [app]. sty; auto.
Qed.
Lemma sty_rule k p : forall ws first, Forall styled_cmd (rule_cells k p first ws).
Proof. induction ws as [|w ws IH]; intros first; cbn [rule_cells]; [constructor|]. sty; [destruct first; unfold cs_queue; sty|apply sty_char|apply IH]. Qed.
Lemma sty_line special k line width wr out : write_fmt_line special k line width wr = Ret out -> Forall styled_cmd out.
Proof.
  unfold write_fmt_line. destruct line as [fc|cells|r|]; intros E.
  - eapply sty_composite; exact E.
  - destruct (optional_completions _ _ _) as [a b]. apply bind_Ret_inv in E as (l & E1 & E). apply sty_cells in E1. injection E as <-. unfold cs_queue, ls_repeat_space. sty; try apply sty_space; try apply sty_char; auto. destruct wr; [apply sty_char|constructor].
  - destruct (optional_completions _ _ _) as [a b]. injection E as <-. unfold cs_queue, ls_repeat_space. sty; try apply sty_space; try apply sty_char; [apply sty_rule|]. destruct wr; [apply sty_char|constructor].
  - injection E as <-. destruct width; unfold sc_repeated; sty.
Qed.
Lemma styled_text_cmd l : Forall styled_cmd l -> Forall text_cmd l.
Proof. apply Forall_impl. intros c (cs & s & ->). right. eauto. Qed.
Lemma put_chars u y st s : forall x, row_chars (put u x y st s) = map (fun c => (c, st)) s.
Proof. induction s as [|c s IH]; intros x; [reflexivity|]. cbn. f_equal. apply IH. Qed.
Lemma screen_chars u y l : Forall styled_cmd l -> forall x, row_chars (screen u x y l) = with_style (drawn l).
Proof.
  induction 1 as [|c l (cs & s & ->) _ IH]; intros x; [reflexivity|]. cbn [screen]. unfold row_chars, with_style, drawn in *. cbn [flat_map]. rewrite !map_app, IH. f_equal.
  change (row_chars (put u x y (Some cs) s) = map (fun p => (fst p, Some (snd p))) (map (fun ch => (ch, cs)) s)). rewrite put_chars, map_map. reflexivity.
Qed.
Lemma printed_sumw u l : printed u l = sumw (chw u) (out_text l).
Proof. unfold printed, drawn_width. rewrite drawn_text. reflexivity. Qed.

(** ** Tiled rows fill an area *)
Lemma tiles_covers u y : forall row x0 x1, tiles u y x0 row x1 -> x0 <= x1
  /\ (forall x y', (exists s, In s row /\ covers u s x y') <-> y' = y /\ x0 <= x < x1)
  /\ (forall i j s t x y', nth_error row i = Some s -> nth_error row j = Some t -> covers u s x y' -> covers u t x y' -> i = j).
Proof.
  induction row as [|s row IH]; intros x0 x1; cbn [tiles].
  - intros ->. split; [lia|]. split; [|intros [] ? ? ? ? ?; discriminate]. intros x y'. split; [intros (s & [] & _)|lia].
  - intros (Hy & Hx & Ht). destruct (IH _ _ Ht) as (I1 & I2 & I3). split; [lia|]. split.
    + intros x y'. split.
      * intros (s' & [<-|Hin] & Hc); [destruct Hc; lia|]. destruct (proj1 (I2 x y') (ex_intro _ s' (conj Hin Hc))). lia.
      * intros (-> & Hr). destruct (Nat.lt_ge_cases x (x0 + chw u (s_char s))) as [L|L].
        -- exists s. split; [left; reflexivity|]. unfold covers. lia.
        -- destruct (proj2 (I2 x y)) as (s' & Hin & Hc); [lia|]. exists s'. split; [right; exact Hin|exact Hc].
    + assert (HX : forall j t x y', nth_error row j = Some t -> covers u s x y' -> covers u t x y' -> False).
      { intros j t x y' Hj Hs Ht'. destruct (proj1 (I2 x y')) as [_ Hr]; [exists t; split; [eapply nth_error_In; exact Hj|exact Ht']|]. unfold covers in Hs. lia. }
      intros [|i] [|j] a b x y' Hi Hj Ha Hb; cbn [nth_error] in *; [reflexivity| | |f_equal; eapply I3; eassumption].
      * injection Hi as <-. destruct (HX _ _ _ _ Hj Ha Hb).
      * injection Hj as <-. destruct (HX _ _ _ _ Hi Hb Ha).
Qed.
Lemma rows_cover u x0 x1 : forall rows y0, (forall j row, nth_error rows j = Some row -> tiles u (y0 + j) x0 row x1) ->
  (forall x y, (exists s, In s (concat rows) /\ covers u s x y) <-> y0 <= y < y0 + length rows /\ x0 <= x < x1)
  /\ (forall i j s t x y, nth_error (concat rows) i = Some s -> nth_error (concat rows) j = Some t -> covers u s x y -> covers u t x y -> i = j).
Proof.
  induction rows as [|row rows IH]; intros y0 H.
  - split; [|intros [] ? ? ? ? ?; discriminate]. intros x y. cbn. split; [intros (s & [] & _)|lia].
  - assert (Ht := H 0 row eq_refl). rewrite Nat.add_0_r in Ht. destruct (tiles_covers _ _ _ _ _ Ht) as (I1 & I2 & I3).
    destruct (IH (S y0)) as [J1 J2]. { intros j r Hj. specialize (H (S j) r Hj). replace (S y0 + j) with (y0 + S j) by lia. exact H. }
    cbn [concat length]. split.
    + intros x y. split.
      * intros (s & Hin & Hc). apply in_app_or in Hin as [Hin|Hin].
        -- destruct (proj1 (I2 x y) (ex_intro _ s (conj Hin Hc))). lia.
        -- destruct (proj1 (J1 x y) (ex_intro _ s (conj Hin Hc))). lia.
      * intros (Hy & Hx). destruct (Nat.eq_dec y y0) as [->|Ny].
        -- destruct (proj2 (I2 x y0)) as (s & Hin & Hc); [lia|]. exists s. split; [apply in_or_app; left; exact Hin|exact Hc].
        -- destruct (proj2 (J1 x y)) as (s & Hin & Hc); [lia|]. exists s. split; [apply in_or_app; right; exact Hin|exact Hc].
    + intros i j s t x y Hi Hj Hs Ht'.
      assert (D : forall i s, nth_error (row ++ concat rows) i = Some s -> covers u s x y ->
        (y = y0 /\ i < length row /\ nth_error row i = Some s) \/ (y0 < y /\ length row <= i /\ nth_error (concat rows) (i - length row) = Some s)).
      { intros i0 s0 H0 Hc. destruct (Nat.lt_ge_cases i0 (length row)) as [L|L].
        - rewrite nth_error_app1 in H0 by exact L. left. destruct (proj1 (I2 x y)) as [-> _]; [exists s0; split; [eapply nth_error_In; exact H0|exact Hc]|]. auto.
        - rewrite nth_error_app2 in H0 by exact L. right. destruct (proj1 (J1 x y)) as [Hy _]; [exists s0; split; [eapply nth_error_In; exact H0|exact Hc]|]. split; [lia|auto]. }
      destruct (D _ _ Hi Hs) as [(A1 & A2 & A3)|(A1 & A2 & A3)], (D _ _ Hj Ht') as [(B1 & B2 & B3)|(B1 & B2 & B3)]; try lia.
      * eapply I3; eassumption.
      * assert (i - length row = j - length row) by (eapply J2; eassumption). lia.
Qed.
Lemma rows_fill u a rows : length rows = N.to_nat (a_height a) ->
  (forall j row, nth_error rows j = Some row -> tiles u (N.to_nat (a_top a) + j) (N.to_nat (a_left a)) row (N.to_nat (a_left a) + N.to_nat (a_width a))) ->
  fills u a (concat rows).
Proof.
  intros Hl H. destruct (@rows_cover u _ _ rows _ H) as [H1 H2]. split; [|exact H2]. intros x y. rewrite H1. unfold cell_in. lia.
Qed.

(** ** C76 *)

(** The row [j] of the area, on the screen: the line [scroll + j] or blanks, then the scrollbar *)
Definition shows_row (u : unicode) (special : Special) (k : MadSkin) (lines : list FmtLine) (w : nat) (scroll : nat) (sb : option (N * N)) (top : nat) (j : nat) (row : list spot) : Prop :=
  exists d bar, row_chars row = with_style (d ++ bar)
  /\ match nth_error lines (scroll + j) with
     | Some l => line_drawn special k l (Some w) true d
     | None => d = blanks (ls_cs (paragraph k)) w
     end
  /\ match sb with
     | None => bar = []
     | Some (t, b) => let y := N.of_nat (top + j) in
         ((t <= y <= b)%N -> bar = [drawn_char (thumb (scrollbar k))]) /\ (~ (t <= y <= b)%N -> bar = [drawn_char (track (scrollbar k))])
     end.
Lemma filled_drawn cs c n : out_text c = repeat 32%N n -> Forall (fun c => exists s, c = Styled cs s) c -> drawn c = blanks cs n.
Proof.
  intros Ho HF. assert (E : drawn c = map (fun ch => (ch, cs)) (out_text c)).
  { clear Ho. induction HF as [|x l (s & ->) _ IH]; [reflexivity|]. unfold drawn, out_text in *. cbn [flat_map cmd_text]. rewrite map_app, IH. reflexivity. }
  rewrite E, Ho. unfold blanks. apply map_repeat.
Qed.
Lemma row_shown u special k lines a s show w sb j row : narrow_chars u k -> same_widths u special ->
  Forall (fun c => chw u (fst (drawn_char c)) = 1) [thumb (scrollbar k); track (scrollbar k)] ->
  Forall (printable u k (N.to_nat w)) lines ->
  row_ok (render_line special k) (mkTV a lines k s show) w sb (N.of_nat j) row ->
  (exists x y l, row = MoveTo x y :: l /\ Forall text_cmd l)
  /\ tiles u (N.to_nat (a_top a) + j) (N.to_nat (a_left a)) (screen u 0 0 row) (N.to_nat (a_left a) + N.to_nat (a_width a))
  /\ shows_row u special k lines (N.to_nat w) (N.to_nat s) sb (N.to_nat (a_top a)) j (screen u 0 0 row).
Proof.
  intros Hn Hs Hb HF (content & bar & -> & Hc & Hsb). cbn [tv_area tv_lines tv_skin scroll] in *.
  assert (Hcontent : Forall styled_cmd content /\ sumw (chw u) (out_text content) = N.to_nat w
    /\ match nth_error lines (N.to_nat s + j) with Some l => line_drawn special k l (Some (N.to_nat w)) true (drawn content) | None => drawn content = blanks (ls_cs (paragraph k)) (N.to_nat w) end).
  { replace (N.to_nat (s + N.of_nat j)) with (N.to_nat s + j) in Hc by lia. destruct (nth_error lines (N.to_nat s + j)) as [l|] eqn:El.
    - split; [eapply sty_line; exact Hc|]. split; [|apply line_spec; exact Hc]. rewrite <- printed_sumw. rewrite Forall_forall in HF. apply (printable_exact Hn Hs (HF l (nth_error_In _ _ El)) Hc).
    - destruct Hc as [Ho Hst]. split; [eapply Forall_impl; [|exact Hst]; intros c (x & ->); eexists _, _; reflexivity|]. split.
      + rewrite Ho. assert (H32 : chw u 32%N = 1) by (narrow Hn). clear - H32. induction (N.to_nat w) as [|n IH]; [reflexivity|]. cbn [repeat]. rewrite sumw_cons, H32, IH. reflexivity.
      + apply filled_drawn; assumption. }
  destruct Hcontent as (Hst & Hw & Hd).
  assert (Hbar : Forall styled_cmd bar /\ N.to_nat w + sumw (chw u) (out_text bar) = N.to_nat (a_width a)
    /\ match sb with None => drawn bar = [] | Some (t, b) => let y := N.of_nat (N.to_nat (a_top a) + j) in
         ((t <= y <= b)%N -> drawn bar = [drawn_char (thumb (scrollbar k))]) /\ (~ (t <= y <= b)%N -> drawn bar = [drawn_char (track (scrollbar k))]) end).
  { assert (Hq : forall c, In c [thumb (scrollbar k); track (scrollbar k)] -> Forall styled_cmd (sc_queue c) /\ sumw (chw u) (out_text (sc_queue c)) = 1 /\ drawn (sc_queue c) = [drawn_char c]).
    { intros c Hin. rewrite Forall_forall in Hb. specialize (Hb c Hin). split; [repeat constructor; eexists _, _; reflexivity|]. split; [|reflexivity]. unfold drawn_char in Hb. cbn [fst] in Hb.
      unfold sc_queue, out_text. cbn [flat_map cmd_text app]. rewrite sumw_cons, Hb. reflexivity. }
    destruct sb as [[t b]|].
    - destruct Hsb as (Hwa & H1 & H2). cbv zeta in *. replace (N.of_nat (N.to_nat (a_top a) + j)) with (a_top a + N.of_nat j)%N by lia.
      assert (D : (t <= a_top a + N.of_nat j <= b \/ ~ t <= a_top a + N.of_nat j <= b)%N) by lia.
      destruct D as [D|D]; [rewrite (H1 D)|rewrite (H2 D)].
      + destruct (Hq (thumb (scrollbar k)) (or_introl eq_refl)) as (Q1 & Q2 & Q3). split; [exact Q1|]. split; [rewrite Q2; lia|]. split; intros; [exact Q3|contradiction].
      + destruct (Hq (track (scrollbar k)) (or_intror (or_introl eq_refl))) as (Q1 & Q2 & Q3). split; [exact Q1|]. split; [rewrite Q2; lia|]. split; intros; [contradiction|exact Q3].
    - destruct Hsb as (-> & ->). split; [constructor|]. split; [change (out_text []) with (@nil char); unfold sumw; cbn; lia|reflexivity]. }
  destruct Hbar as (Hbst & Hbw & Hbd).
  assert (Hall : Forall styled_cmd (content ++ bar)) by (apply Forall_app; split; assumption).
  split; [eexists _, _, _; split; [reflexivity|apply styled_text_cmd, Hall]|].
  cbn [screen]. replace (N.to_nat (a_top a + N.of_nat j)) with (N.to_nat (a_top a) + j) by lia. split.
  - pose proof (@screen_tiles u (N.to_nat (a_top a) + j) _ (styled_text_cmd Hall) (N.to_nat (a_left a))) as Ht.
    assert (Ew : sumw (chw u) (out_text (content ++ bar)) = N.to_nat (a_width a)) by (rewrite out_text_app, sumw_app; lia). rewrite Ew in Ht. exact Ht.
  - exists (drawn content), (drawn bar). split; [rewrite screen_chars by exact Hall; rewrite drawn_app; reflexivity|]. split; [exact Hd|exact Hbd].
Qed.

(** Drawing a view of a text, the lines being the ones of the text formatted for one column less than the area *)
Lemma view_drawn u special k um text a s show t : skin_ok k -> additive u -> (forall c, chw u c <= 2) -> narrow_chars u k -> same_widths u special ->
  Forall (fun c => chw u (fst (drawn_char c)) = 1) [thumb (scrollbar k); track (scrollbar k)] ->
  (6 <= a_width a)%N -> on_screen a -> margins_not_just k (N.to_nat (a_width a)) ->
  Forall (area_source u k (N.to_nat (a_width a) - 1)) text ->
  area_text u k um text a = Ret t ->
  forall sb, tv_scrollbar (mkTV a (txt_lines t) k s show) = Ret sb ->
  let w := match sb with None => N.to_nat (a_width a) | Some _ => N.to_nat (a_width a) - 1 end in
  exists out, tv_write_on (render_line special k) (mkTV a (txt_lines t) k s show) = Ret out
  /\ forall x0 y0, fills u a (screen u x0 y0 out)
  /\ exists rows, screen u x0 y0 out = concat rows /\ length rows = N.to_nat (a_height a)
  /\ forall j row, nth_error rows j = Some row -> tiles u (N.to_nat (a_top a) + j) (N.to_nat (a_left a)) row (N.to_nat (a_left a) + N.to_nat (a_width a))
     /\ shows_row u special k (txt_lines t) w (N.to_nat s) sb (N.to_nat (a_top a)) j row.
Proof.
  intros Hk Hu H2 Hn Hs Hb Hw Hon Hnj Hsrc Et sb Esb w. unfold area_text in Et. rewrite subN_ret, bind_ret in Et by lia.
  replace (N.to_nat (a_width a - 1)) with (N.to_nat (a_width a) - 1) in Et by lia.
  assert (H5 : 5 <= N.to_nat (a_width a) - 1) by lia.
  assert (Hgood := text_good_cells um H5 Et Hsrc).
  assert (Hp : Forall (printable u k (N.to_nat (a_width a) - 1)) (txt_lines t)).
  { eapply text_printable; [exact Hu|lia|exact Et|]. eapply Forall_impl; [|exact Hsrc]. intros l. apply source_fitting, H2. }
  destruct (@C66_rows_partial _ (render_line special k) (mkTV a (txt_lines t) k s show) sb) as (w' & rows & Eo & Hlen & Hrows); cbn [tv_area tv_lines] in *.
  - lia.
  - unfold tv_height. cbn [tv_area]. destruct Hon. lia.
  - intros l w0 Hin. rewrite Forall_forall in Hgood. apply line_ret; [exact Hk|apply Hgood, Hin].
  - exact Esb.
  - exists (concat rows). split; [exact Eo|].
    assert (HR : forall j row, nth_error rows j = Some row -> (exists x y l, row = MoveTo x y :: l /\ Forall text_cmd l)
      /\ tiles u (N.to_nat (a_top a) + j) (N.to_nat (a_left a)) (screen u 0 0 row) (N.to_nat (a_left a) + N.to_nat (a_width a))
      /\ shows_row u special k (txt_lines t) w (N.to_nat s) sb (N.to_nat (a_top a)) j (screen u 0 0 row)).
    { intros j row Hj. specialize (Hrows j row Hj). pose proof Hrows as (content & bar & _ & _ & Hsb). cbn [tv_area] in Hsb.
      assert (Ew : N.to_nat w' = w). { unfold w. destruct sb as [[? ?]|]; [destruct Hsb; lia|destruct Hsb as [_ ->]; reflexivity]. }
      rewrite <- Ew. eapply row_shown; [exact Hn|exact Hs|exact Hb| |exact Hrows]. rewrite Ew. unfold w. destruct sb; [exact Hp|].
      eapply Forall_impl; [|exact Hp]. intros l. apply printable_more; [lia|exact Hnj]. }
    intros x0 y0. assert (Esc : screen u x0 y0 (concat rows) = concat (map (screen u 0 0) rows)).
    { apply screen_rows. apply Forall_forall. intros row Hin. apply In_nth_error in Hin as (j & Hj). apply (HR j row Hj). }
    rewrite Esc. split.
    + apply rows_fill; [rewrite map_length; exact Hlen|]. intros j row Hj. rewrite nth_error_map in Hj. destruct (nth_error rows j) as [r|] eqn:Er; [|discriminate]. injection Hj as <-. apply (HR j r Er).
    + exists (map (screen u 0 0) rows). split; [reflexivity|]. split; [rewrite map_length; exact Hlen|]. intros j row Hj.
      rewrite nth_error_map in Hj. destruct (nth_error rows j) as [r|] eqn:Er; [|discriminate]. injection Hj as <-. exact (proj2 (HR j r Er)).
Qed.

(** What's needed from the terminal and the skin: chars of at most 2 columns, the ones of the skin taking one *)
Definition usual (u : unicode) (special : Special) (k : MadSkin) : Prop :=
  skin_ok k /\ additive u /\ (forall c, chw u c <= 2) /\ narrow_chars u k /\ same_widths u special
  /\ Forall (fun c => chw u (fst (drawn_char c)) = 1) [thumb (scrollbar k); track (scrollbar k)].

(** Writing a text in an area covers all its cells, once, and no other one, with the first lines of the formatted text.
    Missing: areas of less than 6 columns ([C76_null_width_refuted], [C76_narrow_refuted]), margins needing exactly the width
    ([C76_margins_refuted]), source lines without enough place. *)
Theorem C76_area_partial : forall u special k um text a, usual u special k ->
  (6 <= a_width a)%N -> on_screen a -> margins_not_just k (N.to_nat (a_width a)) ->
  Forall (area_source u k (N.to_nat (a_width a) - 1)) text ->
  exists t out, area_text u k um text a = Ret t /\ write_in_area_on u special k um text a = Ret out
  /\ forall x0 y0, fills u a (screen u x0 y0 out)
  /\ exists rows, screen u x0 y0 out = concat rows /\ length rows = N.to_nat (a_height a)
  /\ forall j row, nth_error rows j = Some row -> tiles u (N.to_nat (a_top a) + j) (N.to_nat (a_left a)) row (N.to_nat (a_left a) + N.to_nat (a_width a))
     /\ shows_row u special k (txt_lines t) (N.to_nat (a_width a)) 0 None (N.to_nat (a_top a)) j row.
Proof.
  intros u special k um text a (Hk & Hu & H2 & Hn & Hs & Hb) Hw Hon Hnj Hsrc.
  destruct (@source_formatted u k um text (N.to_nat (a_width a) - 1) Hk ltac:(lia) Hsrc) as (t & Et & _).
  assert (Ea : area_text u k um text a = Ret t).
  { unfold area_text. rewrite subN_ret, bind_ret by lia. replace (N.to_nat (a_width a - 1)) with (N.to_nat (a_width a) - 1) by lia. exact Et. }
  exists t. destruct (@view_drawn u special k um text a 0%N false t Hk Hu H2 Hn Hs Hb Hw Hon Hnj Hsrc Ea None eq_refl) as (out & Eo & H).
  exists out. split; [exact Ea|]. split; [unfold write_in_area_on; rewrite Ea, bind_ret; exact Eo|exact H].
Qed.
Print Assumptions C76_area_partial.
(** The scroll may be too far after a resize: the scrollbar is then computed too, as far as its ends are not more than 65535 *)
Definition scroll_far (a : Area) (n : nat) (s : N) : Prop := N.to_nat s <= n - N.to_nat (a_height a) \/ (a_top a + a_height a + s + 1 < 65536)%N.
Lemma scrollbar_far a s n : on_screen a -> (1 <= a_height a)%N -> (N.of_nat n < 65536)%N -> scroll_far a n s ->
  exists sb, area_scrollbar a (s mod U16) (N.of_nat n mod U16) = Ret sb /\ (sb <> None <-> N.to_nat (a_height a) < n).
Proof.
  intros Hon Hh Hc [Hs|Hs].
  - destruct (@area_scrollbar_spec a s (N.of_nat n) Hon Hh ltac:(lia) ltac:(lia)) as (sb & Esb & Hsb). exists sb. split; [exact Esb|]. rewrite Hsb. lia.
  - set (c := N.of_nat n) in *. assert (Hn : N.to_nat (a_height a) < n <-> (a_height a < c)%N) by lia. clearbody c. unfold area_scrollbar. rewrite !N.mod_small by (unfold U16; lia). rewrite compute_scrollbar_eq.
    set (top := a_top a) in *. set (h := a_height a) in *. destruct (N.leb_spec c h) as [L|L]; [exists None; split; [reflexivity|split; [congruence|intros X; apply Hn in X; lia]]|].
    assert (T : (tb_of s c h <= s /\ h * h / c <= h)%N).
    { split; [|apply N.div_le_upper_bound; [lia|nia]]. unfold tb_of. cbv zeta. assert (s * h / c <= s)%N by (apply N.div_le_upper_bound; [lia|nia]). destruct (N.eqb_spec (s * h / c) 0), (N.ltb_spec 0 s); cbn [andb]; lia. }
    assert (B : (top + tb_of s c h < U16 /\ bot_of s c h top < U16)%N) by (unfold bot_of, U16; destruct (_ && _)%bool; lia).
    destruct B as [B1 B2]. rewrite (proj2 (N.ltb_lt _ _) B1), (proj2 (N.ltb_lt _ _) B2). cbn [andb]. eexists. split; [reflexivity|]. split; [intros _; apply Hn, L|discriminate].
Qed.
Lemma view_anywhere : forall u special k um text a s, usual u special k ->
  (6 <= a_width a)%N -> (1 <= a_height a)%N -> on_screen a -> margins_not_just k (N.to_nat (a_width a)) ->
  Forall (area_source u k (N.to_nat (a_width a) - 1)) text ->
  exists t, area_text u k um text a = Ret t
  /\ (length (txt_lines t) < N.to_nat 65536 -> scroll_far a (length (txt_lines t)) s ->
  exists out sb, mad_write_on u special k um text a s = Ret out
  /\ (sb <> None <-> N.to_nat (a_height a) < length (txt_lines t))
  /\ forall x0 y0, fills u a (screen u x0 y0 out)
  /\ exists rows, screen u x0 y0 out = concat rows /\ length rows = N.to_nat (a_height a)
  /\ forall j row, nth_error rows j = Some row -> tiles u (N.to_nat (a_top a) + j) (N.to_nat (a_left a)) row (N.to_nat (a_left a) + N.to_nat (a_width a))
     /\ shows_row u special k (txt_lines t) (match sb with None => N.to_nat (a_width a) | Some _ => N.to_nat (a_width a) - 1 end) (N.to_nat s) sb (N.to_nat (a_top a)) j row).
Proof.
  intros u special k um text a s (Hk & Hu & H2 & Hn & Hs & Hb) Hw Hh Hon Hnj Hsrc.
  destruct (@source_formatted u k um text (N.to_nat (a_width a) - 1) Hk ltac:(lia) Hsrc) as (t & Et & _).
  assert (Ea : area_text u k um text a = Ret t).
  { unfold area_text. rewrite subN_ret, bind_ret by lia. replace (N.to_nat (a_width a - 1)) with (N.to_nat (a_width a) - 1) by lia. exact Et. }
  exists t. split; [exact Ea|]. intros Hlen Hsc.
  destruct (@scrollbar_far a s (length (txt_lines t)) Hon Hh ltac:(lia) Hsc) as (sb & Esb & Hsb).
  destruct (@view_drawn u special k um text a s true t Hk Hu H2 Hn Hs Hb Hw Hon Hnj Hsrc Ea sb Esb) as (out & Eo & H).
  exists out, sb. split; [unfold mad_write_on; rewrite Ea, bind_ret; exact Eo|]. split; [exact Hsb|exact H].
Qed.
(** Drawing a view covers all the cells of its area too, the last column being the one of the scrollbar when the text is higher than the area.
    Missing: as for C76_area_partial; and texts of 65536 lines or more. *)
Theorem C76_view_partial : forall u special k um text a s, usual u special k ->
  (6 <= a_width a)%N -> (1 <= a_height a)%N -> on_screen a -> margins_not_just k (N.to_nat (a_width a)) ->
  Forall (area_source u k (N.to_nat (a_width a) - 1)) text ->
  exists t, area_text u k um text a = Ret t
  /\ (length (txt_lines t) < N.to_nat 65536 -> N.to_nat s <= length (txt_lines t) - N.to_nat (a_height a) ->
  exists out sb, mad_write_on u special k um text a s = Ret out
  /\ (sb <> None <-> N.to_nat (a_height a) < length (txt_lines t))
  /\ forall x0 y0, fills u a (screen u x0 y0 out)
  /\ exists rows, screen u x0 y0 out = concat rows /\ length rows = N.to_nat (a_height a)
  /\ forall j row, nth_error rows j = Some row -> tiles u (N.to_nat (a_top a) + j) (N.to_nat (a_left a)) row (N.to_nat (a_left a) + N.to_nat (a_width a))
     /\ shows_row u special k (txt_lines t) (match sb with None => N.to_nat (a_width a) | Some _ => N.to_nat (a_width a) - 1 end) (N.to_nat s) sb (N.to_nat (a_top a)) j row).
Proof.
  intros u special k um text a s U Hw Hh Hon Hnj Hsrc. destruct (@view_anywhere u special k um text a s U Hw Hh Hon Hnj Hsrc) as (t & Et & V). exists t. split; [exact Et|]. intros L1 L2. apply V; [exact L1|left; exact L2].
Qed.
Print Assumptions C76_view_partial.


Local Notation letters := P_Text.letters.
Lemma demo_two c : chw demo c <= 2.
Proof. cbn [chw demo]. unfold demo_w. destruct (N.ltb c 32); [lia|]. destruct (_ && _); lia. Qed.
Lemma default_margins kind ls : line_style skin_default kind = Ret ls -> left_margin ls = 0 /\ right_margin ls = 0.
Proof.
  intros El. destruct kind; cbn in El; try (injection El as <-; split; reflexivity).
  do 9 (destruct level as [|level]; [cbn in El; try discriminate; injection El as <-; split; reflexivity|]). cbn in El. injection El as <-. split; reflexivity.
Qed.
Lemma demo_usual : usual demo no_special skin_default.
Proof.
  split; [reflexivity|]. split; [exact demo_additive|]. split; [exact demo_two|]. split; [repeat constructor|]. split; [intros c r H; discriminate|repeat constructor].
Qed.
Lemma small_text_source : Forall (area_source demo skin_default 14) small_text.
Proof.
  assert (HN : forall c, drawn_kind (kind_of (mc_style c)) -> lead skin_default (kind_of (mc_style c)) + 2 <= 14 ->
    (kind_of (mc_style c) = KCode -> sumw (chw demo) (text_of (mc_compounds c)) <= 14) -> area_source demo skin_default 14 (MNormal c)).
  { intros c H0 H1 H2. split; [exact H0|]. intros lm rm (ls & El & Em). destruct (default_margins _ El) as [E1 E2].
    unfold margins_in in Em. rewrite E1, E2 in Em. cbn in Em. injection Em as <- <-. split; [lia|]. intros H. specialize (H2 H). lia. }
  unfold small_text, prose, row, rule. repeat (apply Forall_cons; [|]); try apply Forall_nil.
  all: first [apply HN; [split; [discriminate|cbn; try exact I; lia]|cbn; lia|first [discriminate | intros _; vm_compute; lia]] | split; [discriminate|split; [cbn; lia|repeat constructor]] | exact I | split; [discriminate|cbn; lia]].
Qed.
(** The text [small_text] in an area of 15 columns and 21 rows, then in a view of 15 columns and 7 rows with a scrollbar *)
Definition cell_count (u : unicode) (l : list spot) : nat := sumw (chw u) (map s_char l).
Example C76_area_example : usual demo no_special skin_default /\ margins_not_just skin_default 15 /\ Forall (area_source demo skin_default 14) small_text
  /\ on_screen (mkArea 3 2 15 21)
  /\ exists out, write_in_area_on demo no_special skin_default 1000 small_text (mkArea 3 2 15 21) = Ret out
  /\ cell_count demo (screen demo 0 0 out) = 15 * 21.
Proof.
  split; [exact demo_usual|]. split; [intros kind ls El; destruct (default_margins _ El) as [-> ->]; discriminate|]. split; [exact small_text_source|].
  split; [split; reflexivity|]. eexists. split; [vm_compute; reflexivity|]. vm_compute. reflexivity.
Qed.
Example C76_view_example : exists out, mad_write_on demo no_special skin_default 1000 small_text (mkArea 3 2 15 7) 5 = Ret out
  /\ cell_count demo (screen demo 0 0 out) = 15 * 7
  /\ map s_char (filter (fun s => s_x s =? 17) (screen demo 0 0 out)) = repeat 9616%N 7
  /\ map s_char (filter (fun s => s_y s =? 2) (screen demo 0 0 out)) = [9616; 32; 97; 32; 32; 32; 32; 32; 32; 32; 32; 32; 32; 32; 9616]%N.
Proof. eexists. split; [vm_compute; reflexivity|]. vm_compute. repeat split; reflexivity. Qed.

(** [area.width as usize - 1] panics for a null width *)
Theorem C76_null_width_refuted : exists text a, on_screen a /\ write_in_area_on demo no_special skin_default 1000 text a = Panic
  /\ mad_write_on demo no_special skin_default 1000 text a 0 = Panic.
Proof. exists [prose 3], (mkArea 0 0 0 5). split; [split; reflexivity|]. split; reflexivity. Qed.
(** In an area of 3 columns or less, the lines are formatted for less than 3 columns so they're not wrapped: they're written out of the area *)
Theorem C76_narrow_refuted : exists text a out s, on_screen a /\ (0 < a_width a)%N /\ write_in_area_on demo no_special skin_default 1000 text a = Ret out
  /\ In s (screen demo 0 0 out) /\ ~ cell_in a (N.of_nat (s_x s)) (N.of_nat (s_y s)).
Proof.
  exists [prose 10], (mkArea 4 5 3 2). eexists. exists (mkSpot 9 5 (Some cs_default) 97%N). split; [split; reflexivity|]. split; [reflexivity|]. split; [vm_compute; reflexivity|].
  split; [vm_compute; tauto|]. unfold cell_in. cbn. lia.
Qed.
(** A skin with margins around paragraphs *)
Definition wide_margins : MadSkin :=
  mkSkin (mkLS cs_default ALeft 4 4) (bold skin_default) (italic skin_default) (strikeout skin_default) (inline_code skin_default) (code_block skin_default)
    (headers skin_default) (scrollbar skin_default) (table skin_default) (bullet skin_default) (quote_mark skin_default) (horizontal_rule skin_default)
    (ellipsis skin_default) STANDARD_TBC Block.
(** The text is formatted for one column less than the area but written on its whole width: when the margins of a style need exactly this width (with
    3 columns for the text), they're ignored when wrapping but not when writing, so the lines are written out of the area *)
Theorem C76_margins_refuted : exists text a out s, usual demo no_special wide_margins /\ on_screen a /\ (6 <= a_width a)%N
  /\ Forall (area_source demo wide_margins (N.to_nat (a_width a) - 1)) text
  /\ write_in_area_on demo no_special wide_margins 1000 text a = Ret out
  /\ In s (screen demo 0 0 out) /\ ~ cell_in a (N.of_nat (s_x s)) (N.of_nat (s_y s)).
Proof.
  exists [prose 10], (mkArea 4 5 11 2). eexists. exists (mkSpot 17 5 (Some cs_default) 97%N). split; [|split; [split; reflexivity|split; [discriminate|split; [|split; [vm_compute; reflexivity|split; [vm_compute; tauto|unfold cell_in; cbn; lia]]]]]].
  - split; [reflexivity|]. split; [exact demo_additive|]. split; [exact demo_two|]. split; [repeat constructor|]. split; [intros c r H; discriminate|repeat constructor].
  - apply Forall_cons; [|apply Forall_nil]. split; [split; [discriminate|exact I]|]. intros lm rm (ls & El & Em). cbn in El. injection El as <-. cbn in Em. injection Em as <- <-. cbn. split; [lia|discriminate].
Qed.
(** The same happens with a view *)
Theorem C76_view_margins_refuted : exists text a out s, on_screen a /\ (6 <= a_width a)%N
  /\ mad_write_on demo no_special wide_margins 1000 text a 0 = Ret out
  /\ In s (screen demo 0 0 out) /\ ~ cell_in a (N.of_nat (s_x s)) (N.of_nat (s_y s)).
Proof.
  exists [prose 10], (mkArea 4 5 11 2). eexists. exists (mkSpot 17 5 (Some cs_default) 97%N). split; [split; reflexivity|split; [discriminate|split; [vm_compute; reflexivity|split; [vm_compute; tauto|unfold cell_in; cbn; lia]]]].
Qed.

(** ** C77 *)

(** A text printed in a terminal takes one line of the terminal for each of its lines: none takes more columns than the terminal has.
    Missing: terminals of less than 5 columns, source lines without enough place. *)
Theorem C77_printed_partial : forall u special k um text size, usual u special k ->
  let w := N.to_nat (fst (terminal_size size)) in
  5 <= w -> Forall (area_source u k w) text ->
  exists t outs, term_text u k um text size = Ret t /\ txt_width t = Some w
  /\ print_text u special k um text size = Ret (flat_map (fun o => o ++ [Print [10%N]]) outs)
  /\ Forall2 (fun l o => line_drawn special k l (Some w) false (drawn o) /\ printed u o <= w) (txt_lines t) outs.
Proof.
  intros u special k um text size (Hk & Hu & H2 & Hn & Hs & Hb) w Hw Hsrc.
  destruct (@source_formatted u k um text w Hk Hw Hsrc) as (t & Et & Hwt).
  assert (Ett : term_text u k um text size = Ret t) by (unfold term_text; unfold w in Et; destruct (terminal_size size); exact Et).
  assert (Hgood := text_good_cells um Hw Et Hsrc).
  assert (Hp : Forall (printable u k w) (txt_lines t)).
  { eapply text_printable; [exact Hu|exact Hw|exact Et|]. eapply Forall_impl; [|exact Hsrc]. intros l. apply source_fitting, H2. }
  destruct (@C69_displayed special k t) as (outs & HF & Ed).
  { intros l Hin. rewrite Forall_forall in Hgood. apply line_ret; [exact Hk|apply Hgood, Hin]. }
  exists t, outs. split; [exact Ett|]. split; [exact Hwt|]. split; [unfold print_text; rewrite Ett, bind_ret; exact Ed|].
  rewrite Hwt in HF. clear - HF Hn Hs Hp. induction HF as [|l o ls outs E _ IH]; [constructor|]. inversion Hp as [|? ? (P1 & P2 & P3) Hp']; subst. constructor; [|apply IH, Hp'].
  split; [apply line_spec, E|]. assert (exists n, needs k (Some w) l n) as [n Hneed].
  { destruct l as [fc|cells|r|]; try (eexists; reflexivity). pose proof (line_spec _ _ _ _ _ E) as (ls' & lm & rm & lp & rp & li & ri & El & Hm & _). cbn. eauto 10. }
  specialize (P3 n Hneed). destruct (@C35_not_completed u special k l w n o Hn Hs P1 P2 Hneed E) as [Hle _]. lia.
Qed.
Print Assumptions C77_printed_partial.
(** The size used when the terminal doesn't tell its own, and the area of the whole screen *)
Theorem C77_sizes : forall size l t w h,
  terminal_size size = match size with Some s => s | None => (50, 20)%N end
  /\ (forall x y, cell_in (full_screen size) x y <-> (x < fst (terminal_size size) /\ y < snd (terminal_size size))%N)
  /\ (forall x y, cell_in (area_new l t w h) x y <-> (l <= x < l + w /\ t <= y < t + h)%N).
Proof.
  intros size l t w h. split; [reflexivity|]. split.
  - intros x y. unfold full_screen. destruct (terminal_size size) as [w0 h0]. unfold cell_in. cbn [a_left a_width a_top a_height fst snd]. lia.
  - intros x y. reflexivity.
Qed.
Print Assumptions C77_sizes.
Example C77_example : exists out, print_text demo no_special skin_default 1000 small_text (Some (14, 30)%N) = Ret out
  /\ length (filter (N.eqb 10) (out_text out)) = 19
  /\ exists out', print_text demo no_special skin_default 1000 [prose 120] None = Ret out' /\ length (filter (N.eqb 10) (out_text out')) = 3.
Proof. eexists. split; [vm_compute; reflexivity|]. split; [vm_compute; reflexivity|]. eexists. split; [vm_compute; reflexivity|]. vm_compute. reflexivity. Qed.
(** Code lines are justified before being wrapped: they may be larger than the terminal *)
Theorem C77_code_refuted : exists text t outs, term_text demo skin_default 1000 text (Some (20, 30)%N) = Ret t
  /\ Forall2 (fun l o => write_fmt_line no_special skin_default l (Some 20) false = Ret o) (txt_lines t) outs
  /\ Forall (fun o => printed demo o = 45) outs /\ outs <> [].
Proof.
  exists [MNormal (mkMC MCode [plain (letters 45)])]. eexists. eexists. split; [vm_compute; reflexivity|]. split; [repeat (constructor; [vm_compute; reflexivity|]); constructor|].
  split; [repeat constructor|discriminate].
Qed.
Print Assumptions C76_null_width_refuted.
Print Assumptions C76_narrow_refuted.
Print Assumptions C76_margins_refuted.
Print Assumptions C76_view_margins_refuted.
Print Assumptions C77_code_refuted.
