(** * Lemmas for input fields: what is on the screen *)
From Verif Require Import Base L_Base M_Style M_Fit S_Fit L_Fit M_View S_View L_View M_Content S_Content L_Content L_Content2 L_Content3 M_Input S_Input L_Input.
Set Implicit Arguments.
Open Scope nat_scope.

Lemma scrollbar_lines f sb : area_scrollbar (if_area f) (N.of_nat (py (if_scroll f)) mod U16) (N.of_nat (line_count (if_content f)) mod U16) = Ret (Some sb) -> height f < nb_lines f.
Proof.
  unfold area_scrollbar. rewrite compute_scrollbar_eq. destruct (N.leb_spec (N.of_nat (line_count (if_content f)) mod U16) (a_height (if_area f))) as [L|L]; [discriminate|]. intros _.
  pose proof (N.mod_le (N.of_nat (line_count (if_content f))) U16 ltac:(discriminate)). unfold height, nb_lines, line_count in *. lia.
Qed.
Lemma display_on_spec u f out p : usual_widths u -> on_screen (if_area f) -> 1 <= text_width f -> display_on u f = Ret (out, p) ->
  exists sb rows ps, area_scrollbar (if_area f) (N.of_nat (py (if_scroll f)) mod U16) (N.of_nat (line_count (if_content f)) mod U16) = Ret sb
  /\ out = SetBg Reset :: concat rows /\ p = last_some ps
  /\ length rows = height f /\ length ps = height f
  /\ forall i row p, nth_error rows i = Some row -> nth_error ps i = Some p ->
       row_shown u f (scrollbar_style f) (N.to_nat (a_width (if_area f)) - (if sb then 1 else 0)) sb (N.of_nat i) row p.
Proof.
  intros HU [H1 H2] Hw. unfold display_on. cbv zeta. fold (normal_style f).
  destruct (area_scrollbar _ _ _) as [sb| |] eqn:Esb; [|discriminate|discriminate]. rewrite bind_ret.
  assert (HB : match sb with Some _ => (2 <= a_width (if_area f))%N | None => (1 <= a_width (if_area f))%N end).
  { unfold text_width in Hw. destruct sb as [x|]; [|lia]. apply scrollbar_lines in Esb. rewrite (proj2 (Nat.ltb_lt _ _) Esb) in Hw. lia. }
  set (w := N.to_nat (a_width (if_area f)) - (if sb then 1 else 0)).
  assert (E : match sb with Some _ => csub (N.to_nat (a_width (if_area f))) 1 | None => Ret (N.to_nat (a_width (if_area f))) end = Ret w)
    by (unfold w; destruct sb; [rewrite csub_ret by lia; reflexivity|f_equal; lia]).
  rewrite E, bind_ret.
  destruct (@draw_rows_spec u f (scrollbar_style f) w sb) with (n := N.to_nat (a_height (if_area f))) (j := 0%N) as (rows & ps & ER & L1 & L2 & HR);
    try assumption; [unfold w; destruct sb; lia|unfold w; destruct sb; lia|lia|].
  change (N.to_nat 0) with 0 in ER. rewrite Nat.add_0_r in ER. rewrite ER, bind_ret. intros EQ. injection EQ as <- <-.
  exists sb, rows, ps. repeat split; auto.
Qed.
Lemma display_on_ret u f : usual_widths u -> on_screen (if_area f) -> 1 <= text_width f -> (1 <= a_height (if_area f))%N ->
  (N.of_nat (nb_lines f) < 65536)%N -> py (if_scroll f) <= nb_lines f - height f -> exists out p, display_on u f = Ret (out, p).
Proof.
  intros HU H Hw Hh Hn Hs. unfold display_on. cbv zeta. fold (normal_style f).
  destruct (@area_scrollbar_spec (if_area f) (N.of_nat (py (if_scroll f))) (N.of_nat (line_count (if_content f)))) as (sb & Esb & _); auto.
  { unfold nb_lines, height in Hs. unfold line_count. lia. }
  rewrite Esb, bind_ret.
  assert (HB : match sb with Some _ => (2 <= a_width (if_area f))%N | None => (1 <= a_width (if_area f))%N end).
  { unfold text_width in Hw. destruct sb as [x|]; [|lia]. apply scrollbar_lines in Esb. rewrite (proj2 (Nat.ltb_lt _ _) Esb) in Hw. lia. }
  set (w := N.to_nat (a_width (if_area f)) - (if sb then 1 else 0)).
  assert (E : match sb with Some _ => csub (N.to_nat (a_width (if_area f))) 1 | None => Ret (N.to_nat (a_width (if_area f))) end = Ret w)
    by (unfold w; destruct sb; [rewrite csub_ret by lia; reflexivity|f_equal; lia]).
  rewrite E, bind_ret. destruct H as [H1 H2].
  destruct (@draw_rows_spec u f (scrollbar_style f) w sb) with (n := N.to_nat (a_height (if_area f))) (j := 0%N) as (rows & ps & ER & _);
    try assumption; [unfold w; destruct sb; lia|unfold w; destruct sb; lia|lia|].
  change (N.to_nat 0) with 0 in ER. rewrite Nat.add_0_r in ER. rewrite ER, bind_ret. eauto.
Qed.

(** ** What [shows] implies *)

Lemma cells_width_app u a b : cells_width u (a ++ b) = cells_width u a + cells_width u b.
Proof. unfold cells_width. rewrite map_app. apply columns_app. Qed.
Lemma cells_width_repeat u n : chw u 32%N = 1 -> cells_width u (repeat (32%N, false) n) = n.
Proof. intros H. unfold cells_width. induction n as [|n IH]; [reflexivity|]. cbn [repeat map fst]. rewrite columns_cons, IH. unfold columns. cbn. rewrite H. lia. Qed.

Lemma shows_width u w line sel ae k cells : usual_widths u -> shows u w line sel ae k cells -> cells_width u cells = w.
Proof.
  intros (U1 & U2 & _) (p & q & mark & E & HC & HQ). cbv zeta in HC. set (used := columns u p + length mark) in *.
  assert (HM : cells_width u mark = length mark /\ used <= w).
  { destruct q.
    - destruct HQ as (Q1 & _ & ->). unfold used. cbn [length]. split; [reflexivity|lia].
    - destruct HQ as (Q1 & _ & _ & ->). unfold used. cbn [length]. split; [|lia]. unfold cells_width, columns, c_ellipsis. cbn. rewrite U2. reflexivity. }
  destruct HM as [HM HU]. rewrite HC, !cells_width_app, flagged_width, HM. 
  destruct ((used <? w) && ae) eqn:EA.
  - apply andb_true_iff in EA as [EA _]. apply Nat.ltb_lt in EA. rewrite cells_width_repeat by exact U1. cbn [length].
    replace (cells_width u [(32%N, true)]) with 1 by (unfold cells_width, columns; cbn; rewrite U1; reflexivity). unfold used in *. lia.
  - rewrite cells_width_repeat by exact U1. cbn [length]. change (cells_width u []) with 0. unfold used in *. lia.
Qed.
Lemma last_flag_flagged u sel p : forall k d x, last_flag u d (flagged sel k p) = Some x -> exists p1 c p2, p = p1 ++ c :: p2 /\ x = d + columns u p1.
Proof.
  induction p as [|c p IH]; intros k d x; [discriminate|]. rewrite flagged_cons. cbn [last_flag].
  destruct (last_flag u (d + columns u [c]) (flagged sel (S k) p)) eqn:E.
  - intros H. injection H as <-. apply IH in E as (p1 & c' & p2 & -> & ->). exists (c :: p1), c', p2. split; [reflexivity|]. rewrite (columns_cons u c p1). lia.
  - destruct (sel k); [|discriminate]. intros H. injection H as <-. exists [], c, p. rewrite columns_nil. split; [reflexivity|lia].
Qed.
Lemma shows_last u w line sel ae k cells x : usual_widths u -> shows u w line sel ae k cells -> last_flag u 0 cells = Some x -> x < w.
Proof.
  intros HU (p & q & mark & E & HC & HQ). cbv zeta in HC. set (used := columns u p + length mark) in *.
  set (after := if (used <? w) && ae then [(32%N, true)] else []) in *. rewrite HC, !app_assoc, last_flag_spaces.
  assert (HP : forall p1 c p2, p = p1 ++ c :: p2 -> columns u p1 < w).
  { intros p1 c p2 Ep. destruct q.
    - destruct HQ as (_ & Q & _). destruct (@exists_last _ (c :: p2)) as (m & z & Ez); [discriminate|].
      specialize (Q (p1 ++ m) z ltac:(rewrite Ep, Ez, app_assoc; reflexivity)). rewrite columns_app in Q. lia.
    - destruct HQ as (Q & _). rewrite Ep, columns_app in Q. lia. }
  rewrite last_flag_app. destruct after as [|[c b] r] eqn:EA.
  - cbn [last_flag]. rewrite last_flag_app. cbn [Nat.add].
    assert (HM : mark = [] \/ exists b, mark = [(c_ellipsis, b)] /\ columns u p < w) by (destruct q; [left; apply HQ|right; destruct HQ as (Q & _ & _ & ->); eauto]).
    rewrite flagged_width. destruct HM as [->|(b & -> & Hb)].
    + cbn [last_flag]. intros H. apply last_flag_flagged in H as (p1 & c & p2 & Ep & ->). apply HP in Ep. lia.
    + cbn [last_flag]. destruct b; [intros H; injection H as <-; lia|]. intros H. apply last_flag_flagged in H as (p1 & c & p2 & Ep & ->). apply HP in Ep. lia.
  - unfold after in EA. destruct ((used <? w) && ae) eqn:EB; [|discriminate]. injection EA as <- <- <-. apply andb_true_iff in EB as [EB _]. apply Nat.ltb_lt in EB.
    cbn [last_flag]. intros H. injection H as <-. cbn [Nat.add]. rewrite cells_width_app, flagged_width.
    replace (cells_width u mark) with (length mark); [exact EB|]. destruct q; [destruct HQ as (_ & _ & ->); reflexivity|destruct HQ as (_ & _ & _ & ->)].
    unfold cells_width, columns, c_ellipsis. cbn. destruct HU as (_ & -> & _). reflexivity.
Qed.
Lemma shows_chars u w line sel ae k cells : shows u w line sel ae k cells -> forall c, In c (map fst cells) -> In c line \/ c = 8230%N \/ c = 32%N.
Proof.
  intros (p & q & mark & E & HC & HQ) c. cbv zeta in HC. rewrite HC, !map_app, map_fst_flagged, !in_app_iff. intros [H|[H|[H|H]]].
  - left. assert (In c (skipn k line)) by (rewrite E; apply in_or_app; left; exact H). rewrite <- (firstn_skipn k line). apply in_or_app. right. assumption.
  - destruct q; [destruct HQ as (_ & _ & ->); destruct H|]. destruct HQ as (_ & _ & _ & ->). destruct H as [<-|[]]. auto.
  - destruct (_ && _); [|destruct H]. destruct H as [<-|[]]. auto.
  - apply in_map_iff in H as ((c' & b) & <- & H). apply repeat_spec in H. injection H as -> ->. auto.
Qed.

(** ** The screen *)

Definition text_cmd (c : cmd) : Prop := (exists s, c = Print s) \/ (exists cs s, c = Styled cs s).
Lemma put_tiles u y st s : forall x, tiles u y x (put u x y st s) (x + sumw (chw u) s).
Proof.
  induction s as [|c s IH]; intros x; [unfold sumw; cbn; lia|]. cbn [put tiles s_y s_x s_char]. rewrite sumw_cons, Nat.add_assoc. auto.
Qed.
Lemma tiles_app u y a : forall x m b t, tiles u y x a m -> tiles u y m b t -> tiles u y x (a ++ b) t.
Proof. induction a as [|s a IH]; intros x m b t; cbn [tiles app]; [intros ->; auto|]. intros (H1 & H2 & H3) Hb. repeat split; auto. eapply IH; eauto. Qed.
Lemma screen_app u y a : Forall text_cmd a -> forall x b, screen u x y (a ++ b) = screen u x y a ++ screen u (x + sumw (chw u) (out_text a)) y b.
Proof.
  induction 1 as [|c a Hc Ha IH]; intros x b; [cbn; rewrite Nat.add_0_r; reflexivity|].
  destruct Hc as [(s & ->)|(cs & s & ->)]; cbn [app screen]; rewrite IH, <- app_assoc; unfold out_text; cbn [flat_map cmd_text]; rewrite sumw_app, Nat.add_assoc; reflexivity.
Qed.
Lemma screen_tiles u y a : Forall text_cmd a -> forall x, tiles u y x (screen u x y a) (x + sumw (chw u) (out_text a)).
Proof.
  induction 1 as [|c a Hc Ha IH]; intros x; [unfold sumw; cbn; lia|].
  destruct Hc as [(s & ->)|(cs & s & ->)]; cbn [screen]; unfold out_text; cbn [flat_map cmd_text]; rewrite sumw_app, Nat.add_assoc;
    (eapply tiles_app; [apply put_tiles|apply IH]).
Qed.
Lemma screen_rows u rows : Forall (fun r => exists x y a, r = MoveTo x y :: a /\ Forall text_cmd a) rows ->
  forall x y, screen u x y (concat rows) = concat (map (screen u 0 0) rows).
Proof.
  induction 1 as [|r rows (x0 & y0 & a & -> & Ha) _ IH]; intros x y; [reflexivity|].
  cbn [concat map app screen]. rewrite screen_app by exact Ha. rewrite IH. reflexivity.
Qed.
Lemma styled_text n c cells : Forall text_cmd (styled n c cells).
Proof. apply Forall_forall. intros x H. apply in_map_iff in H as (y & <- & _). right. eauto. Qed.
Lemma styled_out n c cells : out_text (styled n c cells) = map fst cells.
Proof. induction cells as [|x cells IH]; [reflexivity|]. unfold out_text, styled in *. cbn. rewrite IH. reflexivity. Qed.
Lemma columns_no_tab u l : ~ In 9%N l -> columns u l = sumw (chw u) l.
Proof.
  induction l as [|c l IH]; intros H; [reflexivity|]. rewrite columns_cons, IH by (intros HI; apply H; right; exact HI). rewrite sumw_cons. f_equal.
  unfold columns. cbn. destruct (N.eqb_spec c c_tab) as [->|]; [destruct H; left; reflexivity|lia].
Qed.
Lemma styled_cons n c x cells : styled n c (x :: cells) = Styled (if snd x then c else n) [fst x] :: styled n c cells.
Proof. reflexivity. Qed.
Lemma last_flag_spot u y n cur a : forall cells d x, ~ In 9%N (map fst cells) -> last_flag u d cells = Some x ->
  exists c, In (mkSpot (a + x) y (Some cur) c) (screen u (a + d) y (styled n cur cells)).
Proof.
  induction cells as [|[c b] cells IH]; intros d x NT; [discriminate|]. cbn [last_flag]. rewrite styled_cons. cbn [fst snd screen].
  assert (NT' : ~ In 9%N (map fst cells)) by (intros H; apply NT; right; exact H).
  assert (EC : columns u [c] = sumw (chw u) [c]) by (apply columns_no_tab; intros [H|[]]; apply NT; left; exact H).
  destruct (last_flag u (d + columns u [c]) cells) eqn:E.
  - intros H. injection H as <-. destruct (IH _ _ NT' E) as (c' & Hc'). exists c'. apply in_or_app. right. rewrite <- EC, <- Nat.add_assoc. exact Hc'.
  - destruct b; [|discriminate]. intros H. injection H as <-. exists c. cbn. left. reflexivity.
Qed.
Lemma flagged_spot u y n cur (sel : nat -> bool) a : forall p i k r, i < length p -> ~ In 9%N p ->
  In (mkSpot (a + columns u (firstn i p)) y (Some (if sel (k + i) then cur else n)) (nth i p 0%N)) (screen u a y (styled n cur (flagged sel k p ++ r))).
Proof.
  revert a. intros a p. revert a. induction p as [|c p IH]; intros a i k r Hi NT; [cbn in Hi; lia|].
  rewrite flagged_cons. cbn [app]. rewrite styled_cons. cbn [screen fst snd]. apply in_or_app.
  destruct i as [|i].
  - left. cbn [firstn nth put]. rewrite columns_nil, !Nat.add_0_r. left. reflexivity.
  - right. cbn [firstn nth]. rewrite (columns_cons u c (firstn i p)). replace (k + S i) with (S k + i) by lia.
    assert (EC : columns u [c] = sumw (chw u) [c]) by (apply columns_no_tab; intros [H|[]]; apply NT; left; exact H).
    rewrite Nat.add_assoc, EC. apply IH; [cbn in Hi; lia|]. intros H; apply NT; right; exact H.
Qed.
(** The char [x] of the line, or what replaces it, is drawn if it's in the window *)
Lemma shows_cursor u w line sel ae k cells x a y n cur : usual_widths u -> ~ In 9%N line -> shows u w line sel ae k cells ->
  k <= x <= length line -> columns u (firstn x line) - columns u (firstn k line) < w ->
  (x < length line -> exists c, In (mkSpot (a + (columns u (firstn x line) - columns u (firstn k line))) y (Some (if sel x then cur else n)) c) (screen u a y (styled n cur cells))
      /\ (c = nth x line 0%N \/ c = c_ellipsis))
  /\ (x = length line -> ae = true ->
      In (mkSpot (a + (columns u (firstn x line) - columns u (firstn k line))) y (Some cur) 32%N) (screen u a y (styled n cur cells))).
Proof.
  intros HU NT (p & q & mark & E & HC & HQ) Hx Hw. cbv zeta in HC.
  assert (EL : line = firstn k line ++ p ++ q) by (rewrite <- E; symmetry; apply firstn_skipn).
  set (pre := firstn k line) in *. assert (Lk : length pre = k) by (apply firstn_length_le; lia).
  assert (ED : columns u (firstn x line) - columns u pre = columns u (firstn (x - k) (p ++ q))).
  { rewrite EL, firstn_app, Lk, firstn_all2 by lia. rewrite columns_app. lia. }
  rewrite ED in *. assert (NP : ~ In 9%N (p ++ q)) by (intros H; apply NT; rewrite EL; apply in_or_app; right; exact H).
  assert (NPp : ~ In 9%N p) by (intros H; apply NP; apply in_or_app; left; exact H).
  assert (LL : length line = k + length p + length q) by (rewrite EL, !app_length; lia).
  assert (SC : forall r, screen u a y (styled n cur (flagged sel k p ++ r)) = screen u a y (styled n cur (flagged sel k p)) ++ screen u (a + columns u p) y (styled n cur r)).
  { intros r. unfold styled at 1. rewrite map_app. fold (styled n cur (flagged sel k p)) (styled n cur r). rewrite screen_app by apply styled_text. rewrite styled_out, map_fst_flagged, columns_no_tab by exact NPp. reflexivity. }
  assert (D : x - k < length p \/ (exists c q', q = c :: q' /\ x - k = length p) \/ (q = [] /\ x - k = length p)).
  { destruct (Nat.lt_ge_cases (x - k) (length p)) as [L|L]; [left; exact L|right]. destruct q as [|c q']; [right; split; [reflexivity|cbn in LL; lia]|left].
    exists c, q'. split; [reflexivity|]. destruct (Nat.eq_dec (x - k) (length p)) as [|NE]; [assumption|exfalso]. destruct HQ as (_ & Q & _).
    assert (columns u (p ++ [c]) <= columns u (firstn (x - k) (p ++ c :: q'))).
    { replace (p ++ [c]) with (firstn (length p + 1) (p ++ c :: q')) by (rewrite firstn_app, firstn_all2 by lia; replace (length p + 1 - length p) with 1 by lia; reflexivity).
      apply columns_firstn_mono. lia. }
    rewrite columns_app in H. lia. }
  assert (NTH : forall i, nth (k + i) line 0%N = nth i (p ++ q) 0%N) by (intros i; rewrite EL, app_nth2 by lia; f_equal; lia).
  destruct D as [D|[(c & q' & -> & D)|(-> & D)]].
  - split; [|intros; lia]. intros Hl. exists (nth (x - k) p 0%N). split.
    + rewrite firstn_app. replace (x - k - length p) with 0 by lia. rewrite app_nil_r. rewrite HC.
      replace x with (k + (x - k)) at 2 by lia. apply flagged_spot; assumption.
    + left. replace x with (k + (x - k)) at 2 by lia. rewrite NTH, app_nth1 by exact D. reflexivity.
  - split; [|cbn in LL; intros; lia]. intros Hl. exists c_ellipsis. split; [|auto]. destruct HQ as (_ & _ & _ & ->).
    rewrite HC, SC. apply in_or_app. right. cbn [app]. rewrite styled_cons. cbn [fst snd screen put]. rewrite firstn_app, firstn_all2, D, Nat.sub_diag, app_nil_r by lia.
    replace (k + length p) with x by lia. left. reflexivity.
  - split; [cbn in LL; intros; lia|]. intros Hl Hae. destruct HQ as (_ & _ & ->). cbn [length] in HC. rewrite app_nil_r, D, firstn_all in *. rewrite Nat.add_0_r in HC.
    rewrite (proj2 (Nat.ltb_lt _ _) Hw), Hae in HC. cbn [andb] in HC. rewrite HC, SC. apply in_or_app. right. cbn [app]. rewrite styled_cons. cbn [fst snd screen put]. left. reflexivity.
Qed.

(** ** Rows *)

Lemma scrollbar_style_out f : out_text (sc_queue (thumb (scrollbar_style f))) = [9616%N] /\ out_text (sc_queue (track (scrollbar_style f))) = [9616%N].
Proof. unfold scrollbar_style. destruct (focused f); [destruct (bg (focused_style f))|]; split; reflexivity. Qed.
Lemma sc_queue_text s : Forall text_cmd (sc_queue s).
Proof. unfold sc_queue, cs_queue. apply Forall_cons; [right; eauto|constructor]. Qed.
Lemma row_shown_text u f sbs w sb j row p : row_shown u f sbs w sb j row p -> exists a, row = MoveTo (a_left (if_area f)) (a_top (if_area f) + j) :: a /\ Forall text_cmd a.
Proof.
  intros (content & bar & -> & HC & HB). exists (content ++ bar). split; [reflexivity|]. apply Forall_app. split.
  - cbv zeta in HC. destruct (nth_error _ _).
    + destruct HC as (k & cells & _ & _ & -> & _). apply Forall_app. split; [destruct (_ && _); [apply Forall_cons; [right; eauto|constructor]|constructor]|apply styled_text].
    + destruct HC as (_ & HC & _). eapply Forall_impl; [|exact HC]. intros a (s & ->). right. eauto.
  - unfold bar_shown in HB. destruct sb as [[t b]|]; [|subst; constructor]. destruct HB as [B1 B2].
    assert (D : (t <= a_top (if_area f) + j <= b)%N \/ ~ (t <= a_top (if_area f) + j <= b)%N) by lia.
    destruct D as [D|D]; [rewrite (B1 D)|rewrite (B2 D)]; apply sc_queue_text.
Qed.
Lemma masked_no_tab f l : no_tab_shown f -> In l (clines (if_content f)) -> ~ In 9%N (masked f l).
Proof.
  intros [H|H] Hl; unfold masked.
  - rewrite H. intros HI. apply in_map_iff in HI as (x & Hx & _). discriminate.
  - destruct (password_mode f); [intros HI; apply in_map_iff in HI as (x & Hx & _); discriminate|]. apply H. exact Hl.
Qed.
Lemma cells_no_tab u w line sel ae k cells : ~ In 9%N line -> shows u w line sel ae k cells -> ~ In 9%N (map fst cells).
Proof. intros N H HI. apply (shows_chars H) in HI as [HI|[HI|HI]]; [auto|discriminate|discriminate]. Qed.
Lemma row_shown_width u f w sb j row p : usual_widths u -> no_tab_shown f -> 1 <= w ->
  row_shown u f (scrollbar_style f) w sb j row p -> sumw (chw u) (out_text row) = w + (if sb then 1 else 0).
Proof.
  intros HU NT Hw (content & bar & -> & HC & HB). unfold out_text. cbn [flat_map cmd_text app]. fold (out_text (content ++ bar)). rewrite out_text_app, sumw_app. f_equal.
  - cbv zeta in HC. destruct (nth_error _ _) as [l|] eqn:En.
    + destruct HC as (k & cells & _ & HS & -> & _). rewrite out_text_app, sumw_app, styled_out.
      assert (NL : ~ In 9%N (masked f l)) by (apply masked_no_tab; [exact NT|eapply nth_error_In; exact En]).
      rewrite <- (columns_no_tab u (map fst cells)) by (eapply cells_no_tab; eassumption). fold (cells_width u cells). rewrite (shows_width HU HS).
      destruct HU as (_ & U2 & _). destruct ((0 <? px (if_scroll f)) && (4 <? w)) eqn:EE.
      * apply andb_true_iff in EE as [_ EE]. apply Nat.ltb_lt in EE. unfold b2n. unfold out_text, sumw, c_ellipsis. cbn. rewrite U2. lia.
      * unfold b2n. change (sumw (chw u) (out_text [])) with 0. lia.
    + destruct HC as (-> & _). destruct HU as (U1 & _). clear Hw. induction w as [|w IH]; [reflexivity|]. cbn [repeat]. rewrite sumw_cons, IH, U1. reflexivity.
  - unfold bar_shown in HB. destruct sb as [[t b]|]; [|subst; reflexivity]. destruct HB as [B1 B2]. destruct (scrollbar_style_out f) as [O1 O2]. destruct HU as (_ & _ & _ & U4).
    assert (D : (t <= a_top (if_area f) + j <= b)%N \/ ~ (t <= a_top (if_area f) + j <= b)%N) by lia.
    destruct D as [D|D]; [rewrite (B1 D), O1|rewrite (B2 D), O2]; unfold sumw; cbn; rewrite U4; reflexivity.
Qed.
Lemma last_some_nth {A} (l : list (option A)) x : last_some l = Some x -> exists i, nth_error l i = Some (Some x).
Proof.
  induction l as [|a l IH]; [discriminate|]. cbn [last_some]. destruct (last_some l) as [y|].
  - intros H. injection H as <-. destruct (IH eq_refl) as (i & Hi). exists (S i). exact Hi.
  - intros ->. exists 0. reflexivity.
Qed.
Lemma last_some_none {A} (l : list (option A)) i x : nth_error l i = Some (Some x) -> last_some l <> None.
Proof.
  revert i. induction l as [|a l IH]; intros [|i]; try discriminate; cbn [nth_error last_some].
  - intros H. injection H as ->. destruct (last_some l); discriminate.
  - intros H. apply IH in H. destruct (last_some l); [discriminate|congruence].
Qed.
Lemma masked_columns u f l n : usual_widths u -> (password_mode f = true -> narrow u l) -> columns u (firstn n (masked f l)) = columns u (firstn n l).
Proof.
  intros (_ & _ & U3 & _) H. unfold masked. destruct (password_mode f); [|reflexivity]. specialize (H eq_refl). revert n. induction l as [|c l IH]; intros n; [reflexivity|].
  destruct n as [|n]; [reflexivity|]. cbn [map firstn]. rewrite columns_cons, (columns_cons u c (firstn n l)), IH by (intros x Hx; apply H; right; exact Hx). f_equal.
  rewrite (H c) by (left; reflexivity). unfold columns. cbn. rewrite U3. reflexivity.
Qed.
Lemma cursor_selected c : valid c -> range_contains (selection c) (px (cpos c)) (py (cpos c)) = true.
Proof.
  intros V. destruct (selection_ends V) as (_ & _ & HL). apply (range_contains_spec (selection c) _ _ HL). pose proof (selection_is c) as S.
  destruct (cpos c) as [y x] eqn:E. cbn [px py]. destruct (ctail c) as [t|].
  - destruct S as [[S ->]|[S ->]]; cbn [rmin rmax]; unfold pos_le in *; cbn [py px] in *; lia.
  - rewrite S. cbn [rmin rmax]. unfold pos_le. cbn. lia.
Qed.
(** No cell has the cursor style, if there's no last one *)
Lemma last_flag_none u n cur y : forall cells d, last_flag u d cells = None -> forall x sp, In sp (screen u x y (styled n cur cells)) -> s_style sp = Some n.
Proof.
  induction cells as [|[c b] cells IH]; intros d; [intros _ x sp []|]. cbn [last_flag]. destruct (last_flag u (d + columns u [c]) cells) eqn:E; [discriminate|].
  destruct b; [discriminate|]. intros _ x sp. rewrite styled_cons. cbn [screen fst snd put]. rewrite in_app_iff. intros [[<-|[]]|H]; [reflexivity|]. eapply IH; eauto.
Qed.

(** ** The display with less than 65536 lines *)

Lemma scrollbar_width f sb : (N.of_nat (nb_lines f) < 65536)%N ->
  area_scrollbar (if_area f) (N.of_nat (py (if_scroll f)) mod U16) (N.of_nat (line_count (if_content f)) mod U16) = Ret sb ->
  N.to_nat (a_width (if_area f)) - (if sb then 1 else 0) = text_width f /\ (sb <> None <-> height f < nb_lines f).
Proof.
  intros HL Esb. unfold text_width. destruct sb as [b|].
  - apply scrollbar_lines in Esb. rewrite (proj2 (Nat.ltb_lt _ _) Esb). split; [reflexivity|]. split; [auto|discriminate].
  - unfold area_scrollbar in Esb. rewrite compute_scrollbar_eq in Esb. change (line_count (if_content f)) with (nb_lines f) in Esb. rewrite (N.mod_small _ U16 HL) in Esb.
    destruct (N.leb_spec (N.of_nat (nb_lines f)) (a_height (if_area f))) as [L|L]; [|destruct (_ && _) in Esb; discriminate].
    destruct (Nat.ltb_spec (height f) (nb_lines f)) as [LL|LL]; [unfold height in LL; lia|]. split; [reflexivity|]. split; [congruence|lia].
Qed.
Lemma rows_text u f sbs w sb rows ps : length rows = length ps ->
  (forall i row p, nth_error rows i = Some row -> nth_error ps i = Some p -> row_shown u f sbs w sb (N.of_nat i) row p) ->
  Forall (fun r => exists x y a, r = MoveTo x y :: a /\ Forall text_cmd a) rows.
Proof.
  intros HL HR. apply Forall_forall. intros r Hr. apply In_nth_error in Hr as (m & Hm). destruct (nth_error ps m) as [pm|] eqn:Epm;
    [|apply nth_error_None in Epm; assert (m < length rows) by (apply nth_error_Some; congruence); lia].
  destruct (row_shown_text (HR m r pm Hm Epm)) as (a & -> & Ha). eauto.
Qed.
Lemma display_spot u f out p i l : usual_widths u -> on_screen (if_area f) -> 1 <= text_width f -> no_tab_shown f -> (N.of_nat (nb_lines f) < 65536)%N ->
  display_on u f = Ret (out, p) -> i < height f -> nth_error (clines (if_content f)) (py (if_scroll f) + i) = Some l ->
  let e := b2n (left_ellipsis f) in let m := masked f l in
  exists k, first_idx_at u m (px (if_scroll f) + e) k /\ forall x, k <= x <= length l -> columns u (firstn x m) - columns u (firstn k m) < text_width f - e ->
    (x < length l -> exists c, In (mkSpot (N.to_nat (a_left (if_area f)) + e + (columns u (firstn x m) - columns u (firstn k m))) (N.to_nat (a_top (if_area f)) + i)
                                     (Some (if is_selected f (py (if_scroll f) + i) x then cursor_style f else normal_style f)) c) (screen u 0 0 out)
                                 /\ (c = nth x m 0%N \/ c = c_ellipsis))
    /\ (x = length l -> cursor_at_end f (py (if_scroll f) + i) l = true ->
          In (mkSpot (N.to_nat (a_left (if_area f)) + e + (columns u (firstn x m) - columns u (firstn k m))) (N.to_nat (a_top (if_area f)) + i) (Some (cursor_style f)) 32%N) (screen u 0 0 out)).
Proof.
  intros HU HS HW NT HL ED Hi El e m.
  destruct (@display_on_spec u f out p HU HS HW ED) as (sb & rows & ps & Esb & -> & -> & L1 & L2 & HR).
  destruct (scrollbar_width f HL Esb) as [Hsb _]. rewrite Hsb in HR.
  destruct (nth_error rows i) as [row|] eqn:Erow; [|apply nth_error_None in Erow; lia].
  destruct (nth_error ps i) as [q|] eqn:Eq; [|apply nth_error_None in Eq; lia].
  destruct (HR i row q Erow Eq) as (content & bar & Erow' & HC & _). cbv zeta in HC. rewrite Nat2N.id, El in HC.
  fold (left_ellipsis f) in HC. destruct HC as (k & cells & HF & HSH & Econ & _). fold e m in HF, HSH. exists k. split; [exact HF|]. intros x Hx Hw.
  assert (NL : ~ In 9%N m) by (apply masked_no_tab; [exact NT|eapply nth_error_In; exact El]).
  assert (ML : length m = length l) by apply masked_length.
  set (Y := N.to_nat (a_top (if_area f)) + i). set (X := N.to_nat (a_left (if_area f)) + e).
  destruct (@shows_cursor u (text_width f - e) m (is_selected f (py (if_scroll f) + i)) (cursor_at_end f (py (if_scroll f) + i) l) k cells x X Y (normal_style f) (cursor_style f) HU NL HSH) as [SC1 SC2];
    [rewrite ML; lia|exact Hw|]. rewrite ML in SC1, SC2.
  assert (INROW : forall sp, In sp (screen u X Y (styled (normal_style f) (cursor_style f) cells)) -> In sp (screen u 0 0 (SetBg Reset :: concat rows))).
  { intros sp Hsp. cbn [screen]. rewrite screen_rows by (eapply rows_text; [|exact HR]; congruence).
    apply in_concat. exists (screen u 0 0 row). split; [apply in_map; eapply nth_error_In; exact Erow|].
    rewrite Erow'. cbn [screen]. rewrite Econ, <- app_assoc.
    assert (EY : N.to_nat (a_top (if_area f) + N.of_nat i) = Y) by (unfold Y; lia). rewrite EY.
    assert (G : In sp (screen u X Y (styled (normal_style f) (cursor_style f) cells ++ bar))) by (rewrite screen_app by apply styled_text; apply in_or_app; left; exact Hsp).
    unfold X, e in G. destruct (left_ellipsis f); cbn [app b2n] in *.
    + cbn [screen]. apply in_or_app. right. replace (sumw (chw u) [c_ellipsis]) with 1 by (unfold sumw, c_ellipsis; cbn; destruct HU as (_ & -> & _); reflexivity). exact G.
    + rewrite Nat.add_0_r in G. exact G. }
  split.
  - intros H. destruct (SC1 H) as (c & H1 & H2). exists c. split; [apply INROW; exact H1|exact H2].
  - intros H1 H2. apply INROW. apply SC2; assumption.
Qed.
