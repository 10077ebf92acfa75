(** * An input field which receives events is seen as it is (C114) *)
From Verif Require Import Base L_Base Demo M_Content S_Content S_Safe P_Safe L_Content4 S_Editor L_Editor S_Marked P_Marked S_Count P_Count.
From Verif Require Import M_Style M_View S_View L_View M_Input S_Input L_Input L_Input2 P_Input P_Input2 S_Pen S_Paint P_Pen P_Paint S_Look S_Point P_Point S_Drawn.
Set Implicit Arguments.
Open Scope nat_scope.

(** ** What an event does to the content *)
Lemma press_supplied h k shift a : flat_map supplied (match k with
           | KBackspace => [if m_wide a then OpDelSelection else OpDelLeft]
           | KDelete => [if m_wide a then OpDelSelection else OpDelBelow]
           | KChar ch => (if m_wide a then [OpDelSelection] else []) ++ [OpInsertChar ch]
           | _ => (if shift : bool then OpMakeSelection else OpUnselect) :: pressed h k
           end) = match k with KChar ch => typed [ch] | _ => [] end.
Proof. destruct k; try destruct shift; try destruct (m_wide a); cbn [flat_map app supplied pressed]; rewrite ?app_nil_r; reflexivity. Qed.
Lemma event_content u f e d f' b : field_ok f -> apply_event u f e d = Ret (f', b) ->
  exists ops, m_run u ops (m_view (if_content f)) = Some (m_view (if_content f')) /\ (flat_map supplied ops = typed_by e \/ flat_map supplied ops = []).
Proof.
  intros OK E. assert (Z : f' = f -> exists ops, m_run u ops (m_view (if_content f)) = Some (m_view (if_content f')) /\ (flat_map supplied ops = typed_by e \/ flat_map supplied ops = [])) by (intros ->; exists []; split; [reflexivity|right; reflexivity]).
  destruct (C14_event u f d) as (EM & E0 & E1 & EN & ER & EF & EP & _). destruct e as [code mods|e|w h|fo|s].
  - destruct (focused f) eqn:F; [|rewrite EN in E by (left; reflexivity); injection E as <- _; apply Z; reflexivity].
    assert (K : forall shift : bool, mods = (if shift then 1 else 0)%N -> exists ops, m_run u ops (m_view (if_content f)) = Some (m_view (if_content f')) /\ (flat_map supplied ops = typed_by (EKey code mods) \/ flat_map supplied ops = [])).
    { intros shift Em. destruct (@press_marked u f code shift OK F) as (f1 & b1 & E2 & _ & _ & P). unfold press_with in E2. cbn [if_apply fst snd] in E2. rewrite <- Em in E2.
      assert (apply_event u f (EKey code mods) false = apply_event u f (EKey code mods) d) as Q by reflexivity. rewrite Q, E in E2. injection E2 as <- <-.
      eexists. split; [exact P|]. left. rewrite press_supplied. reflexivity. }
    destruct (N.eqb_spec mods 0) as [Q|Q]; [exact (K false Q)|]. destruct (N.eqb_spec mods 1) as [Q'|Q']; [exact (K true Q')|]. rewrite EN in E by (right; split; assumption). injection E as <- _. apply Z. reflexivity.
  - rewrite (proj1 (EM e)) in E. destruct OK as [V (W & HS)]. assert (D : cell_in (if_area f) (m_column e) (m_row e) \/ ~ cell_in (if_area f) (m_column e) (m_row e)) by (unfold cell_in; lia). destruct D as [I|O].
    + destruct (focused f) eqn:F.
      * destruct (@C110_mouse u f e d (conj V (conj W HS)) I F) as (p & f1 & _ & E2 & M). rewrite E in E2. injection E2 as <- _. eexists. split; [exact M|]. right. unfold m_mouse. destruct (m_kind e) as [[]|[]|[]| | | | |]; try destruct d; try destruct (N.eqb (m_mods e) 1); reflexivity.
      * destruct (@C14_mouse_unfocused u f e d HS I F) as (A & B). exists []. split; [|right; reflexivity]. cbn [m_run]. do 2 f_equal.
        assert (D : m_kind e = MDown BLeft \/ m_kind e <> MDown BLeft) by (destruct (m_kind e) as [[]|[]|[]| | | | |]; (left; reflexivity) || (right; discriminate)).
        destruct D as [D|D]; [rewrite (A D) in E|rewrite (B D) in E]; injection E as <- _; reflexivity.
    + rewrite (proj1 (@C14_mouse_outside u f e d HS O)) in E. injection E as <- _. apply Z. reflexivity.
  - rewrite ER in E. injection E as <- _. apply Z. reflexivity.
  - rewrite EF in E. injection E as <- _. apply Z. reflexivity.
  - rewrite EP in E. injection E as <- _. apply Z. reflexivity.
Qed.
Lemma lines_times c : loose c -> length (clines c) = S (times c_nl (text c)).
Proof.
  intros L. rewrite <- (loose_lines L), lines_of_length, whole_view. f_equal. induction (text c) as [|ch s IH]; [reflexivity|]. unfold times in *. cbn [breaks count_occ]. rewrite IH. destruct (N.eqb_spec ch c_nl), (N.eq_dec ch c_nl); congruence || lia.
Qed.
Lemma event_times u f e d f' b x : field_ok f -> apply_event u f e d = Ret (f', b) -> times x (text (if_content f')) <= times x (text (if_content f)) + times x (typed_by e).
Proof.
  intros OK E. destruct (@event_content u f e d f' b OK E) as (ops & M & S). pose proof (loose_valid (proj1 OK)) as L. pose proof (@C110_runs u ops _ L) as R. rewrite M in R. destruct R as (c1 & E1 & _ & Q).
  pose proof (@C113_runs u ops _ c1 x L E1) as K. assert (T : text c1 = text (if_content f')) by (rewrite <- !whole_view; f_equal; exact (f_equal m_ed Q)). rewrite T in K. destruct S as [S|S]; rewrite S in K; [exact K|]. change (times x []) with 0 in K. lia.
Qed.

(** ** The scroll *)
Lemma fix_bound u g f' : fix_scroll u g = Ret f' -> py (if_scroll f') <= nb_lines f' /\ exists s, f' = with_scroll g s.
Proof.
  unfold fix_scroll. intros E. apply bind_Ret_inv in E as (w & _ & E). apply bind_Ret_inv in E as (sy & Ey & E). apply bind_Ret_inv in E as (l & El & E). apply bind_Ret_inv in E as (sx & _ & E). injection E as <-. split; [|eexists; reflexivity].
  change (sy <= length (clines (if_content g))). unfold current_line, idx in El. destruct (nth_error (clines (if_content g)) (py (cpos (if_content g)))) as [l'|] eqn:En; [|discriminate].
  assert (Hy : py (cpos (if_content g)) < length (clines (if_content g))) by (apply nth_error_Some; congruence).
  destruct (@fix_scroll_y_spec (focused g) (N.to_nat (a_height (if_area g))) _ _ (py (if_scroll g)) Hy) as (s & Es & S1 & S2 & _). rewrite Ey in Es. injection Es as <-.
  destruct (Nat.le_gt_cases (length (clines (if_content g))) (N.to_nat (a_height (if_area g)))) as [L|L]; [rewrite (S1 L); lia|]. destruct (S2 L); lia.
Qed.
Definition scroll_in (f f' : InputField) : Prop := py (if_scroll f') <= Nat.max (py (if_scroll f)) (nb_lines f').
Lemma wrapped_in u op f g f' b : if_scroll g = if_scroll f -> wrapped u op g = Ret (f', b) -> scroll_in f f'.
Proof.
  intros Eg E. unfold wrapped in E. apply bind_Ret_inv in E as ((c & b1) & _ & E). destruct b1.
  - apply bind_Ret_inv in E as (g1 & E1 & E). injection E as <- _. destruct (@fix_bound _ _ _ E1) as (B & _). unfold scroll_in. lia.
  - injection E as <- _. unfold scroll_in. cbn [with_content if_scroll]. rewrite Eg. lia.
Qed.
Lemma put_in u g ch f f' b : put_char u g ch = Ret (f', b) -> scroll_in f f'.
Proof. unfold put_char. intros E. apply bind_Ret_inv in E as (c & _ & E). apply bind_Ret_inv in E as (g1 & E1 & E). injection E as <- _. destruct (@fix_bound _ _ _ E1) as (B & _). unfold scroll_in. lia. Qed.
Lemma keycode_in u f code shift f' b : apply_keycode_event u f code shift = Ret (f', b) -> scroll_in f f'.
Proof.
  assert (Z : forall c, scroll_in f (with_content f c)) by (intros c; unfold scroll_in; cbn [with_content if_scroll]; lia).
  unfold apply_keycode_event. cbv zeta. set (c := if_content f).
  assert (DEL : forall m b0, (if has_wide_selection c then '(c, _) <- del_selection c ;; Ret (with_content f c, true) else '(c, b) <- m ;; Ret (with_content f c, b)) = Ret (f', b0) -> scroll_in f f').
  { intros m b0 E. destruct (has_wide_selection c); apply bind_Ret_inv in E as ((c1 & b1) & _ & E); injection E as <- _; apply Z. }
  set (g := with_content f (if shift then make_selection c else unselect c)). assert (Eg : if_scroll g = if_scroll f) by reflexivity.
  assert (ST : forall b0, Ret (g, false) = Ret (f', b0) -> scroll_in f f') by (intros b0 E; injection E as <- _; apply Z).
  assert (WR : forall op b0, wrapped u op g = Ret (f', b0) -> scroll_in f f') by (intros op b0; apply wrapped_in; exact Eg).
  destruct code; intros E; try (exact (DEL _ _ E)); try (exact (ST _ E)); try (exact (WR _ _ E)).
  destruct (has_wide_selection c).
  - apply bind_Ret_inv in E as ((c1 & b1) & _ & E). apply bind_Ret_inv in E as ((g1 & b2) & _ & E). apply bind_Ret_inv in E as (g2 & E2 & E). injection E as <- _. destruct (@fix_bound _ _ _ E2) as (B & _). unfold scroll_in. lia.
  - exact (@put_in _ _ _ _ _ _ E).
Qed.
Lemma mouse_in u f e d f' b : apply_mouse_event u f e d = Ret (f', b) -> scroll_in f f'.
Proof.
  assert (Z0 : scroll_in f f) by (unfold scroll_in; lia). assert (Z : forall c, scroll_in f (with_content f c)) by (intros c; unfold scroll_in; cbn [with_content if_scroll]; lia).
  assert (ZF : scroll_in f (with_focus f true)) by (unfold scroll_in; cbn; lia).
  unfold apply_mouse_event. intros E. apply bind_Ret_inv in E as (i & _ & E). destruct i; [|injection E as <- _; exact Z0]. destruct (focused f).
  - apply bind_Ret_inv in E as (p & _ & E). destruct (m_kind e) as [[]|[]|[]| | | | |]; try (injection E as <- _; exact Z0).
    + apply bind_Ret_inv in E as (c & _ & E). injection E as <- _. apply Z.
    + destruct d; [|injection E as <- _; exact Z0]. apply bind_Ret_inv in E as (c & _ & E). apply bind_Ret_inv in E as ((c1 & b1) & _ & E). injection E as <- _. apply Z.
    + apply bind_Ret_inv in E as (c & _ & E). injection E as <- _. apply Z.
    + injection E as <- _. unfold scroll_down. destruct (_ <? _) eqn:Q; [|exact Z0]. apply Nat.ltb_lt in Q. unfold scroll_in, nb_lines. cbn [fst with_scroll if_scroll py if_content]. lia.
    + injection E as <- _. unfold scroll_up. destruct (_ <? _) eqn:Q; [|exact Z0]. unfold scroll_in. cbn [fst with_scroll if_scroll py]. lia.
  - destruct (m_kind e) as [[]|[]|[]| | | | |]; injection E as <- _; assumption.
Qed.
Lemma event_in u f e d f' b : apply_event u f e d = Ret (f', b) -> scroll_in f f'.
Proof.
  assert (Z0 : scroll_in f f) by (unfold scroll_in; lia). unfold apply_event. destruct e as [code mods|e|w h|fo|s]; intros E; try (injection E as <- _; exact Z0); [|exact (@mouse_in _ _ _ _ _ _ E)].
  destruct (focused f); [|injection E as <- _; exact Z0]. destruct (N.eqb mods 0); [exact (@keycode_in _ _ _ _ _ _ E)|]. destruct (N.eqb mods SHIFT); [exact (@keycode_in _ _ _ _ _ _ E)|]. injection E as <- _. exact Z0.
Qed.
(** The drawing doesn't panic, even with a scroll which is too far *)
Lemma far_scrollbar a s c : (1 <= a_height a)%N -> (c < 65536)%N -> (a_top a + a_height a + s + 1 < 65536)%N -> exists sb, area_scrollbar a (s mod U16) (c mod U16) = Ret sb.
Proof.
  intros Hh Hc Hs. unfold area_scrollbar. rewrite !N.mod_small by (unfold U16; lia). rewrite compute_scrollbar_eq. destruct (N.leb_spec c (a_height a)) as [L|L]; [eexists; reflexivity|].
  set (top := a_top a) in *. set (h := a_height a) in *.
  assert (T : (tb_of s c h <= s /\ h * h / c <= h)%N).
  { split; [|apply N.div_le_upper_bound; [lia|nia]]. unfold tb_of. cbv zeta. assert (s * h / c <= s)%N by (apply N.div_le_upper_bound; [lia|nia]). destruct (N.eqb_spec (s * h / c) 0), (N.ltb_spec 0 s); cbn [andb]; lia. }
  assert (B : (top + tb_of s c h < U16 /\ bot_of s c h top < U16)%N) by (unfold bot_of, U16; destruct (_ && _)%bool; lia).
  destruct B as [B1 B2]. rewrite (proj2 (N.ltb_lt _ _) B1), (proj2 (N.ltb_lt _ _) B2). eexists. reflexivity.
Qed.
Lemma far_display u f : usual_widths u -> on_screen (if_area f) -> 1 <= text_width f -> (1 <= a_height (if_area f))%N ->
  (N.of_nat (nb_lines f) < 65536)%N -> (a_top (if_area f) + a_height (if_area f) + N.of_nat (py (if_scroll f)) + 1 < 65536)%N -> exists out p, display_on u f = Ret (out, p).
Proof.
  intros HU H Hw Hh Hn Hs. unfold display_on. cbv zeta. fold (normal_style f).
  destruct (@far_scrollbar (if_area f) (N.of_nat (py (if_scroll f))) (N.of_nat (line_count (if_content f))) Hh Hn Hs) as (sb & Esb). rewrite Esb, bind_ret.
  assert (HB : match sb with Some _ => (2 <= a_width (if_area f))%N | None => (1 <= a_width (if_area f))%N end).
  { unfold text_width in Hw. destruct sb as [x|]; [|lia]. apply scrollbar_lines in Esb. rewrite (proj2 (Nat.ltb_lt _ _) Esb) in Hw. lia. }
  set (w := N.to_nat (a_width (if_area f)) - (if sb then 1 else 0)).
  assert (E : match sb with Some _ => csub (N.to_nat (a_width (if_area f))) 1 | None => Ret (N.to_nat (a_width (if_area f))) end = Ret w)
    by (unfold w; destruct sb; [rewrite csub_ret by lia; reflexivity|f_equal; lia]).
  rewrite E, bind_ret. destruct H as [H1 H2].
  destruct (@draw_rows_spec u f (scrollbar_style f) w sb) with (n := N.to_nat (a_height (if_area f))) (j := 0%N) as (rows & ps & ER & _);
    try assumption; [unfold w; destruct sb; lia|unfold w; destruct sb; lia|lia|].
  change (N.to_nat 0) with 0 in ER. rewrite Nat.add_0_r in ER. rewrite ER, bind_ret. eauto.
Qed.

(** ** Events and drawings *)
Lemma in_text c ch : In ch (text c) <-> In ch (concat (clines c)) \/ (ch = c_nl /\ 2 <= length (clines c)).
Proof.
  unfold text. destruct (clines c) as [|l ls]; [cbn; intuition; lia|]. cbn [flat concat]. rewrite !in_app_iff. induction ls as [|l' ls IH]; [cbn; intuition; lia|].
  cbn [map concat app]. rewrite in_app_iff. cbn [In length] in *. rewrite in_app_iff in *. cbn [In length] in *. intuition lia.
Qed.
Lemma event_narrow u f e d f' b : field_ok f -> narrow_text u f -> types_narrow u (e, d) -> apply_event u f e d = Ret (f', b) -> field_ok f' -> narrow_text u f'.
Proof.
  intros OK Na T E OK' l I ch Ic. assert (NL : ch <> c_nl). { pose proof (loose_valid (proj1 OK')) as (_ & _ & _ & C). destruct (C l ch I Ic) as (C1 & _). exact C1. }
  assert (It : In ch (text (if_content f'))) by (apply in_text; left; apply in_concat; exists l; split; assumption).
  apply (count_occ_In N.eq_dec) in It. pose proof (@event_times u f e d f' b ch OK E) as K. unfold times in K.
  assert (D : (count_occ N.eq_dec (text (if_content f)) ch > 0 \/ count_occ N.eq_dec (typed_by e) ch > 0)%nat) by lia. destruct D as [D|D]; apply (count_occ_In N.eq_dec) in D.
  - apply in_text in D as [D|(D & _)]; [|congruence]. apply in_concat in D as (l0 & I0 & Ic0). exact (Na l0 I0 ch Ic0).
  - destruct (T ch D) as [D'|D']; [congruence|exact D'].
Qed.
Lemma event_lines u f e d f' b : field_ok f -> apply_event u f e d = Ret (f', b) -> field_ok f' -> nb_lines f' <= S (nb_lines f).
Proof.
  intros OK E OK'. unfold nb_lines. rewrite (lines_times (loose_valid (proj1 OK))), (lines_times (loose_valid (proj1 OK'))). pose proof (@event_times u f e d f' b c_nl OK E) as K.
  enough (times c_nl (typed_by e) <= 1) by lia. destruct e as [code mods|e|w h|fo|s]; cbn [typed_by]; try (cbn; lia). destruct code; try (cbn; lia). unfold typed. cbn [filter]. match goal with |- context [if ?x then _ else _] => destruct x end; unfold times; cbn [count_occ]; try destruct (N.eq_dec c c_nl); lia.
Qed.

(** Whatever the events a field receives, drawn after each of them: nothing panics, the field is the one of these events alone, nothing is changed
    out of its area, and its area shows, and only shows, the picture of the field as it is *)
Theorem C114_editing : forall u, usual_widths u -> forall events f tm B, field_ok f -> narrow_text u f -> (2 <= a_width (if_area f))%N -> (1 <= a_height (if_area f))%N ->
  nb_lines f <= B -> py (if_scroll f) <= B -> N.to_nat (a_top (if_area f)) + height f + B + length events + 1 < N.to_nat 65536 ->
  Forall (types_narrow u) events -> t_pen tm = pen0 ->
  exists f' tm', editing u f tm events = Ret (f', tm') /\ if_run u f (map on_event events) = Ret f'
  /\ field_ok f' /\ narrow_text u f' /\ if_area f' = if_area f /\ t_pen tm' = pen0
  /\ (forall x y, ~ inside (if_area f) x y -> t_cell tm' x y = t_cell tm x y)
  /\ (events <> [] ->
      (forall c j, c < text_width f' -> j < height f' -> t_cell tm' (N.to_nat (a_left (if_area f)) + c) (N.to_nat (a_top (if_area f)) + j) = field_cell f' c j)
      /\ exists out p, display_on u f' = Ret (out, p) /\ same_view tm' (term_run u tm out)).
Proof.
  intros u HU events. induction events as [|(e & d) events IH]; intros f tm B OK Na W Hh HB HS HT TN TP.
  { exists f, tm. split; [reflexivity|]. split; [reflexivity|]. split; [exact OK|]. split; [exact Na|]. split; [reflexivity|]. split; [exact TP|]. split; [reflexivity|congruence]. }
  inversion TN as [|? ? T1 T2]; subst. cbn [editing map if_run on_event if_apply fst snd].
  destruct (@C72_step u f (IfEvent e d) OK I) as (f1 & b1 & E1 & OK1 & _ & SS). cbn [if_apply] in E1. rewrite E1. cbn [bind].
  assert (A1 : if_area f1 = if_area f) by (destruct (SS ltac:(intros [])) as (A & _); exact A).
  pose proof (@event_narrow u f e d f1 b1 OK Na T1 E1 OK1) as Na1. pose proof (@event_lines u f e d f1 b1 OK E1 OK1) as L1. pose proof (@event_in u f e d f1 b1 E1) as S1. unfold scroll_in in S1.
  cbn [length] in HT. pose proof OK as [_ (W0 & ON)]. assert (ON1 : on_screen (if_area f1)) by (rewrite A1; exact ON).
  assert (TW1 : 1 <= text_width f1) by (unfold text_width; rewrite A1; destruct (_ <? _); lia). assert (H1 : height f1 = height f) by (unfold height; rewrite A1; reflexivity).
  assert (NL1 : (N.of_nat (nb_lines f1) < 65536)%N) by lia.
  destruct (@far_display u f1 HU ON1 TW1 ltac:(rewrite A1; exact Hh) NL1 ltac:(rewrite A1; unfold height in HT; lia)) as (out & p & ED). rewrite ED. cbn [bind].
  assert (NT : no_tab_shown f1) by (right; intros l Il; eapply narrow_no_tab, Na1, Il).
  pose proof (@C94_field u f1 out p HU ON1 TW1 NT ED) as DR. rewrite A1 in DR. pose proof DR as (pic & PIC). destruct (PIC tm TP) as (TP1 & C1).
  destruct (IH f1 (term_run u tm out) (S B) OK1 Na1 ltac:(rewrite A1; exact W) ltac:(rewrite A1; exact Hh) ltac:(lia) ltac:(lia) ltac:(rewrite A1, H1; lia) T2 TP1) as (f' & tm' & E & R & OK' & Na' & A' & TP' & O' & V).
  exists f', tm'. split; [exact E|]. split; [exact R|]. split; [exact OK'|]. split; [exact Na'|]. split; [congruence|]. split; [exact TP'|].
  rewrite A1 in O', V, A'. split; [intros x y O; rewrite (O' x y O); apply (proj2 (C1 x y)); exact O|]. intros _. destruct events as [|ev events].
  - cbn [editing] in E. injection E as <- <-. split.
    + intros c j Hc Hj. pose proof (@C105_picture u f1 out p tm c j HU ON1 Na1 NL1 ED TP Hc Hj) as P. rewrite A1 in P. exact P.
    + exists out, p. split; [exact ED|]. split; reflexivity.
  - destruct (V ltac:(discriminate)) as (V1 & out2 & p2 & ED2 & SV). split; [exact V1|]. exists out2, p2. split; [exact ED2|].
    assert (DR2 : draws u (inside (if_area f)) out2).
    { rewrite <- A'. eapply C94_field; [exact HU|rewrite A'; exact ON| |right; intros l Il; eapply narrow_no_tab, Na', Il|exact ED2]. unfold text_width. rewrite A'. destruct (_ <? _); lia. }
    pose proof (@C94_again u (inside (if_area f)) out out2 tm DR DR2 (fun x y => proj1 (C94_cells (if_area f) x y)) TP) as AG. rewrite term_run_app in AG. destruct SV as (SV1 & SV2), AG as (AG1 & AG2). split; [congruence|]. intros x y. rewrite SV2. apply AG2.
Qed.
(** With keys, the content which is seen is the one told by the reference of C110 *)
Theorem C114_keys : forall u, usual_widths u -> forall ks f tm, field_ok f -> focused f = true -> narrow_text u f -> (2 <= a_width (if_area f))%N -> (1 <= a_height (if_area f))%N ->
  N.to_nat (a_top (if_area f)) + height f + Nat.max (nb_lines f) (py (if_scroll f)) + length ks + 1 < N.to_nat 65536 ->
  Forall (fun k => forall ch, fst k = KChar ch -> forall c, In c (typed [ch]) -> c = c_nl \/ columns u [c] = 1) ks -> ks <> [] -> t_pen tm = pen0 ->
  exists f' tm', editing u f tm (map key_pressed ks) = Ret (f', tm')
  /\ m_keys u (height f) ks (m_view (if_content f)) = Some (m_view (if_content f')) /\ only_content f f'
  /\ (forall x y, ~ inside (if_area f) x y -> t_cell tm' x y = t_cell tm x y)
  /\ (forall c j, c < text_width f' -> j < height f' -> t_cell tm' (N.to_nat (a_left (if_area f)) + c) (N.to_nat (a_top (if_area f)) + j) = field_cell f' c j).
Proof.
  intros u HU ks f tm OK F Na W Hh HT TN NE TP.
  destruct (@C114_editing u HU (map key_pressed ks) f tm (Nat.max (nb_lines f) (py (if_scroll f))) OK Na W Hh ltac:(lia) ltac:(lia) ltac:(rewrite map_length; lia)) as (f' & tm' & E & R & _ & _ & _ & _ & O & V); [|exact TP|].
  { apply Forall_forall. intros ev I. apply in_map_iff in I as (k & <- & I). rewrite Forall_forall in TN. specialize (TN k I). intros ch. unfold key_pressed. cbn [fst typed_by]. destruct (fst k); try (intros []). apply TN. reflexivity. }
  destruct (@C110_keys u ks f OK F) as (f1 & R1 & _ & OC & M). assert (f1 = f') as ->. { rewrite map_map in R. assert (Q : map (fun k => on_event (key_pressed k)) ks = map press_with ks) by reflexivity. rewrite Q, R1 in R. injection R as ->. reflexivity. }
  exists f', tm'. split; [exact E|]. split; [exact M|]. split; [exact OC|]. split; [exact O|]. apply V. destruct ks; [congruence|discriminate].
Qed.
Print Assumptions C114_editing.
Print Assumptions C114_keys.

(** An empty field of 8 columns and 2 rows on a full terminal: 3 lines are typed, then a key goes up and another one, with shift, goes to the end of the line *)
Definition drawn_events : list (Event * bool) := map key_pressed [(KChar 97%N, false); (KChar c_nl, false); (KChar 98%N, false); (KChar 99%N, false); (KChar c_nl, false); (KUp, false); (KRight, true)].
Definition drawn_looks : list (list (char * pen)) :=
  match editing demo (demo_field 8 2) full_term drawn_events with
  | Ret (_, tm) => map (fun j => look_row tm 2 (4 + j) 10) (seq 0 2)
  | _ => []
  end.
Example C114_example : field_ok (demo_field 8 2) /\ usual_widths demo /\ narrow_text demo (demo_field 8 2) /\ Forall (types_narrow demo) drawn_events /\ t_pen full_term = pen0
  /\ drawn_looks = let d := pen0 in let r := mkPen Reset Reset 4096 in let thumb := mkPen (AnsiValue 253) Reset 0 in let track := mkPen (AnsiValue 237) Reset 0 in
  [[(120, d); (98, r); (99, r); (32, d); (32, d); (32, d); (32, d); (32, d); (9616, track); (120, d)];
   [(120, d); (32, d); (32, d); (32, d); (32, d); (32, d); (32, d); (32, d); (9616, thumb); (120, d)]]%N.
Proof.
  split; [|split; [|split; [|split; [|split; [reflexivity|]]]]].
  - split; [apply validb_ok; vm_compute; reflexivity|split; vm_compute; [discriminate|split; reflexivity]].
  - repeat split; reflexivity.
  - intros l [<-|[]] ch [].
  - apply Forall_forall. intros ev I. cbv [drawn_events map In] in I. intros ch Hc.
    repeat (destruct I as [<-|I]; [cbv in Hc; try (destruct Hc as [<-|[]]; vm_compute; auto; fail); destruct Hc|]). destruct I.
  - vm_compute; reflexivity.
Qed.
