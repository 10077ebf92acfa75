(** * Properties of input fields: events and histories (C14, C72) *)
From Verif Require Import Base L_Base Demo M_Style M_Fit S_Fit L_Fit M_View S_View L_View M_Content S_Content L_Content L_Content2 L_Content3 L_Content4 M_Input S_Input S_Input2 L_Input L_Input2 L_Input3 P_Input.
Set Implicit Arguments.
Open Scope nat_scope.

(** ** C14 Input field events only act when they should *)

(** What the keys do. The moving ones select when shift is pressed and unselect when it isn't *)
Theorem C14_key_move : forall u f k shift op, field_ok f -> key_move f k = Some op ->
  exists f' b, apply_keycode_event u f k shift = Ret (f', b) /\ done u (with_content f (key_selection shift (if_content f))) op f' b.
Proof. intros. apply keycode_move; assumption. Qed.
Theorem C14_key_ignored : forall u f k shift, key_ignored k -> apply_keycode_event u f k shift = Ret (with_content f (key_selection shift (if_content f)), false).
Proof. intros. apply keycode_ignored. assumption. Qed.
(** Deleting keys remove the selection if there's a wide one. They don't fix the scroll *)
Theorem C14_key_delete : forall u f shift k op, field_ok f -> (k = KBackspace /\ op = OpDelLeft \/ k = KDelete /\ op = OpDelBelow) ->
  exists c b, let wide := has_wide_selection (if_content f) in
  capply u (if wide then OpDelSelection else op) (if_content f) = Ret (c, b) /\ apply_keycode_event u f k shift = Ret (with_content f c, wide || b).
Proof.
  intros u f shift k op [V _] H. cbv zeta. destruct (has_wide_selection (if_content f)) eqn:W.
  - destruct (@capply_valid u OpDelSelection (if_content f) ltac:(discriminate) V) as (c & b & E & _). exists c, b. split; [exact E|]. cbn [capply] in E.
    destruct H as [[-> ->]|[-> ->]]; unfold apply_keycode_event; rewrite W, E; reflexivity.
  - destruct (@capply_valid u op (if_content f) ltac:(intros p; destruct H as [[_ ->]|[_ ->]]; discriminate) V) as (c & b & E & _). exists c, b. split; [exact E|].
    destruct H as [[-> ->]|[-> ->]]; cbn [capply] in E; unfold apply_keycode_event; rewrite W, E; reflexivity.
Qed.
(** A typed char replaces the selection if it's wide *)
Theorem C14_key_char : forall u f shift ch, field_ok f -> exists c1 c2 f',
  (has_wide_selection (if_content f) = true -> exists b, del_selection (if_content f) = Ret (c1, b))
  /\ (has_wide_selection (if_content f) = false -> c1 = if_content f)
  /\ valid c1 /\ valid c2 /\ inserted c1 c2 (typed [ch])
  /\ apply_keycode_event u f (KChar ch) shift = Ret (f', true) /\ only_scroll (with_content f c2) f'
  /\ exists g, only_scroll (with_content f c2) g /\ fix_scroll u g = Ret f'.
Proof.
  intros u f shift ch OK. pose proof OK as [V _]. destruct (has_wide_selection (if_content f)) eqn:W.
  - destruct (del_selection_spec V) as (c1 & b & E & V1 & _). destruct (insert_char_spec ch V1) as (c2 & E2 & V2 & I & _).
    pose proof (field_ok_content OK V2) as OK2. destruct (fix_scroll_ok u OK2) as (s & Es). destruct (@fix_scroll_ok u (with_scroll (with_content f c2) s) (field_ok_scroll s OK2)) as (s' & Es').
    exists c1, c2, (with_scroll (with_content f c2) s'). split; [eauto|]. split; [discriminate|]. split; [exact V1|]. split; [exact V2|]. split; [exact I|]. split.
    + unfold apply_keycode_event. rewrite W, E. cbn [bind]. unfold put_char. change (if_content (with_content f c1)) with c1. rewrite E2. cbn [bind].
      change (with_content (with_content f c1) c2) with (with_content f c2). rewrite Es. cbn [bind]. rewrite Es'. reflexivity.
    + split; [exists s'; reflexivity|]. exists (with_scroll (with_content f c2) s). split; [exists s; reflexivity|exact Es'].
  - destruct (insert_char_spec ch V) as (c2 & E2 & V2 & I & _). pose proof (field_ok_content OK V2) as OK2. destruct (fix_scroll_ok u OK2) as (s & Es).
    exists (if_content f), c2, (with_scroll (with_content f c2) s). split; [discriminate|]. split; [reflexivity|]. split; [exact V|]. split; [exact V2|]. split; [exact I|]. split.
    + unfold apply_keycode_event. rewrite W. unfold put_char. rewrite E2. cbn [bind]. rewrite Es. reflexivity.
    + split; [exists s; reflexivity|]. exists (with_content f c2). split; [exists (if_scroll f); reflexivity|exact Es].
Qed.
(** The dispatch of the events *)
Theorem C14_key_combination : forall u f k, focused f = true ->
  (existsb (key_eqb k) (new_line_keys f) = true -> apply_key_combination u f k = if_apply u f IfNewLine)
  /\ (existsb (key_eqb k) (new_line_keys f) = false ->
       (forall code, kcodes k = [code] -> kmods k = 0%N -> apply_key_combination u f k = apply_keycode_event u f code false)
       /\ (forall code, kcodes k = [code] -> kmods k = 1%N -> apply_key_combination u f k = apply_keycode_event u f code true)
       /\ ((kmods k <> 0 /\ kmods k <> 1)%N \/ length (kcodes k) <> 1 -> apply_key_combination u f k = Ret (f, false))).
Proof.
  intros u f k F. unfold apply_key_combination. rewrite F. cbn [negb]. split.
  - intros ->. cbn [if_apply]. unfold if_insert_new_line. destruct (insert_new_line (if_content f)); [|reflexivity|reflexivity]. cbn [bind]. destruct (fix_scroll u _); reflexivity.
  - intros ->. split; [|split].
    + intros code -> ->. reflexivity.
    + intros code -> ->. reflexivity.
    + intros H. destruct (kcodes k) as [|code [|code2 r]]; [reflexivity| |reflexivity]. unfold SHIFT. destruct (N.eqb_spec (kmods k) 0); [cbn in H; lia|]. destruct (N.eqb_spec (kmods k) 1); [cbn in H; lia|reflexivity].
Qed.
Lemma keycode_eqb_spec a b : keycode_eqb a b = true <-> a = b.
Proof. destruct a, b; cbn; try (split; [discriminate|congruence]); try (split; reflexivity); rewrite N.eqb_eq; split; congruence. Qed.
Lemma key_eqb_spec a b : key_eqb a b = true <-> a = b.
Proof.
  unfold key_eqb. destruct a as [ma ca], b as [mb cb]; cbn [kcodes kmods]. rewrite andb_true_iff, N.eqb_eq.
  assert (L : keycodes_eqb ca cb = true <-> ca = cb).
  { clear. revert cb. induction ca as [|x ca IH]; intros [|y cb]; cbn; try (split; [discriminate|congruence]); [split; reflexivity|]. rewrite andb_true_iff, keycode_eqb_spec, IH. split; [intros [-> ->]; reflexivity|]. intros H. injection H as <- <-. auto. }
  rewrite L. split; [intros [-> ->]; reflexivity|]. intros H. injection H as <- <-. auto.
Qed.
(** A key declared as a new-line one inserts a line break *)
Theorem C14_new_line_key : forall u f k, field_ok f -> focused f = true -> In k (new_line_keys f) ->
  exists c s, apply_key_combination u f k = Ret (with_scroll (with_content f c) s, true) /\ valid c /\ inserted (if_content f) c [c_nl].
Proof.
  intros u f k OK F HI. pose proof OK as [V _]. destruct (C14_key_combination u f k F) as [-> _].
  - destruct (insert_new_line_spec V) as (c & E & Vc & I). destruct (fix_scroll_ok u (field_ok_content OK Vc)) as (s & Es). exists c, s. cbn [if_apply]. unfold if_insert_new_line. rewrite E. cbn [bind]. rewrite Es. auto.
  - apply existsb_exists. exists k. split; [exact HI|]. apply key_eqb_spec. reflexivity.
Qed.
Theorem C14_key_event : forall u into f code mods, apply_key_event u into f code mods = apply_key_combination u f (into code mods).
Proof. reflexivity. Qed.
(** [apply_event] handles the keys without looking at the new-line keys, and gives the mouse events to [apply_mouse_event] *)
Theorem C14_event : forall u f d,
  (forall e, apply_event u f (EMouse e) d = apply_mouse_event u f e d /\ apply_timed_event u f (EMouse e) d = apply_mouse_event u f e d)
  /\ (forall code, focused f = true -> apply_event u f (EKey code 0) d = apply_keycode_event u f code false)
  /\ (forall code, focused f = true -> apply_event u f (EKey code 1) d = apply_keycode_event u f code true)
  /\ (forall code mods, (focused f = false \/ (mods <> 0 /\ mods <> 1)%N) -> apply_event u f (EKey code mods) d = Ret (f, false))
  /\ (forall w h, apply_event u f (EResize w h) d = Ret (f, false)) /\ (forall b, apply_event u f (EFocus b) d = Ret (f, false))
  /\ (forall s, apply_event u f (EPaste s) d = Ret (f, false)) /\ (forall e, apply_timed_event u f e d = apply_event u f e d).
Proof.
  intros u f d. split; [auto|]. split; [intros code F; unfold apply_event; rewrite F; reflexivity|]. split; [intros code F; unfold apply_event; rewrite F; reflexivity|].
  split; [|auto]. intros code mods H. unfold apply_event, SHIFT. destruct (focused f); [|reflexivity]. destruct (N.eqb_spec mods 0); [lia|]. destruct (N.eqb_spec mods 1); [lia|reflexivity].
Qed.
(** Key events are ignored when the field isn't focused. Missing: [apply_keycode_event], which doesn't check it ([C14_unfocused_keycode_refuted]) *)
Theorem C14_unfocused_partial : forall u f, focused f = false ->
  (forall k, apply_key_combination u f k = Ret (f, false)) /\ (forall into code mods, apply_key_event u into f code mods = Ret (f, false))
  /\ (forall code mods d, apply_event u f (EKey code mods) d = Ret (f, false) /\ apply_timed_event u f (EKey code mods) d = Ret (f, false)).
Proof. intros u f F. unfold apply_timed_event, apply_event, apply_key_event, apply_key_combination. rewrite F. auto. Qed.
(** When [false] is returned on a key, nothing is changed but the selection *)
Lemma keycode_false u f k shift f' : field_ok f -> apply_keycode_event u f k shift = Ret (f', false) ->
  exists t, f' = with_content f (mkContent (cpos (if_content f)) t (clines (if_content f))).
Proof.
  intros OK E. pose proof OK as [V _]. assert (ID : forall g, exists t, g = with_content g (mkContent (cpos (if_content g)) t (clines (if_content g)))).
  { intros g. exists (ctail (if_content g)). destruct g as [[] ? ? ? ? ? ? ? ?]; reflexivity. }
  destruct (keycode_cases f k) as [->|[->|[(ch & ->)|[(op & Eo)|Hi]]]].
  - destruct (@C14_key_delete u f shift KBackspace OpDelLeft OK ltac:(auto)) as (c & b & Ec & E'). rewrite E in E'. apply Ret_inj in E'. injection E' as -> Eb. destruct (has_wide_selection (if_content f)); [discriminate Eb|].
    cbn [orb] in Eb. subst b. cbn [capply] in Ec. destruct (del_char_left_spec V) as [A B]. destruct (Nat.eq_dec (cursor (if_content f)) 0) as [Z|Z].
    + rewrite (A Z) in Ec. apply Ret_inj in Ec. injection Ec as <-. exists (ctail (if_content f)). destruct (if_content f); reflexivity.
    + destruct B as (c1 & E1 & _); [lia|]. rewrite E1 in Ec. discriminate Ec.
  - destruct (@C14_key_delete u f shift KDelete OpDelBelow OK ltac:(auto)) as (c & b & Ec & E'). rewrite E in E'. apply Ret_inj in E'. injection E' as -> Eb. destruct (has_wide_selection (if_content f)); [discriminate Eb|].
    cbn [orb] in Eb. subst b. cbn [capply] in Ec. destruct (del_char_below_spec V) as (A & B & C). pose proof (cursor_le V). destruct (Nat.eq_dec (cursor (if_content f)) (length (text (if_content f)))) as [Z|Z].
    + destruct (match rev (clines (if_content f)) with [] :: _ :: _ => true | _ => false end) eqn:L.
      * assert (LE : last_line_empty (if_content f)).
        { destruct (rev (clines (if_content f))) as [|l0 [|l1 r]] eqn:R; try discriminate L; destruct l0; try discriminate L.
          exists (rev (l1 :: r)). split; [cbn; intros Q; apply (f_equal (@length _)) in Q; rewrite app_length in Q; cbn in Q; lia|].
          rewrite <- (rev_involutive (clines (if_content f))), R. reflexivity. }
        destruct (C Z LE) as (c1 & E1 & _). rewrite E1 in Ec. discriminate Ec.
      * rewrite (B Z) in Ec.
        { apply Ret_inj in Ec. injection Ec as <-. exists (ctail (if_content f)). destruct (if_content f); reflexivity. }
        intros (pre & P & Ep). rewrite Ep, rev_app_distr in L. cbn [rev app] in L. destruct (rev pre) eqn:R; [|discriminate L]. apply P. rewrite <- (rev_involutive pre), R. reflexivity.
    + destruct A as (c1 & E1 & _); [lia|]. rewrite E1 in Ec. discriminate Ec.
  - destruct (@C14_key_char u f shift ch OK) as (c1 & c2 & g & _ & _ & _ & _ & _ & E' & _). rewrite E in E'. discriminate E'.
  - destruct (@C14_key_move u f k shift op OK Eo) as (g & b & E' & c & Ec & _ & D). rewrite E in E'. apply Ret_inj in E'. injection E' as <- <-. rewrite (D eq_refl).
    destruct (@moves_spec u op _ _ _ (@key_selection_valid shift _ V) (key_move_moves _ _ Eo) Ec) as [_ HM]. rewrite (HM eq_refl). eexists. reflexivity.
  - rewrite (@C14_key_ignored u f k shift Hi) in E. apply Ret_inj in E. injection E as <-. eexists. reflexivity.
Qed.
Theorem C14_false : forall u f f', field_ok f ->
  ((exists k shift, apply_keycode_event u f k shift = Ret (f', false)) \/ (exists k, apply_key_combination u f k = Ret (f', false)) \/ (exists k m d, apply_event u f (EKey k m) d = Ret (f', false))) ->
  exists t, f' = with_content f (mkContent (cpos (if_content f)) t (clines (if_content f))).
Proof.
  intros u f f' OK H. assert (ID : Ret (f, false) = Ret (f', false) -> exists t, f' = with_content f (mkContent (cpos (if_content f)) t (clines (if_content f)))).
  { intros Q. apply Ret_inj in Q. injection Q as <-. exists (ctail (if_content f)). destruct f as [[] ? ? ? ? ? ? ? ?]; reflexivity. }
  destruct H as [(k & shift & E)|[(k & E)|(k & m & d & E)]].
  - eapply keycode_false; eassumption.
  - unfold apply_key_combination in E. destruct (focused f); cbn [negb] in E; [|apply ID; exact E]. destruct (existsb _ _).
    + destruct (if_insert_new_line u f) as [[? ?]| |]; discriminate E.
    + destruct (kcodes k) as [|code [|]]; [apply ID; exact E| |apply ID; exact E]. destruct (N.eqb (kmods k) 0); [eapply keycode_false; eassumption|]. destruct (N.eqb (kmods k) SHIFT); [eapply keycode_false; eassumption|apply ID; exact E].
  - unfold apply_event in E. destruct (focused f); [|apply ID; exact E]. destruct (N.eqb m 0); [eapply keycode_false; eassumption|]. destruct (N.eqb m SHIFT); [eapply keycode_false; eassumption|apply ID; exact E].
Qed.
(** Mouse events out of the area change nothing *)
Theorem C14_mouse_outside : forall u f e d, on_screen (if_area f) -> ~ cell_in (if_area f) (m_column e) (m_row e) ->
  apply_mouse_event u f e d = Ret (f, false) /\ apply_event u f (EMouse e) d = Ret (f, false).
Proof. intros u f e d HS H. unfold apply_event, apply_mouse_event. rewrite contains_out by assumption. auto. Qed.
(** and the other ones do this. Without the focus, only the left button is used *)
Theorem C14_mouse_unfocused : forall u f e d, on_screen (if_area f) -> cell_in (if_area f) (m_column e) (m_row e) -> focused f = false ->
  (m_kind e = MDown BLeft -> apply_mouse_event u f e d = Ret (with_focus f true, true)) /\ (m_kind e <> MDown BLeft -> apply_mouse_event u f e d = Ret (f, true)).
Proof.
  intros u f e d HS H F. unfold apply_mouse_event. rewrite contains_in by assumption. cbn [bind]. rewrite F. split; [intros ->; reflexivity|].
  intros N. destruct (m_kind e) as [[]|[]|[]| | | | |]; congruence.
Qed.
Theorem C14_mouse : forall u f e d, field_ok f -> cell_in (if_area f) (m_column e) (m_row e) -> focused f = true ->
  exists p, clicked u f (m_column e) (m_row e) p /\ valid_pos (clines (if_content f)) p
  /\ (let c := if_content f in
      (m_kind e = MDown BLeft -> apply_mouse_event u f e d = Ret (with_content f (set_cpos (key_selection (N.eqb (m_mods e) 1) c) p), true))
      /\ (m_kind e = MDrag BLeft -> apply_mouse_event u f e d = Ret (with_content f (set_cpos (key_selection true c) p), true))
      /\ (m_kind e = MUp BLeft -> d = false -> apply_mouse_event u f e d = Ret (f, true))
      /\ (m_kind e = MUp BLeft -> d = true -> exists c' b, capply u OpSelectWord (set_cpos c p) = Ret (c', b) /\ apply_mouse_event u f e d = Ret (with_content f c', true))
      /\ (m_kind e = MScrollUp -> exists f' b, if_apply u f IfScrollUp = Ret (f', b) /\ apply_mouse_event u f e d = Ret (f', true))
      /\ (m_kind e = MScrollDown -> exists f' b, if_apply u f IfScrollDown = Ret (f', b) /\ apply_mouse_event u f e d = Ret (f', true))
      /\ (~ In (m_kind e) [MDown BLeft; MDrag BLeft; MUp BLeft; MScrollUp; MScrollDown] -> apply_mouse_event u f e d = Ret (f, true))).
Proof.
  intros u f e d OK H F. pose proof OK as [V [_ HS]]. destruct (@cell_pos_spec u f _ _ OK H) as (p & Ep & Cp & Vp). exists p. split; [exact Cp|]. split; [exact Vp|]. cbv zeta.
  unfold apply_mouse_event. rewrite contains_in by assumption. cbn [bind]. rewrite F, Ep. cbn [bind].
  assert (SC : forall sh, set_cursor_pos (key_selection sh (if_content f)) p = Ret (set_cpos (key_selection sh (if_content f)) p)).
  { intros sh. apply set_cursor_exact; [apply key_selection_valid; exact V|exact Vp]. }
  split; [|split; [|split; [|split; [|split; [|split]]]]].
  - intros ->. unfold SHIFT. rewrite key_selection_eq, SC. reflexivity.
  - intros ->. change (make_selection (if_content f)) with (if true then make_selection (if_content f) else unselect (if_content f)). rewrite key_selection_eq, SC. reflexivity.
  - intros -> ->. reflexivity.
  - intros -> ->. rewrite set_cursor_exact by assumption. cbn [bind].
    destruct (@capply_valid u OpSelectWord (set_cpos (if_content f) p) ltac:(discriminate) (valid_move V Vp)) as (c' & b & E & _). exists c', b. split; [exact E|]. cbn [capply] in E. rewrite E. reflexivity.
  - intros ->. cbn [if_apply]. destruct (scroll_up f) as [f' b]. eexists _, _. split; reflexivity.
  - intros ->. cbn [if_apply]. destruct (scroll_down f) as [f' b]. eexists _, _. split; reflexivity.
  - intros N. destruct (m_kind e) as [[]|[]|[]| | | | |]; try reflexivity; exfalso; apply N; cbn; auto 10.
Qed.

(** *** Single line fields *)

Lemma keycode_one_line u f k shift f' b : field_ok f -> k <> KChar c_nl -> nb_lines f = 1 -> apply_keycode_event u f k shift = Ret (f', b) -> field_ok f' /\ only_content f f' /\ nb_lines f' = 1.
Proof.
  intros OK NK H E. pose proof OK as [V _]. unfold nb_lines in H.
  assert (OC : forall c, only_content f (with_content f c)) by (intros c; exists c, (if_scroll f); destruct f; reflexivity).
  assert (DEL : forall op, (k = KBackspace /\ op = OpDelLeft \/ k = KDelete /\ op = OpDelBelow) -> field_ok f' /\ only_content f f' /\ nb_lines f' = 1).
  { intros op Hop. destruct (@C14_key_delete u f shift k op OK Hop) as (c & b' & Ec & E'). rewrite E in E'. apply Ret_inj in E'. injection E' as -> _.
    assert (NS : forall p, (if has_wide_selection (if_content f) then OpDelSelection else op) <> OpSetTail p) by (intros p; destruct (has_wide_selection _); [discriminate|destruct Hop as [[_ ->]|[_ ->]]; discriminate]).
    destruct (@capply_valid u _ _ NS V) as (c' & b'' & E'' & Vc). rewrite Ec in E''. apply Ret_inj in E''. injection E'' as <- <-.
    split; [exact (field_ok_content OK Vc)|]. split; [apply OC|]. change (length (clines c) = 1).
    destruct (has_wide_selection (if_content f)); cbn [capply] in Ec; [exact (del_selection_one_line V Ec H)|]. destruct Hop as [[_ ->]|[_ ->]]; cbn [capply] in Ec; [exact (del_left_one_line V Ec H)|exact (del_below_one_line V Ec H)]. }
  destruct (keycode_cases f k) as [->|[->|[(ch & ->)|[(op & Eo)|Hi]]]].
  - eapply DEL. left. split; reflexivity.
  - eapply DEL. right. split; reflexivity.
  - destruct (@C14_key_char u f shift ch OK) as (c1 & c2 & g & H1 & H2 & V1 & V2 & I & E' & (s & ->) & _). rewrite E in E'. apply Ret_inj in E'. injection E' as -> _.
    split; [exact (field_ok_content OK V2)|]. split; [exists c2, s; reflexivity|]. change (length (clines c2) = 1). apply (inserted_one_line V1 V2 I).
    + unfold typed. intros Q. apply filter_In in Q as [[Q|[]] _]. apply NK. congruence.
    + destruct (has_wide_selection (if_content f)); [destruct (H1 eq_refl) as (b' & E1); exact (del_selection_one_line V E1 H)|rewrite (H2 eq_refl); exact H].
  - destruct (@C14_key_move u f k shift op OK Eo) as (g & b' & E' & D). rewrite E in E'. apply Ret_inj in E'. injection E' as <- <-.
    assert (NS : forall p, op <> OpSetTail p) by (intros p ->; destruct k; discriminate Eo).
    pose proof (field_ok_content OK (@key_selection_valid shift _ V)) as OKg. destruct (done_ok OKg NS D) as [OK' (c' & s & Ef)]. split; [exact OK'|]. split; [exists c', s; exact Ef|].
    destruct D as (c & Ec & D1 & D2). destruct (@moves_spec u op _ _ _ (@key_selection_valid shift _ V) (key_move_moves _ _ Eo) Ec) as [[HM _] _]. cbn [clines key_selection] in HM.
    destruct b; [|rewrite (D2 eq_refl); unfold nb_lines; cbn [with_content if_content]; rewrite HM; exact H].
    specialize (D1 eq_refl). assert (Vc : valid c) by (destruct (@capply_valid u op _ NS (@key_selection_valid shift _ V)) as (c'' & b'' & E'' & Vc''); change (if_content (with_content f (key_selection shift (if_content f)))) with (key_selection shift (if_content f)) in Ec; rewrite Ec in E''; apply Ret_inj in E''; injection E'' as <- _; exact Vc'').
    destruct (fix_scroll_ok u (field_ok_content OKg Vc)) as (s' & Es). rewrite Es in D1. apply Ret_inj in D1 as <-. unfold nb_lines. cbn [with_scroll with_content if_content]. rewrite HM. exact H.
  - rewrite (@C14_key_ignored u f k shift Hi) in E. apply Ret_inj in E. injection E as <- _. split; [apply field_ok_content; [exact OK|apply key_selection_valid; exact V]|]. split; [apply OC|exact H].
Qed.

Lemma keycode_ok u f k shift : field_ok f -> exists f' b, apply_keycode_event u f k shift = Ret (f', b) /\ field_ok f' /\ only_content f f'.
Proof.
  intros OK. pose proof OK as [V _]. assert (OC : forall c, only_content f (with_content f c)) by (intros c; exists c, (if_scroll f); destruct f; reflexivity).
  assert (DEL : forall op, (k = KBackspace /\ op = OpDelLeft \/ k = KDelete /\ op = OpDelBelow) -> exists f' b, apply_keycode_event u f k shift = Ret (f', b) /\ field_ok f' /\ only_content f f').
  { intros op Hop. destruct (@C14_key_delete u f shift k op OK Hop) as (c & b & Ec & ->). eexists _, _. split; [reflexivity|].
    assert (NS : forall p, (if has_wide_selection (if_content f) then OpDelSelection else op) <> OpSetTail p) by (intros p; destruct (has_wide_selection _); [discriminate|destruct Hop as [[_ ->]|[_ ->]]; discriminate]).
    destruct (@capply_valid u _ _ NS V) as (c' & b' & E' & Vc). rewrite Ec in E'. apply Ret_inj in E'. injection E' as <- <-. split; [exact (field_ok_content OK Vc)|apply OC]. }
  destruct (keycode_cases f k) as [->|[->|[(ch & ->)|[(op & Eo)|Hi]]]].
  - eapply DEL. left. split; reflexivity.
  - eapply DEL. right. split; reflexivity.
  - destruct (@C14_key_char u f shift ch OK) as (c1 & c2 & g & _ & _ & _ & V2 & _ & -> & (s & ->) & _). eexists _, _. split; [reflexivity|]. split; [exact (field_ok_content OK V2)|exists c2, s; reflexivity].
  - destruct (@C14_key_move u f k shift op OK Eo) as (g & b & -> & D). eexists _, _. split; [reflexivity|].
    assert (NS : forall p, op <> OpSetTail p) by (intros p ->; destruct k; discriminate Eo).
    destruct (done_ok (field_ok_content OK (@key_selection_valid shift _ V)) NS D) as [OK' (c & s & Ef)]. split; [exact OK'|]. exists c, s. exact Ef.
  - rewrite (@C14_key_ignored u f k shift Hi). eexists _, _. split; [reflexivity|]. split; [apply field_ok_content; [exact OK|apply key_selection_valid; exact V]|apply OC].
Qed.
Lemma only_content_settings f f' : only_content f f' -> same_settings f f'.
Proof. intros (c & s & ->). repeat split. Qed.
Lemma settings_refl f : same_settings f f.
Proof. repeat split. Qed.
Lemma mouse_ok u f e d : field_ok f -> exists f' b, apply_mouse_event u f e d = Ret (f', b) /\ field_ok f' /\ same_settings f f' /\ clines (if_content f') = clines (if_content f).
Proof.
  intros OK. pose proof OK as [V [_ HS]].
  assert (DC : cell_in (if_area f) (m_column e) (m_row e) \/ ~ cell_in (if_area f) (m_column e) (m_row e)) by (unfold cell_in; lia).
  destruct DC as [H|H]; [|destruct (C14_mouse_outside u f e d HS H) as [-> _]; eexists _, _; split; [reflexivity|]; split; [exact OK|split; [apply settings_refl|reflexivity]]].
  assert (ID : forall m, m = Ret (f, true) -> exists f' b, m = Ret (f', b) /\ field_ok f' /\ same_settings f f' /\ clines (if_content f') = clines (if_content f)).
  { intros m ->. eexists _, _. split; [reflexivity|]. split; [exact OK|]. split; [apply settings_refl|reflexivity]. }
  destruct (focused f) eqn:F.
  - destruct (@C14_mouse u f e d OK H F) as (p & Cp & Vp & A1 & A2 & A3 & A4 & A5 & A6 & A7).
    assert (KS : forall sh m, m = Ret (with_content f (set_cpos (key_selection sh (if_content f)) p), true) -> exists f' b, m = Ret (f', b) /\ field_ok f' /\ same_settings f f' /\ clines (if_content f') = clines (if_content f)).
    { intros sh m ->. eexists _, _. split; [reflexivity|]. split; [|split; [repeat split|reflexivity]]. apply field_ok_content; [exact OK|]. apply valid_move; [apply key_selection_valid; exact V|exact Vp]. }
    destruct (m_kind e) as [[]|[]|[]| | | | |] eqn:K;
      try (apply ID; apply A7; cbn; intros Q; repeat (destruct Q as [Q|Q]; [discriminate Q|]); exact Q).
    + eapply KS. apply A1. reflexivity.
    + destruct d; [|apply ID; apply A3; reflexivity]. destruct (A4 eq_refl eq_refl) as (c' & b & Ec & ->). eexists _, _. split; [reflexivity|].
      destruct (@capply_valid u OpSelectWord (set_cpos (if_content f) p) ltac:(discriminate) (valid_move V Vp)) as (c2 & b2 & E2 & V2). rewrite Ec in E2. apply Ret_inj in E2. injection E2 as <- <-.
      split; [exact (field_ok_content OK V2)|]. split; [repeat split|]. cbn [capply] in Ec. destruct Vp as (l & El & Hl).
      destruct (@select_word_spec u (set_cpos (if_content f) p) l (valid_move V (ex_intro _ l (conj El Hl))) El) as [W1 W2].
      assert (WD : word_char_at u l (px p) \/ ~ word_char_at u l (px p)).
      { destruct (nth_error l (px p)) as [ch|] eqn:N; [rewrite (word_char_at_ch u _ _ N); destruct (is_word_char u ch); [now left|right; discriminate]|right; intros (ch & N' & _); congruence]. }
      destruct WD as [W|W]; [destruct (W2 W) as (c3 & s & E3 & _ & E4 & _); rewrite Ec in E3; apply Ret_inj in E3; injection E3 as <- _; exact E4|].
      rewrite (W1 W) in Ec. apply Ret_inj in Ec. injection Ec as <- _. reflexivity.
    + eapply KS. apply A2. reflexivity.
    + destruct (A6 eq_refl) as (f' & b & Ef & ->). cbn [if_apply] in Ef. apply Ret_inj in Ef. unfold scroll_down in Ef. destruct (_ <? _); injection Ef as <- <-; eexists _, _; (split; [reflexivity|]); (split; [exact OK|]); split; first [reflexivity|repeat split].
    + destruct (A5 eq_refl) as (f' & b & Ef & ->). cbn [if_apply] in Ef. apply Ret_inj in Ef. unfold scroll_up in Ef. destruct (_ <? _); injection Ef as <- <-; eexists _, _; (split; [reflexivity|]); (split; [exact OK|]); split; first [reflexivity|repeat split].
  - destruct (@C14_mouse_unfocused u f e d HS H F) as [A1 A2].
    assert (DK : m_kind e = MDown BLeft \/ m_kind e <> MDown BLeft) by (destruct (m_kind e) as [[]|[]|[]| | | | |]; (left; reflexivity) || (right; discriminate)).
    destruct DK as [K|K]; [rewrite (A1 K)|rewrite (A2 K)]; eexists _, _; (split; [reflexivity|]); (split; [exact OK|]); split; first [reflexivity|repeat split].
Qed.
Lemma click_ok u f x y : field_ok f -> exists f' b, apply_click_event u f x y = Ret (f', b) /\ field_ok f' /\ same_settings f f' /\ clines (if_content f') = clines (if_content f).
Proof.
  intros OK. pose proof OK as [V [_ HS]]. destruct (@C15_click u f x y OK) as (A1 & A2 & A3).
  assert (DC : cell_in (if_area f) x y \/ ~ cell_in (if_area f) x y) by (unfold cell_in; lia).
  destruct DC as [H|H]; [destruct (focused f) eqn:F|].
  - destruct (A1 H eq_refl) as (p & _ & Vp & ->). eexists _, _. split; [reflexivity|]. split; [exact (field_ok_content OK (valid_move V Vp))|]. split; [repeat split|reflexivity].
  - rewrite (A2 H eq_refl). eexists _, _. split; [reflexivity|]. split; [exact OK|]. split; [repeat split|reflexivity].
  - rewrite (A3 H). eexists _, _. split; [reflexivity|]. split; [exact OK|]. split; [repeat split|reflexivity].
Qed.
Lemma key_ok u f k : field_ok f -> exists f' b, apply_key_combination u f k = Ret (f', b) /\ field_ok f' /\ only_content f f'.
Proof.
  intros OK. assert (ID : exists f' b, Ret (f, false) = Ret (f', b) /\ field_ok f' /\ only_content f f').
  { eexists _, _. split; [reflexivity|]. split; [exact OK|]. exists (if_content f), (if_scroll f). destruct f; reflexivity. }
  unfold apply_key_combination. destruct (focused f); cbn [negb]; [|exact ID]. destruct (existsb _ _).
  - destruct (@content_op_spec u f IfNewLine OpInsertNewLine OK eq_refl) as (f' & b & E & D). cbn [if_apply] in E. rewrite E. cbn [bind]. eexists _, _. split; [reflexivity|]. eapply done_ok; [exact OK| |exact D]. discriminate.
  - destruct (kcodes k) as [|code [|]]; [exact ID| |exact ID]. destruct (N.eqb (kmods k) 0); [apply keycode_ok; exact OK|]. destruct (N.eqb (kmods k) SHIFT); [apply keycode_ok; exact OK|exact ID].
Qed.
Lemma event_ok u f e d : field_ok f -> exists f' b, apply_event u f e d = Ret (f', b) /\ field_ok f' /\ same_settings f f'.
Proof.
  intros OK. assert (ID : exists f' b, Ret (f, false) = Ret (f', b) /\ field_ok f' /\ same_settings f f').
  { eexists _, _. split; [reflexivity|]. split; [exact OK|apply settings_refl]. }
  assert (KC : forall k sh, exists f' b, apply_keycode_event u f k sh = Ret (f', b) /\ field_ok f' /\ same_settings f f').
  { intros k sh. destruct (@keycode_ok u f k sh OK) as (f' & b & -> & OK' & OC). eexists _, _. split; [reflexivity|]. split; [exact OK'|apply only_content_settings; exact OC]. }
  destruct e as [code mods|e|w h|b|s]; cbn [apply_event]; try exact ID.
  - destruct (focused f); [|exact ID]. destruct (N.eqb mods 0); [apply KC|]. destruct (N.eqb mods SHIFT); [apply KC|exact ID].
  - destruct (mouse_ok u e d OK) as (f' & b & -> & OK' & S & _). eauto.
Qed.
(** A field with one line keeps having one line when the user uses the keyboard and the mouse. Missing: the [Char('\n')] key ([C14_single_line_refuted]) *)
Lemma user_op_one_line u o f : field_ok f -> nb_lines f = 1 -> new_line_keys f = [] -> user_op o ->
  exists f' b, if_apply u f o = Ret (f', b) /\ field_ok f' /\ nb_lines f' = 1 /\ new_line_keys f' = [].
Proof.
  intros OK H K U.
  assert (KC : forall k sh, k <> KChar c_nl -> exists f' b, apply_keycode_event u f k sh = Ret (f', b) /\ field_ok f' /\ nb_lines f' = 1 /\ new_line_keys f' = []).
  { intros k sh Nk. destruct (@keycode_ok u f k sh OK) as (f' & b & E & _). destruct (@keycode_one_line u f k sh f' b OK Nk H E) as (OK' & (c & s & ->) & H'). eexists _, _. split; [exact E|]. auto. }
  assert (ID : exists f' b, Ret (f, false) = Ret (f', b) /\ field_ok f' /\ nb_lines f' = 1 /\ new_line_keys f' = []) by (eexists _, _; split; [reflexivity|auto]).
  destruct o; try (exfalso; exact U); cbn [if_apply].
  - apply KC. exact U.
  - unfold apply_key_combination. rewrite K. cbn [existsb]. destruct (focused f); cbn [negb]; [|exact ID]. cbn [user_op] in U. destruct (kcodes k) as [|code [|]]; [exact ID| |exact ID].
    assert (code <> KChar c_nl) by congruence. destruct (N.eqb (kmods k) 0); [apply KC; assumption|]. destruct (N.eqb (kmods k) SHIFT); [apply KC; assumption|exact ID].
  - destruct (click_ok u x y OK) as (f' & b & E & OK' & (_ & _ & _ & _ & _ & S) & L). rewrite E. eexists _, _. split; [reflexivity|]. split; [exact OK'|]. unfold nb_lines in *. rewrite L, S. auto.
  - destruct e as [code mods|e|w h|b|s]; cbn [apply_event]; try exact ID.
    + cbn [user_op] in U. destruct (focused f); [|exact ID]. destruct (N.eqb mods 0); [apply KC; exact U|]. destruct (N.eqb mods SHIFT); [apply KC; exact U|exact ID].
    + destruct (mouse_ok u e double_click OK) as (f' & b & E & OK' & (_ & _ & _ & _ & _ & S) & L). rewrite E. eexists _, _. split; [reflexivity|]. split; [exact OK'|]. unfold nb_lines in *. rewrite L, S. auto.
Qed.
Theorem C14_single_line_partial : forall u ops f, field_ok f -> nb_lines f = 1 -> new_line_keys f = [] -> Forall user_op ops ->
  exists f', if_run u f ops = Ret f' /\ field_ok f' /\ nb_lines f' = 1.
Proof.
  intros u ops. induction ops as [|o ops IH]; intros f OK H K HF; [exists f; auto|]. inversion HF as [|? ? U HF']; subst.
  destruct (@user_op_one_line u o f OK H K U) as (f' & b & E & OK' & H' & K'). cbn [if_run]. rewrite E. cbn [bind]. apply IH; assumption.
Qed.
Definition field_ab : InputField := with_content (demo_field 10 2) (mkContent (mkPos 0 1) None [[97; 98]%N]).
Lemma field_ab_ok : field_ok field_ab.
Proof. split; [apply validb_ok; vm_compute; reflexivity|split; vm_compute; [discriminate|split; reflexivity]]. Qed.
Example C14_single_line_example : nb_lines field_ab = 1 /\ new_line_keys field_ab = [] /\
  Forall user_op [IfKeycode KEnter false; IfKey (mkKey 0 [KChar 99]); IfClick 3 4; IfEvent (EKey KLeft 1) false; IfEvent (EKey (KChar 100) 0) false] /\
  exists f', if_run demo field_ab [IfKeycode KEnter false; IfKey (mkKey 0 [KChar 99]); IfClick 3 4; IfEvent (EKey KRight 1) false; IfEvent (EKey (KChar 100) 0) false] = Ret f'
   /\ get_content f' = [100; 98]%N.
Proof.
  split; [reflexivity|]. split; [reflexivity|]. split; [repeat constructor; cbn; discriminate|]. eexists. split; vm_compute; reflexivity.
Qed.
(** The key Char of a line feed adds a line to a single line field *)
Theorem C14_single_line_refuted : exists f f', nb_lines f = 1 /\ new_line_keys f = [] /\ field_ok f /\ apply_event demo f (EKey (KChar c_nl) 0) false = Ret (f', true) /\ nb_lines f' = 2.
Proof. exists field_ab. eexists. split; [reflexivity|]. split; [reflexivity|]. split; [exact field_ab_ok|]. split; vm_compute; reflexivity. Qed.
(** [apply_keycode_event] changes a field which is not focused *)
Theorem C14_unfocused_keycode_refuted : exists f f', focused f = false /\ field_ok f /\ apply_keycode_event demo f (KChar 99) false = Ret (f', true) /\ get_content f' <> get_content f.
Proof. exists (with_focus field_ab false). eexists. split; [reflexivity|]. split; [exact field_ab_ok|]. split; [vm_compute; reflexivity|]. vm_compute. discriminate. Qed.
(** A key declared as a new-line one is ignored by [apply_event] *)
Theorem C14_event_new_line_refuted : exists f f', In (mkKey 0 [KEnter]) (new_line_keys f) /\ focused f = true /\ field_ok f
  /\ apply_event demo f (EKey KEnter 0) false = Ret (f', false) /\ nb_lines f' = nb_lines f.
Proof. exists (new_line_on field_ab (mkKey 0 [KEnter])). eexists. split; [left; reflexivity|]. split; [reflexivity|]. split; [exact field_ab_ok|]. split; vm_compute; reflexivity. Qed.
Example C14_new_line_example : exists f', apply_key_combination demo (new_line_on field_ab (mkKey 0 [KEnter])) (mkKey 0 [KEnter]) = Ret (f', true) /\ get_content f' = [97; 10; 98]%N.
Proof. eexists. split; vm_compute; reflexivity. Qed.
Example C14_mouse_example : exists f', if_run demo field_ab [IfEvent (EMouse (mkMouse (MDown BLeft) 3 4 0)) false; IfEvent (EMouse (mkMouse (MDrag BLeft) 4 4 0)) false; IfKeycode KDelete false] = Ret f'
  /\ get_content f' = [].
Proof. eexists. split; vm_compute; reflexivity. Qed.

(** ** C72 Input field histories are safe *)

(** The operations on the content are the ones of the content (C01 to C11), the scroll being then fixed *)
Theorem C72_content_op : forall u f o op, field_ok f -> content_op f o = Some op -> exists f' b, if_apply u f o = Ret (f', b) /\ done u f op f' b.
Proof. intros. apply content_op_spec; assumption. Qed.
(** The text is the one of the content *)
Theorem C72_get_content : forall f, get_content f = text (if_content f).
Proof. intros f. apply to_string_spec. Qed.
(** Cut, copy and paste *)
Theorem C72_cut : forall u f, field_ok f -> exists c s, let sel := selection (if_content f) in let o := offset (if_content f) in
  let copied := slice (o (rmin sel)) (S (o (rmax sel))) (text (if_content f)) in
  (exists b, capply u OpDelSelection (if_content f) = Ret (c, b)) /\ valid c
  /\ copy_selection f = Ret copied /\ cut_selection u f = Ret (with_scroll (with_content f c) s, copied) /\ fix_scroll u (with_content f c) = Ret (with_scroll (with_content f c) s).
Proof.
  intros u f OK. pose proof OK as [V _]. destruct (del_selection_spec V) as (c & b & E & Vc & _). destruct (fix_scroll_ok u (field_ok_content OK Vc)) as (s & Es).
  exists c, s. cbv zeta. split; [exists b; exact E|]. split; [exact Vc|]. unfold copy_selection, cut_selection. rewrite selection_string_spec by exact V. split; [reflexivity|]. cbn [bind]. rewrite E. cbn [bind]. rewrite Es. auto.
Qed.
Theorem C72_replace : forall u f str, field_ok f -> exists c1 c2 s,
  (has_wide_selection (if_content f) = true -> exists b, capply u OpDelSelection (if_content f) = Ret (c1, b)) /\ (has_wide_selection (if_content f) = false -> c1 = if_content f)
  /\ valid c2 /\ inserted c1 c2 (typed str)
  /\ replace_selection u f str = Ret (with_scroll (with_content f c2) s) /\ fix_scroll u (with_content f c2) = Ret (with_scroll (with_content f c2) s).
Proof.
  intros u f str OK. pose proof OK as [V _]. unfold replace_selection. destruct (has_wide_selection (if_content f)) eqn:W.
  - destruct (del_selection_spec V) as (c1 & b & E & V1 & _). destruct (insert_str_spec str V1) as (c2 & E2 & V2 & I). destruct (fix_scroll_ok u (field_ok_content OK V2)) as (s & Es).
    exists c1, c2, s. split; [intros _; exists b; exact E|]. split; [discriminate|]. split; [exact V2|]. split; [exact I|]. rewrite E. cbn [bind]. rewrite E2. cbn [bind]. rewrite Es. auto.
  - destruct (insert_str_spec str V) as (c2 & E2 & V2 & I). destruct (fix_scroll_ok u (field_ok_content OK V2)) as (s & Es).
    exists (if_content f), c2, s. split; [discriminate|]. split; [reflexivity|]. split; [exact V2|]. split; [exact I|]. cbn [bind]. rewrite E2. cbn [bind]. rewrite Es. auto.
Qed.
(** The scroll by one row, without going out of the text *)
Theorem C72_scroll : forall f,
  (let f' := fst (scroll_up f) in only_scroll f f' /\ px (if_scroll f') = px (if_scroll f) /\ py (if_scroll f') = py (if_scroll f) - 1 /\ snd (scroll_up f) = (0 <? py (if_scroll f)))
  /\ (let f' := fst (scroll_down f) in only_scroll f f' /\ px (if_scroll f') = px (if_scroll f)
       /\ (py (if_scroll f) + height f < nb_lines f -> py (if_scroll f') = S (py (if_scroll f)) /\ snd (scroll_down f) = true)
       /\ (nb_lines f <= py (if_scroll f) + height f -> f' = f /\ snd (scroll_down f) = false)
       /\ (py (if_scroll f) <= nb_lines f - height f -> py (if_scroll f') <= nb_lines f' - height f')).
Proof.
  intros f. assert (R : only_scroll f f) by (exists (if_scroll f); destruct f; reflexivity). cbv zeta. split.
  - unfold scroll_up. destruct (Nat.ltb_spec 0 (py (if_scroll f))); cbn [fst snd with_scroll if_scroll px py]; [split; [eexists; reflexivity|]; auto|]. split; [exact R|]. split; [reflexivity|]. split; [lia|]. reflexivity.
  - unfold scroll_down. fold (height f) (nb_lines f). destruct (Nat.ltb_spec (py (if_scroll f) + height f) (nb_lines f)); cbn [fst snd].
    + split; [eexists; reflexivity|]. split; [reflexivity|]. cbn [with_scroll if_scroll px py]. split; [intros _; split; [lia|reflexivity]|]. split; [lia|].
      intros Q. change (py (if_scroll f) + 1 <= nb_lines f - height f). lia.
    + split; [exact R|]. split; [reflexivity|]. split; [lia|]. split; auto.
Qed.
(** The setters. The scroll is fixed when the area changes and when the focus is given *)
Theorem C72_keys : forall f k, new_line_keys (set_mono_line f) = [] /\ set_mono_line f = with_keys f []
  /\ (forall k', In k' (new_line_keys (new_line_on f k)) <-> In k' (new_line_keys f) \/ k' = k) /\ exists ks, new_line_on f k = with_keys f ks.
Proof.
  intros f k. split; [reflexivity|]. split; [reflexivity|]. split; [|eexists; reflexivity]. intros k'. unfold new_line_on. cbn [with_keys new_line_keys]. rewrite in_app_iff. cbn. intuition.
Qed.
Theorem C72_area : forall u f a, field_ok f -> area_ok a ->
  (a = if_area f -> set_area u f a = Ret f) /\ (a <> if_area f -> exists s, set_area u f a = Ret (with_scroll (with_area f a) s) /\ fix_scroll u (with_area f a) = Ret (with_scroll (with_area f a) s)).
Proof.
  intros u f a [V _] HA. destruct (@fix_scroll_ok u (with_area f a) (conj V HA)) as (s & Es). unfold set_area.
  assert (EQ : area_eqb (if_area f) a = true <-> if_area f = a).
  { destruct (if_area f) as [x y w h], a as [x' y' w' h']. unfold area_eqb. cbn. rewrite !andb_true_iff, !N.eqb_eq. split; [intros [[[-> ->] ->] ->]; reflexivity|intros H; injection H as <- <- <- <-; auto]. }
  split.
  - intros Ea. symmetry in Ea. apply EQ in Ea. rewrite Ea. reflexivity.
  - intros N. destruct (area_eqb (if_area f) a) eqn:E; [exfalso; apply N; symmetry; apply EQ; reflexivity|]. eauto.
Qed.
Theorem C72_change_area : forall u f x y w, field_ok f -> let a := mkArea x y w (a_height (if_area f)) in area_ok a ->
  (a = if_area f -> change_area u f x y w = Ret f) /\ (a <> if_area f -> exists s, change_area u f x y w = Ret (with_scroll (with_area f a) s) /\ fix_scroll u (with_area f a) = Ret (with_scroll (with_area f a) s)).
Proof.
  intros u f x y w [V _] a HA. destruct (@fix_scroll_ok u (with_area f a) (conj V HA)) as (s & Es). unfold change_area. fold a. cbv zeta. split.
  - intros E. rewrite <- E. cbn [a a_left a_top a_width]. rewrite !N.eqb_refl. reflexivity.
  - intros N. destruct (N.eqb_spec (a_left (if_area f)) x) as [E1|]; [|cbn [negb orb]; eauto]. destruct (N.eqb_spec (a_top (if_area f)) y) as [E2|]; [|cbn [negb orb]; eauto].
    destruct (N.eqb_spec (a_width (if_area f)) w) as [E3|]; [|cbn [negb orb]; eauto]. exfalso. apply N. unfold a. rewrite <- E1, <- E2, <- E3. destruct (if_area f); reflexivity.
Qed.
Theorem C72_focus : forall u f b, field_ok f ->
  (b = focused f -> set_focus u f b = Ret f) /\ (focused f = true -> b = false -> set_focus u f b = Ret (with_focus f false))
  /\ (focused f = false -> b = true -> exists s, set_focus u f b = Ret (with_scroll (with_focus f true) s) /\ fix_scroll u (with_focus f true) = Ret (with_scroll (with_focus f true) s)).
Proof.
  intros u f b OK. unfold set_focus. split; [|split].
  - intros ->. rewrite Bool.eqb_reflx. reflexivity.
  - intros -> ->. reflexivity.
  - intros -> ->. cbn [Bool.eqb]. destruct (@fix_scroll_ok u (with_focus f true) OK) as (s & Es). eauto.
Qed.
Theorem C72_styles : forall f s,
  (let f' := set_normal_style f s in focused_style f' = s /\ cursor_style f' = cs_add_attr s Reverse /\ unfocused_style f' = unfocused_style f
     /\ if_content f' = if_content f /\ if_area f' = if_area f /\ password_mode f' = password_mode f /\ focused f' = focused f /\ if_scroll f' = if_scroll f /\ new_line_keys f' = new_line_keys f)
  /\ (let f' := set_unfocused_style f s in unfocused_style f' = s /\ focused_style f' = focused_style f /\ cursor_style f' = cursor_style f
     /\ if_content f' = if_content f /\ if_area f' = if_area f /\ password_mode f' = password_mode f /\ focused f' = focused f /\ if_scroll f' = if_scroll f /\ new_line_keys f' = new_line_keys f).
Proof. intros f s. split; repeat split. Qed.
(** A new field is empty, focused, not scrolled, and has no new-line key *)
Theorem C72_new : forall a, let f := if_new a in
  get_content f = [] /\ if_area f = a /\ focused f = true /\ password_mode f = false /\ if_scroll f = mkPos 0 0 /\ new_line_keys f = []
  /\ focused_style f = cs_default /\ unfocused_style f = cs_default /\ cursor_style f = cs_add_attr cs_default Reverse /\ (area_ok a -> field_ok f).
Proof. intros a f. repeat (split; [reflexivity|]). intros HA. split; [apply valid_default|exact HA]. Qed.
Theorem C72_default : field_ok if_default /\ if_default = if_new (mkArea 0 0 5 1).
Proof. split; [|reflexivity]. split; [apply valid_default|]. split; vm_compute; [discriminate|split; reflexivity]. Qed.
(** No operation panics on a good field, which it leaves good. The operations which aren't setters keep the settings *)
Theorem C72_step : forall u f o, field_ok f -> op_ok (a_height (if_area f)) o ->
  exists f' b, if_apply u f o = Ret (f', b) /\ field_ok f' /\ a_height (if_area f') = height_after (a_height (if_area f)) o /\ (~ setter o -> same_settings f f').
Proof.
  intros u f o OK HO. pose proof OK as [V HA].
  assert (SET : forall f', field_ok f' -> same_settings f f' -> (forall a, o <> IfSetArea a) -> field_ok f' /\ a_height (if_area f') = height_after (a_height (if_area f)) o /\ (~ setter o -> same_settings f f')).
  { intros f' OK' S N. split; [exact OK'|]. split; [|intros _; exact S]. destruct S as (-> & _). destruct o; try reflexivity. exfalso. eapply N. reflexivity. }
  assert (C : forall op, content_op f o = Some op -> exists f' b, if_apply u f o = Ret (f', b) /\ field_ok f' /\ a_height (if_area f') = height_after (a_height (if_area f)) o /\ (~ setter o -> same_settings f f')).
  { intros op Eo. destruct (@C72_content_op u f o op OK Eo) as (f' & b & E & D). destruct (done_ok OK (content_op_valid _ _ Eo) D) as [OK' OC]. eexists _, _. split; [exact E|].
    apply SET; [exact OK'|apply only_content_settings; exact OC|]. intros a ->. discriminate Eo. }
  destruct o; try (eapply C; reflexivity); cbn [if_apply height_after setter]; unfold no_bool; cbn [op_ok] in HO.
  - eexists _, _. split; [reflexivity|]. split; [exact OK|]. split; [reflexivity|]. intros []. exact I.
  - eexists _, _. split; [reflexivity|]. split; [exact OK|]. split; [reflexivity|]. intros []. exact I.
  - destruct (@C72_change_area u f x y w OK HO) as [A B].
    assert (D : area_eqb (mkArea x y w (a_height (if_area f))) (if_area f) = true \/ mkArea x y w (a_height (if_area f)) <> if_area f).
    { destruct (area_eqb (mkArea x y w (a_height (if_area f))) (if_area f)) eqn:Q; [left; reflexivity|right]. intros Z. rewrite <- Z in Q at 2. unfold area_eqb in Q. cbn in Q. rewrite !N.eqb_refl in Q. discriminate. }
    destruct D as [D|D].
    + assert (Z : mkArea x y w (a_height (if_area f)) = if_area f).
      { destruct (if_area f) as [x' y' w' h']. unfold area_eqb in D. cbn in *. rewrite !andb_true_iff, !N.eqb_eq in D. destruct D as [[[-> ->] ->] _]. reflexivity. }
      rewrite (A Z). cbn [bind]. eexists _, _. split; [reflexivity|]. split; [exact OK|]. split; [reflexivity|]. intros []. exact I.
    + destruct (B D) as (s & -> & _). cbn [bind]. eexists _, _. split; [reflexivity|]. split; [split; assumption|]. split; [reflexivity|]. intros []. exact I.
  - destruct (@C72_area u f a OK HO) as [A B].
    assert (D : a = if_area f \/ a <> if_area f).
    { destruct a as [x y w h], (if_area f) as [x' y' w' h']. destruct (N.eq_dec x x'); [|right; congruence]. destruct (N.eq_dec y y'); [|right; congruence]. destruct (N.eq_dec w w'); [|right; congruence].
      destruct (N.eq_dec h h'); [left|right]; congruence. }
    destruct D as [D|D].
    + rewrite (A D). cbn [bind]. eexists _, _. split; [reflexivity|]. split; [exact OK|]. split; [rewrite D; reflexivity|]. intros []. exact I.
    + destruct (B D) as (s & -> & _). cbn [bind]. eexists _, _. split; [reflexivity|]. split; [split; assumption|]. split; [reflexivity|]. intros []. exact I.
  - destruct (@C72_focus u f b OK) as (A & B & D). destruct (focused f) eqn:F, b.
    + rewrite (A eq_refl). cbn [bind]. eexists _, _. split; [reflexivity|]. split; [exact OK|]. split; [reflexivity|]. intros []. exact I.
    + rewrite (B eq_refl eq_refl). cbn [bind]. eexists _, _. split; [reflexivity|]. split; [exact OK|]. split; [reflexivity|]. intros []. exact I.
    + destruct (D eq_refl eq_refl) as (s & -> & _). cbn [bind]. eexists _, _. split; [reflexivity|]. split; [exact OK|]. split; [reflexivity|]. intros []. exact I.
    + rewrite (A eq_refl). cbn [bind]. eexists _, _. split; [reflexivity|]. split; [exact OK|]. split; [reflexivity|]. intros []. exact I.
  - eexists _, _. split; [reflexivity|]. split; [exact OK|]. split; [reflexivity|]. intros []. exact I.
  - eexists _, _. split; [reflexivity|]. split; [exact OK|]. split; [reflexivity|]. intros []. exact I.
  - eexists _, _. split; [reflexivity|]. split; [exact OK|]. split; [reflexivity|]. intros []. exact I.
  - destruct (@C72_cut u f OK) as (c & s & _ & Vc & _ & -> & _). cbn [bind]. eexists _, _. split; [reflexivity|]. apply SET; [exact (field_ok_content OK Vc)|repeat split|discriminate].
  - destruct (@C72_replace u f s OK) as (c1 & c2 & s' & _ & _ & Vc & _ & -> & _). cbn [bind]. eexists _, _. split; [reflexivity|]. apply SET; [exact (field_ok_content OK Vc)|repeat split|discriminate].
  - destruct (C72_scroll f) as [((s & E) & _) _]. destruct (scroll_up f) as [f' b]. cbn [fst] in E. subst f'. eexists _, _. split; [reflexivity|]. apply SET; [exact OK|repeat split|discriminate].
  - destruct (C72_scroll f) as [_ ((s & E) & _)]. destruct (scroll_down f) as [f' b]. cbn [fst] in E. subst f'. eexists _, _. split; [reflexivity|]. apply SET; [exact OK|repeat split|discriminate].
  - destruct (@keycode_ok u f k shift OK) as (f' & b & -> & OK' & OC). eexists _, _. split; [reflexivity|]. apply SET; [exact OK'|apply only_content_settings; exact OC|discriminate].
  - destruct (@key_ok u f k OK) as (f' & b & -> & OK' & OC). eexists _, _. split; [reflexivity|]. apply SET; [exact OK'|apply only_content_settings; exact OC|discriminate].
  - destruct (@click_ok u f x y OK) as (f' & b & -> & OK' & S & _). eexists _, _. split; [reflexivity|]. apply SET; [exact OK'|exact S|discriminate].
  - destruct (@event_ok u f e double_click OK) as (f' & b & -> & OK' & S). eexists _, _. split; [reflexivity|]. apply SET; [exact OK'|exact S|discriminate].
Qed.
(** Whatever is done to a field, it doesn't panic, its content stays valid and its cursor in its text *)
Theorem C72_histories : forall u ops f, field_ok f -> history_ok (a_height (if_area f)) ops -> exists f', if_run u f ops = Ret f' /\ field_ok f'.
Proof.
  intros u ops. induction ops as [|o ops IH]; intros f OK H; [exists f; auto|]. destruct H as [H1 H2]. destruct (@C72_step u f o OK H1) as (f' & b & E & OK' & EH & _).
  cbn [if_run]. rewrite E. cbn [bind]. apply IH; [exact OK'|]. rewrite EH. exact H2.
Qed.
Example C72_example : exists f', if_run demo (demo_field 12 2) [IfSetStr [97; 98; 32; 99; c_nl; 20013; 100]%N; IfUp; IfToLineStart; IfKeycode KRight true; IfCut; IfSetArea (mkArea 0 0 4 1); IfPageDown; IfReplace [101; 102]%N] = Ret f'
  /\ get_content f' = [32; 99; 10; 101; 102; 20013; 100]%N /\ if_scroll f' = mkPos 1 0.
Proof. eexists. split; [vm_compute; reflexivity|]. split; vm_compute; reflexivity. Qed.
(** A field of null width panics as soon as it has more lines than rows *)
Example C72_null_width : if_run demo (demo_field 0 1) [IfNewLine] = Panic.
Proof. vm_compute. reflexivity. Qed.

Print Assumptions C14_key_move.
Print Assumptions C14_key_ignored.
Print Assumptions C14_key_delete.
Print Assumptions C14_key_char.
Print Assumptions C14_key_combination.
Print Assumptions C14_new_line_key.
Print Assumptions C14_key_event.
Print Assumptions C14_event.
Print Assumptions C14_unfocused_partial.
Print Assumptions C14_false.
Print Assumptions C14_mouse_outside.
Print Assumptions C14_mouse_unfocused.
Print Assumptions C14_mouse.
Print Assumptions C14_single_line_partial.
Print Assumptions C14_single_line_refuted.
Print Assumptions C14_unfocused_keycode_refuted.
Print Assumptions C14_event_new_line_refuted.
Print Assumptions C72_content_op.
Print Assumptions C72_get_content.
Print Assumptions C72_cut.
Print Assumptions C72_replace.
Print Assumptions C72_scroll.
Print Assumptions C72_keys.
Print Assumptions C72_area.
Print Assumptions C72_change_area.
Print Assumptions C72_focus.
Print Assumptions C72_styles.
Print Assumptions C72_new.
Print Assumptions C72_default.
Print Assumptions C72_step.
Print Assumptions C72_histories.
