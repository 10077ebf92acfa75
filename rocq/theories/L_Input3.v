(** * Lemmas on the events of input fields *)
From Verif Require Import Base L_Base Demo M_Style M_Fit S_Fit L_Fit M_View S_View L_View M_Content S_Content L_Content L_Content2 L_Content3 L_Content4 M_Input S_Input S_Input2 L_Input L_Input2.
Set Implicit Arguments.
Open Scope nat_scope.

Lemma field_ok_content f c : field_ok f -> valid c -> field_ok (with_content f c).
Proof. intros [_ H] V. split; assumption. Qed.
Lemma field_ok_scroll f s : field_ok f -> field_ok (with_scroll f s).
Proof. intros H. exact H. Qed.
Lemma fix_scroll_ok u f : field_ok f -> exists s, fix_scroll u f = Ret (with_scroll f s).
Proof. intros [V [W _]]. destruct (@fix_scroll_spec u f V ltac:(lia)) as (sy & sx & l & E & _). eauto. Qed.
Lemma content_op_valid f o op : content_op f o = Some op -> forall p, op <> OpSetTail p.
Proof. destruct o; cbn [content_op]; intros H; try discriminate; injection H as <-; discriminate. Qed.

Lemma with_true_inv (m : outcome content) c b : with_true m = Ret (c, b) -> m = Ret c /\ b = true.
Proof. destruct m; cbn; intros H; inversion H; auto. Qed.
Lemma wrapped_spec u op f c b : op (if_content f) = Ret (c, b) ->
  wrapped u op f = if b then f <- fix_scroll u (with_content f c) ;; Ret (f, true) else Ret (with_content f c, false).
Proof. intros E. unfold wrapped. rewrite E. reflexivity. Qed.
(** The operations which only change the content *)
Lemma content_op_spec u f o op : field_ok f -> content_op f o = Some op ->
  exists f' b, if_apply u f o = Ret (f', b) /\ done u f op f' b.
Proof.
  intros OK Eo. pose proof OK as [V _]. destruct (@capply_valid u op (if_content f) (content_op_valid _ _ Eo) V) as (c & b & E & Vc).
  destruct (@fix_scroll_ok u (with_content f c) (field_ok_content OK Vc)) as (s & Es).
  assert (W : forall op', op' (if_content f) = Ret (c, b) -> exists f' b', wrapped u op' f = Ret (f', b') /\ done u f op f' b').
  { intros op' E'. rewrite (wrapped_spec u op' f E'). destruct b; [rewrite Es; cbn [bind]|]; eexists _, _; (split; [reflexivity|]); exists c; repeat split; auto; discriminate. }
  assert (T : b = true -> exists f' b', no_bool (fix_scroll u (with_content f c)) = Ret (f', b') /\ done u f op f' b').
  { intros ->. unfold no_bool. rewrite Es. cbn [bind]. eexists _, _. split; [reflexivity|]. exists c. repeat split; auto; discriminate. }
  assert (T2 : b = true -> exists f' b', (f <- fix_scroll u (with_content f c) ;; Ret (f, true)) = Ret (f', b') /\ done u f op f' b').
  { exact T. }
  destruct o; cbn [content_op] in Eo; try discriminate Eo; injection Eo as <-; cbn [capply] in E; cbn [if_apply];
    try (apply W; exact E).
  - apply with_true_inv in E as [E Hb]. unfold if_set_str. rewrite E. cbn [bind]. apply T. exact Hb.
  - apply with_true_inv in E as [E Hb]. unfold if_insert_str. rewrite E. cbn [bind]. apply T. exact Hb.
  - apply with_true_inv in E as [E Hb]. unfold if_insert_new_line. rewrite E. cbn [bind]. apply T2. exact Hb.
  - apply with_true_inv in E as [E Hb]. unfold put_char. rewrite E. cbn [bind]. apply T2. exact Hb.
  - unfold if_clear. apply Ret_inj in E. injection E as <- <-. apply T. reflexivity.
Qed.
Lemma done_ok u f op f' b : field_ok f -> (forall p, op <> OpSetTail p) -> done u f op f' b -> field_ok f' /\ only_content f f'.
Proof.
  intros OK NS (c & E & H1 & H2). pose proof OK as [V _]. destruct (@capply_valid u op (if_content f) NS V) as (c' & b' & E' & Vc). rewrite E in E'. apply Ret_inj in E'. injection E' as <- <-.
  pose proof (field_ok_content OK Vc) as OKc. destruct b.
  - specialize (H1 eq_refl). destruct (fix_scroll_ok u OKc) as (s & Es). rewrite Es in H1. apply Ret_inj in H1 as <-. split; [exact OKc|]. exists c, s. reflexivity.
  - rewrite (H2 eq_refl). split; [exact OKc|]. exists c, (if_scroll f). destruct f; reflexivity.
Qed.

(** ** Keys *)

Lemma key_selection_eq (shift : bool) c : (if shift then make_selection c else unselect c) = key_selection shift c.
Proof. destruct shift, c as [p [t|] ls]; reflexivity. Qed.
Lemma key_selection_valid shift c : valid c -> valid (key_selection shift c).
Proof.
  intros (A & B & C & D). unfold key_selection. repeat split; cbn [clines cpos ctail]; try assumption; try (eapply D; eassumption).
  intros t. destruct shift; [|discriminate]. destruct (ctail c) as [t'|]; intros H; injection H as <-; [apply C; reflexivity|exact B].
Qed.
Definition key_op (k : KeyCode) : option if_op :=
  match k with
  | KHome => Some IfToLineStart | KEnd => Some IfToLineEnd | KUp => Some IfUp | KDown => Some IfDown
  | KLeft => Some IfLeft | KRight => Some IfRight | KPageUp => Some IfPageUp | KPageDown => Some IfPageDown
  | _ => None
  end.
Lemma keycode_move u f k shift op : field_ok f -> key_move f k = Some op ->
  exists f' b, apply_keycode_event u f k shift = Ret (f', b) /\ done u (with_content f (key_selection shift (if_content f))) op f' b.
Proof.
  intros OK E. pose proof OK as [V _]. set (g := with_content f (key_selection shift (if_content f))).
  assert (OKg : field_ok g) by (apply field_ok_content; [exact OK|apply key_selection_valid; exact V]).
  assert (Eo : exists o, key_op k = Some o /\ content_op g o = Some op /\ apply_keycode_event u f k shift = if_apply u g o).
  { destruct k; try discriminate E; cbn [key_move] in E; injection E as <-; eexists; (split; [reflexivity|]); (split; [reflexivity|]);
      unfold apply_keycode_event; rewrite key_selection_eq; reflexivity. }
  destruct Eo as (o & _ & Eo & ->). apply content_op_spec; assumption.
Qed.
Lemma keycode_ignored u f k shift : key_ignored k -> apply_keycode_event u f k shift = Ret (with_content f (key_selection shift (if_content f)), false).
Proof. intros H. unfold apply_keycode_event. rewrite key_selection_eq. destruct H as [->|[->|[->|[->|(n & ->)]]]]; reflexivity. Qed.
Lemma keycode_cases f (k : KeyCode) : k = KBackspace \/ k = KDelete \/ (exists c, k = KChar c) \/ (exists op, key_move f k = Some op) \/ key_ignored k.
Proof. unfold key_ignored. destruct k; cbn [key_move]; eauto 12. Qed.

(** The moves don't change the text, and do nothing when they give [false] *)
Definition moves (op : cop) : Prop := op = OpToLineStart \/ op = OpToLineEnd \/ op = OpLeft \/ op = OpRight \/ (exists n, op = OpLinesUp n) \/ (exists n, op = OpLinesDown n).
Lemma key_move_moves f k op : key_move f k = Some op -> moves op.
Proof. unfold moves. destruct k; cbn [key_move]; intros H; try discriminate; injection H as <-; eauto 10. Qed.
Lemma moves_spec u op c c' b : valid c -> moves op -> capply u op c = Ret (c', b) -> same_text c c' /\ (b = false -> c' = c).
Proof.
  intros V M E. assert (RF : same_text c c) by (split; reflexivity).
  assert (ID : forall c', same_text c c' -> cpos c' = cpos c -> c' = c) by (intros [] [A B] C; cbn in *; subst; destruct c; reflexivity).
  assert (RI : forall c1 b1, Ret (c1, b1) = Ret (c', b) -> c1 = c' /\ b1 = b) by (intros ? ? Q; inversion Q; auto).
  destruct M as [->|[->|[->|[->|[(n & ->)|(n & ->)]]]]]; cbn [capply] in E.
  - destruct (move_to_line_start_spec V) as (c1 & b1 & E1 & _ & S & P & B). rewrite E1 in E. apply RI in E as [<- <-]. split; [exact S|]. intros Hb. apply ID; [exact S|]. rewrite P. apply B in Hb. rewrite <- Hb. destruct (cpos c); reflexivity.
  - destruct (move_to_line_end_spec V) as (c1 & b1 & l & E1 & _ & S & _ & P & B). rewrite E1 in E. apply RI in E as [<- <-]. split; [exact S|]. intros Hb. apply ID; [exact S|]. rewrite P. apply B in Hb. rewrite <- Hb. destruct (cpos c); reflexivity.
  - destruct (move_left_spec V) as [A B]. destruct (Nat.eq_dec (cursor c) 0) as [Z|Z].
    + rewrite (B Z) in E. apply RI in E as [<- <-]. auto.
    + destruct A as (c1 & E1 & _ & S & _); [lia|]. rewrite E1 in E. apply RI in E as [<- <-]. split; [exact S|discriminate].
  - destruct (move_right_spec V) as [A B]. pose proof (cursor_le V). destruct (Nat.eq_dec (cursor c) (length (text c))) as [Z|Z].
    + rewrite (B Z) in E. apply RI in E as [<- <-]. auto.
    + destruct A as (c1 & E1 & _ & S & _); [lia|]. rewrite E1 in E. apply RI in E as [<- <-]. split; [exact S|discriminate].
  - destruct (@move_lines_up_spec u c n V) as [A B]. destruct (Nat.eq_dec (py (cpos c)) 0) as [Z|Z].
    + rewrite (A Z) in E. apply RI in E as [<- <-]. auto.
    + destruct B as (c1 & E1 & _ & S & _); [lia|]. rewrite E1 in E. apply RI in E as [<- <-]. split; [exact S|discriminate].
  - destruct (@move_lines_down_spec u c n V) as [A B].
    assert (py (cpos c) < length (clines c)) by (destruct V as (_ & (l & Hl & _) & _); apply nth_error_Some; congruence).
    destruct (Nat.eq_dec (py (cpos c) + 1) (length (clines c))) as [Z|Z].
    + rewrite (A Z) in E. apply RI in E as [<- <-]. auto.
    + destruct B as (c1 & E1 & _ & S & _); [lia|]. rewrite E1 in E. apply RI in E as [<- <-]. split; [exact S|discriminate].
Qed.
(** ** A single line *)

Lemma one_line c : valid c -> (length (clines c) = 1 <-> ~ In c_nl (text c)).
Proof.
  intros (V1 & _ & _ & V4). unfold text, flat. destruct (clines c) as [|l [|l2 r]] eqn:E; [congruence| |].
  - cbn [map concat length]. rewrite app_nil_r. split; [|reflexivity]. intros _ H. destruct (V4 l c_nl (or_introl eq_refl) H) as [A _]. apply A. reflexivity.
  - cbn [length]. split; [lia|]. intros H. exfalso. apply H. apply in_or_app. right. left. reflexivity.
Qed.
Lemma removed_one_line c c' a b : valid c -> valid c' -> removed c c' a b -> length (clines c) = 1 -> length (clines c') = 1.
Proof.
  intros V V' R H. apply (one_line V'). apply (one_line V) in H. intros I. apply H. rewrite R in I. apply in_app_or in I as [I|I]; [eapply in_firstn|eapply in_skipn]; exact I.
Qed.
Lemma inserted_one_line c c' s : valid c -> valid c' -> inserted c c' s -> ~ In c_nl s -> length (clines c) = 1 -> length (clines c') = 1.
Proof.
  intros V V' [R _] NS H. apply (one_line V'). apply (one_line V) in H. intros I. rewrite R in I. apply in_app_or in I as [I|I]; [apply H; eapply in_firstn; exact I|].
  apply in_app_or in I as [I|I]; [exact (NS I)|]. apply H. eapply in_skipn. exact I.
Qed.
Lemma del_left_one_line c c' b : valid c -> del_char_left c = Ret (c', b) -> length (clines c) = 1 -> length (clines c') = 1.
Proof.
  intros V E H. destruct (del_char_left_spec V) as [A B]. destruct (Nat.eq_dec (cursor c) 0) as [Z|Z].
  - rewrite (A Z) in E. apply Ret_inj in E. injection E as <- <-. exact H.
  - destruct B as (c1 & E1 & V1 & _ & R & _); [lia|]. rewrite E1 in E. apply Ret_inj in E. injection E as <- <-. exact (removed_one_line V V1 R H).
Qed.
Lemma del_below_one_line c c' b : valid c -> del_char_below c = Ret (c', b) -> length (clines c) = 1 -> length (clines c') = 1.
Proof.
  intros V E H. destruct (del_char_below_spec V) as (A & B & _). pose proof (cursor_le V). destruct (Nat.eq_dec (cursor c) (length (text c))) as [Z|Z].
  - rewrite (B Z) in E; [apply Ret_inj in E; injection E as <- <-; exact H|]. intros (pre & P & Ep). rewrite Ep in H. rewrite app_length in H. destruct pre; [congruence|cbn in H; lia].
  - destruct A as (c1 & E1 & V1 & _ & R & _); [lia|]. rewrite E1 in E. apply Ret_inj in E. injection E as <- <-. exact (removed_one_line V V1 R H).
Qed.
Lemma del_selection_one_line c c' b : valid c -> del_selection c = Ret (c', b) -> length (clines c) = 1 -> length (clines c') = 1.
Proof.
  intros V E H. destruct (has_wide_selection c) eqn:W.
  - apply (has_wide_selection_spec V) in W. rewrite (del_selection_lines c W) in E. destruct (selection_ends V) as ((l1 & E1 & _) & (l2 & E2 & _) & _).
    assert (Y1 : py (rmin (selection c)) = 0) by (assert (py (rmin (selection c)) < length (clines c)) by (apply nth_error_Some; congruence); lia).
    assert (Y2 : py (rmax (selection c)) = 0) by (assert (py (rmax (selection c)) < length (clines c)) by (apply nth_error_Some; congruence); lia).
    destruct (del_lines (clines c) (rmin (selection c)) (rmax (selection c))) as [ls| |] eqn:EL; try discriminate E. cbn [bind] in E.
    assert (HL : length ls = 1).
    { unfold del_lines in EL. rewrite Y1, Y2 in EL. cbn [Nat.eqb] in EL. destruct (clines c) as [|l [|]]; cbn [length] in H; try lia. unfold idx in EL. cbn [nth_error bind] in EL.
      destruct (px (rmax (selection c)) =? length l).
      - destruct (px (rmin (selection c)) =? 0).
        + vm_compute in EL. apply Ret_inj in EL as <-. reflexivity.
        + destruct (vec_drain _ _ l); cbn [bind] in EL; try discriminate EL. apply Ret_inj in EL as <-. reflexivity.
      - destruct (vec_drain _ _ l); cbn [bind] in EL; try discriminate EL. apply Ret_inj in EL as <-. reflexivity. }
    unfold set_cursor_pos in E. destruct (make_valid_pos _ _); cbn [bind] in E; try discriminate E. apply Ret_inj in E. injection E as <- <-. exact HL.
  - assert (N : rmin (selection c) = rmax (selection c)).
    { destruct (pos_eqb (rmin (selection c)) (rmax (selection c))) eqn:B; [apply pos_eqb_spec; exact B|]. exfalso.
      assert (has_wide_selection c = true); [|congruence]. apply (has_wide_selection_spec V). intros Q. apply pos_eqb_spec in Q. congruence. }
    destruct (del_selection_spec V) as (_ & _ & _ & _ & _ & F). rewrite (F N) in E. eapply del_below_one_line; eassumption.
Qed.
