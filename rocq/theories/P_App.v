(** * An input field used by an application is seen as it is (C116) *)
From Verif Require Import Base L_Base Demo M_Content S_Content S_Safe P_Safe L_Content4 S_Editor L_Editor S_Marked P_Marked S_Count P_Count.
From Verif Require Import M_Style M_View S_View L_View M_Input S_Input S_Input2 L_Input L_Input2 P_Input P_Input2 S_Pen S_Paint P_Pen P_Paint S_Look S_Point P_Point S_Drawn P_Drawn S_App.
Set Implicit Arguments.
Open Scope nat_scope.

(** ** What an operation does to the content *)
Definition by_ops (u : unicode) (c : content) (o : if_op) (c' : content) : Prop :=
  exists ops, m_run u ops (m_view c) = Some (m_view c') /\ forall x, times x (flat_map supplied ops) <= times x (given_by o).
Lemma same_ops u c o : by_ops u c o c.
Proof. exists []. split; [reflexivity|]. intros x. unfold times. cbn. lia. Qed.
Lemma one_op u c o op c' b : loose c -> capply u op c = Ret (c', b) -> (forall x, times x (supplied op) <= times x (given_by o)) -> by_ops u c o c'.
Proof. intros L E H. destruct (m_one _ _ L E) as (_ & Q). exists [op]. split; [cbn [m_run]; rewrite Q; reflexivity|]. intros x. cbn [flat_map]. rewrite app_nil_r. apply H. Qed.
Lemma keycode_ops u f k shift f' b o : field_ok f -> apply_keycode_event u f k shift = Ret (f', b) -> (forall x, times x (match k with KChar ch => typed [ch] | _ => [] end) <= times x (given_by o)) -> by_ops u (if_content f) o (if_content f').
Proof.
  intros OK E H. pose proof (@keycode_marked u f k shift f' b OK E) as P. unfold m_press in P. eexists. split; [exact P|]. intros x. rewrite press_supplied. apply H.
Qed.
Lemma op_content u f o f' b : field_ok f -> op_ok (a_height (if_area f)) o -> if_apply u f o = Ret (f', b) -> by_ops u (if_content f) o (if_content f').
Proof.
  intros OK HO E. pose proof (loose_valid (proj1 OK)) as L.
  assert (C : forall op, content_op f o = Some op -> by_ops u (if_content f) o (if_content f')).
  { intros op Eo. destruct (@C72_content_op u f o op OK Eo) as (g & b1 & E1 & (c & Ec & D1 & D2)). rewrite E in E1. injection E1 as <- <-.
    assert (if_content f' = c) as -> by (destruct b; [exact (@fix_scroll_content _ _ _ (D1 eq_refl))|rewrite (D2 eq_refl); reflexivity]).
    eapply one_op; [exact L|exact Ec|]. intros x. destruct o; try discriminate Eo; injection Eo as <-; cbn [supplied given_by]; unfold times; cbn [count_occ]; lia. }
  assert (Z : if_content f' = if_content f -> by_ops u (if_content f) o (if_content f')) by (intros ->; apply same_ops).
  assert (FX : forall g, fix_scroll u g = Ret f' -> if_content g = if_content f -> by_ops u (if_content f) o (if_content f')) by (intros g Eg Cg; apply Z; rewrite (@fix_scroll_content _ _ _ Eg); exact Cg).
  destruct o; try (eapply C; reflexivity); clear C; cbn [if_apply] in E; unfold no_bool in E.
  - injection E as <- _. apply Z. reflexivity.
  - injection E as <- _. apply Z. reflexivity.
  - apply bind_Ret_inv in E as (g & E1 & E). injection E as <- _. unfold change_area in E1. destruct (_ || _); [eapply FX; [exact E1|reflexivity]|injection E1 as <-; apply Z; reflexivity].
  - apply bind_Ret_inv in E as (g & E1 & E). injection E as <- _. unfold set_area in E1. destruct (area_eqb _ _); [injection E1 as <-; apply Z; reflexivity|eapply FX; [exact E1|reflexivity]].
  - apply bind_Ret_inv in E as (g & E1 & E). injection E as <- _. unfold set_focus in E1. destruct (Bool.eqb _ _); [injection E1 as <-; apply Z; reflexivity|]. destruct b0; [eapply FX; [exact E1|reflexivity]|injection E1 as <-; apply Z; reflexivity].
  - injection E as <- _. apply Z. reflexivity.
  - injection E as <- _. apply Z. reflexivity.
  - injection E as <- _. apply Z. reflexivity.
  - apply bind_Ret_inv in E as ((g & s) & E1 & E). injection E as <- _. unfold cut_selection in E1. apply bind_Ret_inv in E1 as (s1 & _ & E1). apply bind_Ret_inv in E1 as ((c & b1) & Ec & E1). apply bind_Ret_inv in E1 as (g1 & Eg & E1). injection E1 as <- _.
    rewrite (@fix_scroll_content _ _ _ Eg). eapply (@one_op u (if_content f) IfCut OpDelSelection c b1); [exact L|exact Ec|]. intros x. unfold times. cbn. lia.
  - apply bind_Ret_inv in E as (g & E1 & E). injection E as <- _. unfold replace_selection in E1. apply bind_Ret_inv in E1 as (c1 & Ec & E1). apply bind_Ret_inv in E1 as (c2 & E2 & E1). rewrite (@fix_scroll_content _ _ _ E1). cbn [with_content if_content].
    assert (K1 : exists ops, m_run u ops (m_view (if_content f)) = Some (m_view c1) /\ loose c1 /\ flat_map supplied ops = []).
    { destruct (has_wide_selection (if_content f)).
      - apply bind_Ret_inv in Ec as ((c & b1) & Ec & E3). injection E3 as <-. destruct (@m_one u OpDelSelection _ _ _ L Ec) as (L1 & Q). exists [OpDelSelection]. split; [cbn [m_run]; rewrite Q; reflexivity|]. split; [exact L1|reflexivity].
      - injection Ec as <-. exists []. split; [reflexivity|]. split; [exact L|reflexivity]. }
    destruct K1 as (ops & R1 & L1 & S1). assert (Ei : capply u (OpInsertStr s) c1 = Ret (c2, true)) by (cbn [capply]; unfold with_true; rewrite E2; reflexivity). destruct (m_one _ _ L1 Ei) as (_ & Q).
    exists (ops ++ [OpInsertStr s]). split.
    + clear - R1 Q. revert R1. generalize (m_view (if_content f)). induction ops as [|o ops IH]; intros m R1; cbn [app m_run] in *; [injection R1 as ->; rewrite Q; reflexivity|]. destruct (m_apply u o m) as [(m1 & b1)|]; [apply IH, R1|discriminate].
    + intros x. rewrite flat_map_app, S1. cbn [flat_map supplied app given_by]. rewrite app_nil_r. lia.
  - injection E as E1. apply Z. destruct (C72_scroll f) as (S1 & _). cbv zeta in S1. destruct S1 as ((s & Es) & _). rewrite E1 in Es. cbn [fst] in Es. rewrite Es. reflexivity.
  - injection E as E1. apply Z. destruct (C72_scroll f) as (_ & S1). cbv zeta in S1. destruct S1 as ((s & Es) & _). rewrite E1 in Es. cbn [fst] in Es. rewrite Es. reflexivity.
  - eapply keycode_ops; [exact OK|exact E|]. intros x. cbn [given_by]. destruct k; lia.
  - unfold apply_key_combination in E. destruct (focused f); cbn [negb] in E; [|injection E as <- _; apply Z; reflexivity].
    destruct (existsb _ _).
    + apply bind_Ret_inv in E as ((g & b1) & E1 & E). injection E as <- _. unfold if_insert_new_line in E1. apply bind_Ret_inv in E1 as (c & Ec & E1). apply bind_Ret_inv in E1 as (g1 & Eg & E1). injection E1 as <- _. rewrite (@fix_scroll_content _ _ _ Eg).
      eapply (@one_op u (if_content f) _ OpInsertNewLine c true); [exact L|cbn [capply]; unfold with_true; rewrite Ec; reflexivity|]. intros x. cbn [supplied given_by]. unfold times. cbn [count_occ]. destruct (N.eq_dec c_nl x); lia.
    + destruct (kcodes k) as [|code [|]] eqn:Ek; try (injection E as <- _; apply Z; reflexivity).
      assert (X : forall x, times x (match code with KChar ch => typed [ch] | _ => [] end) <= times x (given_by (IfKey k))) by (intros x; cbn [given_by]; rewrite Ek; unfold times; cbn [count_occ]; destruct (N.eq_dec c_nl x); destruct code; cbn [count_occ]; lia).
      destruct (N.eqb (kmods k) 0); [exact (@keycode_ops _ _ _ _ _ _ _ OK E X)|]. destruct (N.eqb (kmods k) SHIFT); [exact (@keycode_ops _ _ _ _ _ _ _ OK E X)|]. injection E as <- _. apply Z. reflexivity.
  - unfold apply_click_event in E. apply bind_Ret_inv in E as (i & _ & E). destruct i; [|injection E as <- _; apply Z; reflexivity]. destruct (focused f); [|injection E as <- _; apply Z; reflexivity].
    apply bind_Ret_inv in E as (p & _ & E). apply bind_Ret_inv in E as (c & Ec & E). injection E as <- _. cbn [with_content if_content].
    eapply (@one_op u (if_content f) _ (OpSetCursor p) c true); [exact L|cbn [capply]; unfold with_true; rewrite Ec; reflexivity|]. intros z. unfold times. cbn. lia.
  - destruct (@event_content u f e double_click f' b OK E) as (ops & M & S1). exists ops. split; [exact M|]. intros x. cbn [given_by]. destruct S1 as [S1|S1]; rewrite S1; [lia|]. unfold times. cbn. lia.
Qed.
Lemma op_times u f o f' b x : field_ok f -> op_ok (a_height (if_area f)) o -> if_apply u f o = Ret (f', b) -> times x (text (if_content f')) <= times x (text (if_content f)) + times x (given_by o).
Proof.
  intros OK HO E. destruct (@op_content u f o f' b OK HO E) as (ops & M & S). pose proof (loose_valid (proj1 OK)) as L. pose proof (@C110_runs u ops _ L) as R. rewrite M in R. destruct R as (c1 & E1 & _ & Q).
  pose proof (@C113_runs u ops _ c1 x L E1) as K. assert (T : text c1 = text (if_content f')) by (rewrite <- !whole_view; f_equal; exact (f_equal m_ed Q)). rewrite T in K. specialize (S x). lia.
Qed.
(** ** The scroll and the area *)
Lemma op_in u f o f' b : field_ok f -> op_ok (a_height (if_area f)) o -> if_apply u f o = Ret (f', b) -> scroll_in f f'.
Proof.
  intros OK HO E. assert (FX : forall g, fix_scroll u g = Ret f' -> scroll_in f f') by (intros g Eg; destruct (@fix_bound _ _ _ Eg) as (B & _); unfold scroll_in; lia).
  assert (SAME : if_scroll f' = if_scroll f -> scroll_in f f') by (intros Es; unfold scroll_in; rewrite Es; lia).
  assert (C : forall op, content_op f o = Some op -> scroll_in f f').
  { intros op Eo. destruct (@C72_content_op u f o op OK Eo) as (g & b1 & E1 & (c & Ec & D1 & D2)). rewrite E in E1. injection E1 as <- <-. destruct b; [exact (FX _ (D1 eq_refl))|]. rewrite (D2 eq_refl) in *. apply SAME. reflexivity. }
  destruct o; try (eapply C; reflexivity); clear C; cbn [if_apply] in E; unfold no_bool in E.
  - injection E as <- _. apply SAME. reflexivity.
  - injection E as <- _. apply SAME. reflexivity.
  - apply bind_Ret_inv in E as (g & E1 & E). injection E as <- _. unfold change_area in E1. destruct (_ || _); [exact (FX _ E1)|injection E1 as <-; apply SAME; reflexivity].
  - apply bind_Ret_inv in E as (g & E1 & E). injection E as <- _. unfold set_area in E1. destruct (area_eqb _ _); [injection E1 as <-; apply SAME; reflexivity|exact (FX _ E1)].
  - apply bind_Ret_inv in E as (g & E1 & E). injection E as <- _. unfold set_focus in E1. destruct (Bool.eqb _ _); [injection E1 as <-; apply SAME; reflexivity|]. destruct b0; [exact (FX _ E1)|injection E1 as <-; apply SAME; reflexivity].
  - injection E as <- _. apply SAME. reflexivity.
  - injection E as <- _. apply SAME. reflexivity.
  - injection E as <- _. apply SAME. reflexivity.
  - apply bind_Ret_inv in E as ((g & s) & E1 & E). injection E as <- _. unfold cut_selection in E1. apply bind_Ret_inv in E1 as (s1 & _ & E1). apply bind_Ret_inv in E1 as ((c & b1) & Ec & E1). apply bind_Ret_inv in E1 as (g1 & Eg & E1). injection E1 as <- _. exact (FX _ Eg).
  - apply bind_Ret_inv in E as (g & E1 & E). injection E as <- _. unfold replace_selection in E1. apply bind_Ret_inv in E1 as (c1 & Ec & E1). apply bind_Ret_inv in E1 as (c2 & E2 & E1). exact (FX _ E1).
  - injection E as E1. unfold scroll_up in E1. destruct (_ <? _); injection E1 as <- _; unfold scroll_in; cbn [with_scroll if_scroll py]; lia.
  - injection E as E1. unfold scroll_down in E1. destruct (_ <? _) eqn:Q; injection E1 as <- _; [|apply SAME; reflexivity]. apply Nat.ltb_lt in Q. unfold scroll_in, nb_lines. cbn [with_scroll if_scroll py if_content]. lia.
  - exact (@keycode_in _ _ _ _ _ _ E).
  - unfold apply_key_combination in E. destruct (focused f); cbn [negb] in E; [|injection E as <- _; apply SAME; reflexivity].
    destruct (existsb _ _).
    + apply bind_Ret_inv in E as ((g & b1) & E1 & E). injection E as <- _. unfold if_insert_new_line in E1. apply bind_Ret_inv in E1 as (c & Ec & E1). apply bind_Ret_inv in E1 as (g1 & Eg & E1). injection E1 as <- _. exact (FX _ Eg).
    + destruct (kcodes k) as [|code [|]]; try (injection E as <- _; apply SAME; reflexivity).
      destruct (N.eqb (kmods k) 0); [exact (@keycode_in _ _ _ _ _ _ E)|]. destruct (N.eqb (kmods k) SHIFT); [exact (@keycode_in _ _ _ _ _ _ E)|]. injection E as <- _. apply SAME. reflexivity.
  - unfold apply_click_event in E. apply bind_Ret_inv in E as (i & _ & E). destruct i; [|injection E as <- _; apply SAME; reflexivity]. destruct (focused f); [|injection E as <- _; apply SAME; reflexivity].
    apply bind_Ret_inv in E as (p & _ & E). apply bind_Ret_inv in E as (c & Ec & E). injection E as <- _. apply SAME. reflexivity.
  - exact (@event_in _ _ _ _ _ _ E).
Qed.
Lemma fix_area u g f' : fix_scroll u g = Ret f' -> if_area f' = if_area g.
Proof. intros E. destruct (@fix_bound _ _ _ E) as (_ & s & ->). reflexivity. Qed.
Lemma op_area u f o f' b : field_ok f -> op_ok (a_height (if_area f)) o -> if_apply u f o = Ret (f', b) -> if_area f' = next_area (if_area f) o.
Proof.
  intros OK HO E. destruct (@C72_step u f o OK HO) as (g & b1 & E1 & _ & _ & S). rewrite E in E1. injection E1 as <- <-.
  destruct o; try (destruct (S ltac:(intros [])) as (A & _); exact A); clear S; cbn [if_apply] in E; unfold no_bool in E; cbn [next_area]; try (injection E as <- _; reflexivity).
  - apply bind_Ret_inv in E as (g & E1 & E). injection E as <- _. unfold change_area in E1. destruct (negb (a_left (if_area f) =? x)%N || negb (a_top (if_area f) =? y)%N || negb (a_width (if_area f) =? w)%N) eqn:Q; [rewrite (@fix_area _ _ _ E1); reflexivity|].
    injection E1 as <-. destruct (if_area f) as [x1 y1 w1 h1]. cbn in *. f_equal; lia.
  - apply bind_Ret_inv in E as (g & E1 & E). injection E as <- _. unfold set_area in E1. destruct (area_eqb (if_area f) a) eqn:Q; [|rewrite (@fix_area _ _ _ E1); reflexivity]. injection E1 as <-. unfold area_eqb in Q. destruct (if_area f) as [x1 y1 w1 h1], a as [x2 y2 w2 h2]. cbn in *. f_equal; lia.
  - apply bind_Ret_inv in E as (g & E1 & E). injection E as <- _. unfold set_focus in E1. destruct (Bool.eqb _ _); [injection E1 as <-; reflexivity|]. destruct b0; [rewrite (@fix_area _ _ _ E1); reflexivity|injection E1 as <-; reflexivity].
Qed.
Lemma op_narrow u f o f' b : field_ok f -> op_ok (a_height (if_area f)) o -> narrow_text u f -> gives_narrow u o -> if_apply u f o = Ret (f', b) -> field_ok f' -> narrow_text u f'.
Proof.
  intros OK HO Na T E OK' l I ch Ic. assert (NL : ch <> c_nl). { pose proof (loose_valid (proj1 OK')) as (_ & _ & _ & C). destruct (C l ch I Ic) as (C1 & _). exact C1. }
  assert (It : In ch (text (if_content f'))) by (apply in_text; left; apply in_concat; exists l; split; assumption).
  apply (count_occ_In N.eq_dec) in It. pose proof (@op_times u f o f' b ch OK HO E) as K. unfold times in K.
  assert (D : (count_occ N.eq_dec (text (if_content f)) ch > 0 \/ count_occ N.eq_dec (given_by o) ch > 0)%nat) by lia. destruct D as [D|D]; apply (count_occ_In N.eq_dec) in D.
  - apply in_text in D as [D|(D & _)]; [|congruence]. apply in_concat in D as (l0 & I0 & Ic0). exact (Na l0 I0 ch Ic0).
  - destruct (T ch D) as [D'|D']; [congruence|exact D'].
Qed.
Lemma op_lines u f o f' b : field_ok f -> op_ok (a_height (if_area f)) o -> if_apply u f o = Ret (f', b) -> field_ok f' -> nb_lines f' <= nb_lines f + times c_nl (given_by o).
Proof.
  intros OK HO E OK'. unfold nb_lines. rewrite (lines_times (loose_valid (proj1 OK))), (lines_times (loose_valid (proj1 OK'))). pose proof (@op_times u f o f' b c_nl OK HO E) as K. lia.
Qed.

(** ** Operations and drawings *)
Lemma fine_step u n f o ops : fine u n f (o :: ops) -> exists f' b, if_apply u f o = Ret (f', b) /\ fine u n f' ops /\ if_area f' = next_area (if_area f) o.
Proof.
  intros (OK & Na & R & AR & G & NL & SC). cbn [areas_roomy] in AR. destruct AR as (R1 & AR). inversion G as [|? ? G1 G2]; subst.
  assert (HO : op_ok (a_height (if_area f)) o). { destruct R1 as (W & _ & S & _). destruct o; cbn [op_ok next_area] in *; try exact I; split; [cbn in W; cbn; lia|exact S|lia|exact S]. }
  destruct (@C72_step u f o OK HO) as (f' & b & E & OK' & _). pose proof (@op_area u f o f' b OK HO E) as A. exists f', b. split; [exact E|]. split; [|exact A].
  assert (T : times c_nl (flat_map given_by (o :: ops)) = times c_nl (given_by o) + times c_nl (flat_map given_by ops)) by (cbn [flat_map]; unfold times; apply count_occ_app). rewrite T in NL.
  pose proof (@op_lines u f o f' b OK HO E OK') as L1. pose proof (@op_in u f o f' b OK HO E) as S1. unfold scroll_in in S1. unfold fine. rewrite A.
  split; [exact OK'|]. split; [exact (@op_narrow u f o f' b OK HO Na G1 E OK')|]. split; [exact R1|]. split; [exact AR|]. split; [exact G2|]. split; lia.
Qed.
Lemma fine_run u n : forall ops f rest, fine u n f (ops ++ rest) -> exists f', if_run u f ops = Ret f' /\ fine u n f' rest /\ if_area f' = fold_left next_area ops (if_area f).
Proof.
  induction ops as [|o ops IH]; intros f rest F; [exists f; auto|]. destruct (@fine_step u n f o (ops ++ rest) F) as (f1 & b & E & F1 & A1). destruct (IH f1 rest F1) as (f' & R & F' & A'). exists f'. cbn [if_run fold_left]. rewrite E, bind_ret. rewrite A', A1. auto.
Qed.
Lemma fine_drawn u n f : usual_widths u -> fine u n f [] -> exists out p, display_on u f = Ret (out, p) /\ draws u (inside (if_area f)) out
  /\ forall tm, t_pen tm = pen0 -> forall c j, c < text_width f -> j < height f -> t_cell (term_run u tm out) (N.to_nat (a_left (if_area f)) + c) (N.to_nat (a_top (if_area f)) + j) = field_cell f c j.
Proof.
  intros HU (OK & Na & (W & Hh & ON & R) & _ & _ & NL & SC). unfold times in NL. cbn [flat_map count_occ] in NL.
  assert (TW : 1 <= text_width f) by (unfold text_width; destruct (_ <? _); lia). assert (NL1 : (N.of_nat (nb_lines f) < 65536)%N) by lia.
  destruct (@far_display u f HU ON TW Hh NL1 ltac:(lia)) as (out & p & ED). exists out, p. split; [exact ED|].
  assert (NT : no_tab_shown f) by (right; intros l Il; eapply narrow_no_tab, Na, Il). split; [exact (@C94_field u f out p HU ON TW NT ED)|].
  intros tm TP c j Hc Hj. exact (@C105_picture u f out p tm c j HU ON Na NL1 ED TP Hc Hj).
Qed.
Lemma fine_nil u n f ops : fine u n f ops -> fine u n f [].
Proof. intros (A & B & C & D & E & F & G). repeat (split; [first [assumption|exact I|constructor]|]). split; [unfold times in *; cbn; lia|exact G]. Qed.

(** Whatever an application does with the field, which is drawn after each group of operations: nothing panics, the field is the one of these operations alone, the cells out of the areas
    where it was drawn are the ones of before, and its area shows, and only shows, the picture of the field as it is *)
Theorem C116_working : forall u, usual_widths u -> forall n groups f tm, fine u n f (concat groups) -> t_pen tm = pen0 ->
  exists f' tm', working u f tm groups = Ret (f', tm') /\ if_run u f (concat groups) = Ret f'
  /\ field_ok f' /\ narrow_text u f' /\ nb_lines f' <= n /\ if_area f' = fold_left next_area (concat groups) (if_area f) /\ t_pen tm' = pen0
  /\ (forall x y, (forall a, In a (field_areas (if_area f) groups) -> ~ inside a x y) -> t_cell tm' x y = t_cell tm x y)
  /\ (groups <> [] -> forall c j, c < text_width f' -> j < height f' ->
      t_cell tm' (N.to_nat (a_left (if_area f')) + c) (N.to_nat (a_top (if_area f')) + j) = field_cell f' c j).
Proof.
  intros u HU n groups. induction groups as [|g groups IH]; intros f tm F TP.
  { exists f, tm. pose proof F as (OK & Na & _ & _ & _ & NL & _). split; [reflexivity|]. split; [reflexivity|]. split; [exact OK|]. split; [exact Na|]. split; [lia|]. split; [reflexivity|]. split; [exact TP|]. split; [reflexivity|congruence]. }
  cbn [concat] in F. destruct (@fine_run u n g f (concat groups) F) as (f1 & R1 & F1 & A1). destruct (@fine_drawn u n f1 HU (fine_nil F1)) as (out & p & ED & (pic & DR) & PIC).
  destruct (DR tm TP) as (TP1 & C1). destruct (IH f1 (term_run u tm out) F1 TP1) as (f' & tm' & E & R & OK' & Na' & NL' & A' & TP' & O' & V).
  exists f', tm'. cbn [working concat]. rewrite R1, bind_ret, ED, bind_ret. split; [exact E|]. split; [|split; [exact OK'|]; split; [exact Na'|]; split; [exact NL'|]; split; [rewrite fold_left_app, <- A1; exact A'|]; split; [exact TP'|]; split].
  - clear - R1 R. revert f R1. induction g as [|o g IH]; intros f R1; cbn [app if_run] in *; [injection R1 as ->; exact R|]. apply bind_Ret_inv in R1 as ((f2 & b) & E2 & R1). rewrite E2, bind_ret. apply IH, R1.
  - intros x y N. cbn [field_areas] in N. rewrite <- A1 in N. rewrite O' by (intros a I; apply N; right; exact I). apply (proj2 (C1 x y)). apply N. left. reflexivity.
  - intros _. destruct groups as [|g2 groups]; [|apply V; discriminate]. cbn [working] in E. injection E as <- <-. intros c j. apply PIC, TP.
Qed.
(** The text, the cursor and the selection after any history are the ones of some history of the content alone (whose reference is C110), which types nothing else *)
Theorem C116_content : forall u ops f f', field_ok f -> history_ok (a_height (if_area f)) ops -> if_run u f ops = Ret f' ->
  exists cops, m_run u cops (m_view (if_content f)) = Some (m_view (if_content f'))
  /\ forall x, times x (flat_map supplied cops) <= times x (flat_map given_by ops) /\ times x (text (if_content f')) <= times x (text (if_content f)) + times x (flat_map given_by ops).
Proof.
  intros u. assert (APP : forall a b m m1, m_run u a m = Some m1 -> m_run u (a ++ b) m = m_run u b m1).
  { induction a as [|o a IH]; intros b m m1 R; cbn [app m_run] in *; [injection R as ->; reflexivity|]. destruct (m_apply u o m) as [(m2 & b2)|]; [apply IH, R|discriminate]. }
  assert (T : forall x a b, times x (a ++ b) = times x a + times x b) by (intros x a b; unfold times; apply count_occ_app).
  induction ops as [|o ops IH]; intros f f' OK H R.
  - injection R as <-. exists []. split; [reflexivity|]. intros x. unfold times. cbn. lia.
  - cbn [history_ok] in H. destruct H as (HO & H). cbn [if_run] in R. apply bind_Ret_inv in R as ((f1 & b) & E & R). destruct (@C72_step u f o OK HO) as (g & b1 & E1 & OK1 & HA & _). rewrite E in E1. injection E1 as <- <-.
    destruct (@op_content u f o f1 b OK HO E) as (c1 & M1 & S1). rewrite <- HA in H. destruct (IH f1 f' OK1 H R) as (c2 & M2 & S2). exists (c1 ++ c2). split; [rewrite (APP _ _ _ _ M1); exact M2|].
    intros x. pose proof (@op_times u f o f1 b x OK HO E) as K. specialize (S1 x). destruct (S2 x) as (S3 & S4). cbn [flat_map]. rewrite flat_map_app, !T. lia.
Qed.
Print Assumptions C116_content.
Print Assumptions C116_working.

(** A field of 8 columns and 2 rows on a full terminal. Three lines are given to it, then it's put elsewhere on 3 rows with a password mode, then it loses the focus and 2 chars *)
Definition app_groups : list (list if_op) :=
  [[IfSetStr [97; 98; c_nl; 99; c_nl; 100; 101]%N]; [IfSetArea (mkArea 1 8 6 3); IfPassword true]; [IfToStart; IfDelBelow; IfRight; IfDelLeft; IfSetFocus false; IfPassword false]].
Definition app_looks (groups : list (list if_op)) (x y h : nat) : list (list (char * pen)) :=
  match working demo (demo_field 8 2) full_term groups with
  | Ret (_, tm) => map (fun j => look_row tm x (y + j) 8) (seq 0 h)
  | _ => []
  end.
Example C116_example : usual_widths demo /\ t_pen full_term = pen0 /\ fine demo 3 (demo_field 8 2) (concat app_groups)
  /\ let d := pen0 in let r := mkPen Reset Reset 4096 in let thumb := (9616%N, mkPen (AnsiValue 253) Reset 0) in let track := (9616%N, mkPen (AnsiValue 237) Reset 0) in let b := (32%N, d) in
     app_looks (firstn 1 app_groups) 3 4 2 = [[(99%N, d); b; b; b; b; b; b; track]; [(100%N, d); (101%N, d); (32%N, r); b; b; b; b; thumb]]
     /\ app_looks (firstn 2 app_groups) 1 8 3 = [[(42%N, d); (42%N, d); b; b; b; b; (120%N, d); (120%N, d)]; [(42%N, d); b; b; b; b; b; (120%N, d); (120%N, d)]; [(42%N, d); (42%N, d); (32%N, r); b; b; b; (120%N, d); (120%N, d)]]
     /\ app_looks app_groups 1 8 3 = [[b; b; b; b; b; b; (120%N, d); (120%N, d)]; [(99%N, d); b; b; b; b; b; (120%N, d); (120%N, d)]; [(100%N, d); (101%N, d); b; b; b; b; (120%N, d); (120%N, d)]].
Proof.
  split; [repeat split; reflexivity|]. split; [reflexivity|]. split.
  - split; [split; [apply validb_ok; vm_compute; reflexivity|split; vm_compute; [discriminate|split; reflexivity]]|]. split; [intros l [<-|[]] ch []|].
    assert (R : roomy 3 (mkArea 3 4 8 2) /\ roomy 3 (mkArea 1 8 6 3)) by (unfold roomy, on_screen; cbn; lia). destruct R as (R1 & R2).
    split; [exact R1|]. split; [cbn; repeat (split; [first [exact R1|exact R2]|]); exact I|]. split; [|split; [vm_compute; lia|vm_compute; lia]].
    apply Forall_forall. intros o I. cbv [app_groups concat app In] in I. intros ch Hc.
    repeat (destruct I as [<-|I]; [cbv in Hc; repeat (destruct Hc as [<-|Hc]; [vm_compute; auto; fail|]); destruct Hc|]). destruct I.
  - cbv zeta. split; [vm_compute; reflexivity|]. split; vm_compute; reflexivity.
Qed.
