(** * A printed text is seen with the looks told by the text and the skin (C108) *)
From Verif Require Import Base L_Base M_Style M_Fit M_Wrap M_TblFit S_Wrap M_Text S_Text L_Text L_Text2 M_Fitter M_View S_View M_Render S_Render L_Render M_Area S_Fit S_Input L_Input2 S_Pen S_Area S_Origin S_Paint S_Border S_Read S_Cells S_Local S_Whole S_Paper L_Clean L_View Demo.
From Verif Require Import P_Wrap P_Text P_Render P_Local P_Area P_Pen P_Origin P_Paint P_Read P_Border P_Cells P_Whole.
From Verif Require Import S_Look S_PaperLook P_Look P_Paper.
From Verif Require P_ListRead.
Set Implicit Arguments.
Open Scope nat_scope.

(** The same commands from the same place with the same pen change cells in the same way *)
Lemma type_same u p : forall s t t' x y, t_x t = t_x t' -> t_y t = t_y t' -> t_cell t x y = t_cell t' x y -> t_cell (type_str u t p s) x y = t_cell (type_str u t' p s) x y.
Proof.
  induction s as [|c s IH]; intros t t' x y X Y C; [exact C|]. cbn [type_str]. apply IH; [cbn; lia|cbn; exact Y|]. rewrite !char_cell, X, Y, C. reflexivity.
Qed.
Lemma cells_same u : forall o t t' x y, Forall styled_cmd o -> t_x t = t_x t' -> t_y t = t_y t' -> t_pen t = t_pen t' -> t_cell t x y = t_cell t' x y -> t_cell (term_run u t o) x y = t_cell (term_run u t' o) x y.
Proof.
  induction o as [|c o IH]; intros t t' x y H X Y P C; [exact C|]. inversion H as [|? ? (cs & s & ->) H']; subst. unfold term_run. cbn [fold_left term_step].
  apply IH; [exact H'| | | |]; cbn [with_pen t_x t_y t_pen t_cell]; [rewrite !(proj1 (type_str_place _ _ _ _)), X; reflexivity|rewrite !(proj2 (type_str_place _ _ _ _)), Y; reflexivity|rewrite P; reflexivity|].
  rewrite P. apply type_same; assumption.
Qed.
Lemma completed_by special k l w o : write_fmt_line special k l w false = Ret o -> exists b, write_fmt_line special k l w true = Ret (o ++ b) /\ (b = [] \/ exists n, b = ls_repeat_space (paragraph k) n).
Proof.
  unfold write_fmt_line. destruct l as [fc|cells|r|]; intros E.
  - unfold write_fmt_composite in *. inv1 E. inv1 E. rewrite E0, bind_ret, E1, bind_ret. destruct (margins_in x w) as (lm & rm). destruct (fc_completions fc) as (a & b). destruct (optional_completions _ _ _) as (c & d). injection E as <-.
    eexists. split; [rewrite <- !app_assoc; cbn [app]; reflexivity|right; eexists; reflexivity].
  - destruct (optional_completions _ _ _) as (c & d). inv1 E. rewrite E0, bind_ret. injection E as <-. eexists. split; [rewrite <- !app_assoc; cbn [app]; reflexivity|right; eexists; reflexivity].
  - destruct (optional_completions _ _ _) as (c & d). injection E as <-. exists (ls_repeat_space (paragraph k) d). split; [unfold cs_queue; rewrite <- !app_assoc; cbn [app]; rewrite <- ?app_assoc; reflexivity|right; eexists; reflexivity].
  - injection E as <-. exists []. split; [rewrite app_nil_r; reflexivity|left; reflexivity].
Qed.
(** The blanks which complete a row *)
Lemma blanks_end u k b t : chw u 32%N = 1 -> (b = [] \/ exists n, b = ls_repeat_space (paragraph k) n) -> t_pen t = pen0 ->
  forall x, t_x t <= x < t_x t + sumw (chw u) (out_text b) -> t_cell (term_run u t b) x (t_y t) = Part 32%N 0 (look_of [ls_cs (paragraph k)]).
Proof.
  intros H32 [->|(n & ->)] P x L; [unfold out_text, sumw in L; cbn in L; lia|]. unfold ls_repeat_space, cs_repeat_char in *. destruct (0 <? n); [|unfold out_text, sumw in L; cbn in L; lia].
  unfold cs_queue in *. unfold out_text in L. cbn [flat_map cmd_text] in L. rewrite app_nil_r in L. assert (Hs : sumw (chw u) (repeat 32%N n) = n) by (clear - H32; induction n as [|n IH]; [reflexivity|]; cbn [repeat]; rewrite sumw_cons, H32, IH; reflexivity). change c_space with 32%N in *. rewrite Hs in L.
  unfold term_run. cbn [fold_left term_step]. cbn [with_pen t_cell]. assert (Th : S_ListRead.thin u (repeat 32%N n)) by (apply Forall_forall; intros c I; apply repeat_spec in I as ->; exact H32).
  destruct (@P_ListRead.typed u (worn_over (t_pen t) (ls_cs (paragraph k))) (repeat 32%N n) t Th) as (A & _). rewrite A, repeat_length, (proj2 (P_ListRead.in_line_iff _ _ _ _ _)) by lia. rewrite P. rewrite <- look_worn. f_equal.
  destruct (nth_in_or_default (x - t_x t) (repeat 32%N n) 0%N) as [I|D]; [exact (repeat_spec _ _ _ I)|]. exfalso. clear - D L. assert (Q : nth_error (repeat 32%N n) (x - t_x t) = Some 32%N) by (assert (K : forall n i, i < n -> nth_error (repeat 32%N n) i = Some 32%N) by (clear; induction n as [|n IH]; intros [|i] H; cbn; try lia; [reflexivity|apply IH; lia]); apply K; lia). rewrite (nth_error_nth _ _ _ Q) in D. discriminate.
Qed.
Lemma rows_kept u : forall fulls y0 t x y, Forall (fun f => Forall styled_cmd f) fulls -> y < y0 -> t_cell (term_run u t (concat (rows_from y0 fulls))) x y = t_cell t x y.
Proof.
  induction fulls as [|f fs IH]; intros y0 t x y H L; [reflexivity|]. inversion H; subst. cbn [rows_from concat]. rewrite term_run_app. rewrite IH by (try assumption; lia).
  unfold term_run. cbn [fold_left term_step]. fold (term_run u (mkTerm (t_cell t) (N.to_nat 0) (N.to_nat (N.of_nat y0)) (t_pen t)) f). rewrite run_above; [reflexivity|assumption|left; cbn; lia].
Qed.
Lemma paper_looks u k w : chw u 32%N = 1 -> forall lines outs fulls, Forall (narrow_out u w) outs ->
  Forall2 (fun l o => write_fmt_line no_special k l (Some w) false = Ret o) lines outs ->
  Forall2 (fun l f => write_fmt_line no_special k l (Some w) true = Ret f) lines fulls -> Forall (fun f => Forall styled_cmd f /\ sumw (chw u) (out_text f) = w) fulls ->
  forall t tv, t_x t = 0 -> t_pen t = pen0 -> t_pen tv = pen0 -> (forall x y, t_y t <= y -> t_cell t x y = t_cell tv x y) -> (forall x y, t_y t <= y -> exists b, t_cell t x y = Nothing b) ->
  without_ends k w (t_y t) (length lines) t (paper_run u w t (printed_lines outs)) (term_run u tv (concat (rows_from (t_y t) fulls))).
Proof.
  intros H32. induction lines as [|l lines IH]; intros outs fulls HN HO HF HW t tv X Pt Pv Sm Bl; inversion HO as [|? o ? outs' Eo HO']; inversion HF as [|? f ? fulls' Ef HF']; subst; [intros d L; cbn in L; lia|].
  inversion HN as [|? ? N1 HN']; subst. inversion HW as [|? ? HW1 HW']; subst. destruct (completed_by _ _ _ _ Eo) as (b & Eb & Hb). rewrite Ef in Eb. injection Eb as ->. destruct HW1 as (W1 & W2). pose proof N1 as (Sty & N10 & Lo).
  assert (Styb : Forall styled_cmd b) by (apply Forall_app in W1; apply W1). assert (Wb : sumw (chw u) (out_text o) + sumw (chw u) (out_text b) = w) by (unfold out_text in W2; rewrite flat_map_app in W2; fold (out_text o) (out_text b) in W2; rewrite sumw_app in W2; exact W2).
  unfold printed_lines. cbn [flat_map]. fold (printed_lines outs'). rewrite (paper_app u w t), (@paper_line u w o t N1 X). cbn [rows_from concat]. rewrite term_run_app.
  set (t1 := go_to (term_run u t o) 0 (t_y t + 1)). set (tv1 := term_run u tv (MoveTo 0 (N.of_nat (t_y t)) :: o ++ b)).
  set (tv0 := mkTerm (t_cell tv) (N.to_nat 0) (N.to_nat (N.of_nat (t_y t))) (t_pen tv)). assert (Etv : tv1 = term_run u (term_run u tv0 o) b) by (unfold tv1; rewrite <- term_run_app; reflexivity).
  destruct (C80_line _ _ _ _ _ Eo) as (_ & Fo). destruct (C80_line _ _ _ _ _ Ef) as (_ & Ff).
  assert (P1 : t_pen t1 = pen0) by (cbn [t1 go_to t_pen]; rewrite run_pen, Pt; exact Fo). assert (P2 : t_pen tv1 = pen0) by (unfold tv1; rewrite run_pen, Pv; exact Ff).
  destruct (@run_place u o t Sty) as (Px & Py). destruct (@run_place u o tv0 Sty) as (Px0 & Py0). cbn [tv0 t_x t_y] in Px0, Py0. rewrite Nnat.Nat2N.id in Py0.
  assert (Pc : t_pen (term_run u tv0 o) = pen0) by (rewrite run_pen; cbn [tv0 t_pen]; rewrite Pv; exact Fo).
  assert (K1 : forall x y, t_y t1 <= y -> t_cell t1 x y = t_cell t x y) by (intros x y L; cbn [t1 go_to t_y t_cell] in *; apply run_above; [exact Sty|left; lia]).
  assert (K2 : forall x y, t_y t1 <= y -> t_cell tv1 x y = t_cell tv x y).
  { intros x y L. rewrite Etv. rewrite run_above; [|exact Styb|left; rewrite Py0; cbn [t1 go_to t_y] in L; lia]. rewrite run_above; [reflexivity|exact Sty|]. left. cbn [tv0 t_y]. cbn [t1 go_to t_y] in L. lia. }
  assert (R : without_ends k w (t_y t1) (length lines) t1 (paper_run u w t1 (printed_lines outs')) (term_run u tv1 (concat (rows_from (t_y t1) fulls')))).
  { apply IH; try assumption; [reflexivity| |]; intros x y L; [rewrite K1, K2 by exact L; apply Sm; cbn [t1 go_to t_y] in L; lia|]. rewrite K1 by exact L. apply Bl. cbn [t1 go_to t_y] in L. lia. }
  replace (S (t_y t)) with (t_y t1) by (cbn; lia).
  assert (Up : forall x, t_cell (paper_run u w t1 (printed_lines outs')) x (t_y t) = t_cell t1 x (t_y t)).
  { intros x. destruct (@paper_rows u k w H32 _ _ _ HN' HO' HF' t1 t1 eq_refl) as (_ & _ & _ & R4); [|intros ? ?; reflexivity|].
    - intros x' y L. rewrite K1 by exact L. destruct (Bl x' y) as (c & ->); [cbn [t1 go_to t_y] in L; lia|reflexivity].
    - apply R4. left. cbn [t1 go_to t_y]. lia. }
  assert (Uv : forall x, t_cell (term_run u tv1 (concat (rows_from (t_y t1) fulls'))) x (t_y t) = t_cell tv1 x (t_y t)).
  { intros x. apply rows_kept; [eapply Forall_impl; [|exact HW']; intros a (A & _); exact A|cbn [t1 go_to t_y]; lia]. }
  intros [|d] L.
  - exists (sumw (chw u) (out_text o)). rewrite Nat.add_0_r. split; [exact Lo|]. split; intros x Lx; rewrite Up, Uv.
    + cbn [t1 go_to t_cell]. rewrite Etv. rewrite (@run_above u b); [|exact Styb|right; right; rewrite Px0; lia].
      apply cells_same; [exact Sty|exact X|cbn; lia|rewrite Pt; symmetry; exact Pv|apply Sm; lia].
    + split; [cbn [t1 go_to t_cell]; apply run_above; [exact Sty|right; left; lia]|]. rewrite Etv. pose proof (@blanks_end u k b (term_run u tv0 o) H32 Hb Pc x ltac:(rewrite Px0; lia)) as Z. rewrite Py0 in Z. exact Z.
  - cbn [length] in L. destruct (R d ltac:(lia)) as (e & L1 & A & B). cbn [t1 go_to t_y] in A, B. exists e. replace (t_y t + S d) with (t_y t + 1 + d) by lia. split; [exact L1|]. split; [exact A|]. intros x Lx. destruct (B x Lx) as (B1 & B2). split; [|exact B2].
    rewrite B1. apply K1. cbn [t1 go_to t_y]. lia.
Qed.

(** All that is known of a printed text, with its looks *)
Lemma printed_seen : forall u k um text size, usual u no_special k ->
  let w := N.to_nat (fst (terminal_size size)) in
  5 <= w -> Forall (area_source u k w) text -> is_white u 32%N = true -> single_lines k text -> ellipsis_seen u -> Forall no_ellipsis text ->
  exists t out ps bws, term_text u k um text size = Ret t /\ print_text u no_special k um text size = Ret out
  /\ length ps = length text /\ length bws = length text /\ Forall (fun p => 1 <= l_rows p) ps /\ sum (map l_rows ps) = length (txt_lines t) /\ aligned text ps /\ same_blocks text bws
  /\ forall tm, t_x tm = 0 -> t_pen tm = pen0 -> blank_from tm (t_y tm) ->
     let tm' := paper_run u w tm out in
     t_x tm' = 0 /\ t_y tm' = t_y tm + length (txt_lines t) /\ t_pen tm' = pen0
     /\ (forall x y, y < t_y tm \/ t_y tm' <= y \/ w <= x -> t_cell tm' x y = t_cell tm x y)
     /\ (forall w', w <= w' -> paper_run u w' tm out = tm')
     /\ (forall i l p, nth_error text i = Some l -> nth_error ps i = Some p -> reads_line u k tm' p l 0 (t_y tm + sum (map l_rows (firstn i ps))) w)
     /\ exists full, without_ends k w (t_y tm) (length (txt_lines t)) tm (paper_run u w tm out) full
     /\ forall i l p bw, nth_error text i = Some l -> nth_error ps i = Some p -> nth_error bws i = Some bw ->
        looks_line u k full p bw l 0 (t_y tm + sum (map l_rows (firstn i ps))) w.
Proof.
  intros u k um text size U w Hw T Wh SL (El1 & El2) NE. pose proof U as (Hk & Hu & H2 & Hn & Hs & Hb).
  assert (H32 : chw u 32%N = 1) by (narrow Hn).
  destruct (@printed_laid u k um text size U Hw T Wh SL) as (t & outs & gq & Ett & Et & Eo & HO & HN & El & HM & HA & P1 & P3 & P4 & P5 & HT). cbv zeta in *. fold w in Et, HO, HN, HM, P1, P3, P4, P5, HT.
  assert (Hp : Forall (printable u k w) (txt_lines t)).
  { eapply text_printable; [exact Hu|exact Hw|exact Et|]. eapply Forall_impl; [|exact T]. intros l. apply source_fitting, H2. }
  assert (HF : exists fulls, Forall2 (fun l f => write_fmt_line no_special k l (Some w) true = Ret f) (txt_lines t) fulls).
  { clear - HO. induction HO as [|l o ls os E _ (fs & IH)]; [exists []; constructor|]. destruct (completed _ _ _ _ E) as (b & Eb & _). exists ((o ++ b) :: fs). constructor; assumption. }
  destruct HF as (fulls & HF).
  assert (FW : forall j f, nth_error fulls j = Some f -> Forall styled_cmd f /\ sumw (chw u) (out_text f) = w /\ exists l, nth_error (txt_lines t) j = Some l /\ line_drawn no_special k l (Some w) true (drawn f)).
  { intros j f Ej. assert (exists l, nth_error (txt_lines t) j = Some l) as (l & Ell).
    { destruct (nth_error (txt_lines t) j) eqn:Q; [eauto|]. apply nth_error_None in Q. assert (j < length fulls) by (apply nth_error_Some; congruence). rewrite (F2_length HF) in Q. lia. }
    pose proof (one_of _ HF Ell Ej) as E. cbv beta in E. split; [eapply sty_line; exact E|]. split; [|exists l; split; [exact Ell|apply line_spec, E]]. rewrite <- printed_sumw. rewrite Forall_forall in Hp. exact (printable_exact Hn Hs (Hp l (nth_error_In _ _ Ell)) E). }
  exists t, (printed_lines outs), (laids k w text gq), (block_widths gq). split; [exact Ett|]. split; [exact Eo|]. destruct (@laids_rows u k w _ text gq HM) as (_ & P2 & _). split; [exact P1|].
  split; [unfold block_widths; rewrite map_length; symmetry; exact (Forall2_len HM)|]. split; [exact P3|]. split; [exact P4|]. split; [exact P5|]. split; [apply blocks_same, HA|]. intros tm X Pt B. cbv zeta.
  destruct (HT tm X B) as (T1 & T2 & T3 & T4 & T5 & T6). split; [exact T1|]. split; [exact T2|]. split; [exact (T3 Pt)|]. split; [exact T4|]. split; [exact T5|]. split; [exact T6|]. clear T1 T2 T3 T4 T5 T6 HT.
  set (rows := rows_from (t_y tm) fulls). exists (term_run u tm (concat rows)). split.
  { apply paper_looks; try assumption; [|intros; reflexivity]. apply Forall_forall. intros f I. apply In_nth_error in I as (j & Ej). destruct (FW j f Ej) as (F1 & F2 & _). auto. }
  intros i l p bw Hi Hp' Hbw. apply laids_nth in Hp' as (l' & g & q & E1 & E2 & ->). assert (l' = l) as -> by congruence. set (n := sum _).
  unfold block_widths in Hbw. rewrite nth_error_map, E2 in Hbw. injection Hbw as <-. cbn [snd].
  destruct (@line_at _ (map fst gq) i g) as (LB & EB); [rewrite nth_error_map, E2; reflexivity|]. rewrite EB in El.
  assert (En : n = length (concat (firstn i (map fst gq)))) by (unfold n; rewrite length_concat', <- firstn_map, P2, firstn_map; reflexivity).
  assert (Lr : length rows = length (txt_lines t)).
  { rewrite (F2_length HF). unfold rows. generalize (t_y tm). clear. induction fulls as [|f fs IH]; intros y; [reflexivity|]. cbn [rows_from length]. rewrite IH. reflexivity. }
  assert (Esc : screen u (t_x tm) (t_y tm) (concat rows) = concat (map (screen u 0 0) rows)).
  { apply screen_rows. apply Forall_forall. intros row Hin. apply In_nth_error in Hin as (j & Hj). apply rows_nth in Hj as (o & Ho & ->). eexists _, _, o. split; [reflexivity|]. apply styled_text_cmd, (FW j o Ho). }
  assert (Cl : clean (concat rows)).
  { apply clean_concat, Forall_forall. intros row Hin. apply In_nth_error in Hin as (j & Hj). apply rows_nth in Hj as (o & Ho & ->). apply clean_cons; [apply clean_move|].
    assert (exists l1, nth_error (txt_lines t) j = Some l1) as (l1 & L1) by (destruct (FW j o Ho) as (_ & _ & l1 & L1 & _); eauto). eapply clean_line. exact (one_of _ HF L1 Ho). }
  assert (Fa : faithful (concat rows)).
  { assert (G : Forall faithful rows).
    { apply Forall_forall. intros row Hin. apply In_nth_error in Hin as (j & Hj). apply rows_nth in Hj as (o & Ho & ->). apply faithful_cons; [apply faithful_move|].
      assert (exists l1, nth_error (txt_lines t) j = Some l1) as (l1 & L1) by (destruct (FW j o Ho) as (_ & _ & l1 & L1 & _); eauto). eapply C80_line. exact (one_of _ HF L1 Ho). }
    clear - G. induction G as [|r rs R _ IH]; [apply faithful_nil|]. cbn [concat]. apply faithful_app; assumption. }
  rewrite Forall_forall in NE.
  pose proof (@line_look u k tm (concat rows) (map (screen u 0 0) rows) 0 (t_y tm) w w w 0 None (txt_lines t) (concat (firstn i (map fst gq))) g LB l q Hk Hn Wh El1 El2 Hb Cl Fa Pt Esc) as Z.
  rewrite En. rewrite Nat.sub_0_r in Z. apply Z; [|reflexivity|exact El|exact (@made_at u k _ text gq i l g q HM Hi E2)|exact (NE l (nth_error_In _ _ Hi))|lia|lia|rewrite map_length, Lr, El, !app_length; lia].
  intros j row Hj. rewrite nth_error_map in Hj. destruct (nth_error rows j) as [r|] eqn:Er; [|discriminate]. injection Hj as <-. apply rows_nth in Er as (o & Ho & ->). destruct (FW j o Ho) as (F1 & F2 & l0 & L0 & F3). cbn [screen]. rewrite Nnat.Nat2N.id. split.
  - pose proof (@screen_tiles u (t_y tm + j) _ (styled_text_cmd F1) 0) as Ht. rewrite F2 in Ht. exact Ht.
  - exists (drawn o), []. split; [rewrite screen_chars by exact F1; rewrite app_nil_r; reflexivity|]. cbn [Nat.add]. rewrite L0. split; [exact F3|reflexivity].
Qed.
(** ** C108 *)

(** A text printed from the start of a row, on a terminal having its default style and of which nothing is written below: it's seen with the looks of C106, but for the blanks which end the rows, which aren't printed. *)
Theorem C108_printed : forall u k um text size, usual u no_special k ->
  let w := N.to_nat (fst (terminal_size size)) in
  5 <= w -> Forall (area_source u k w) text -> is_white u 32%N = true -> single_lines k text -> ellipsis_seen u -> Forall no_ellipsis text ->
  exists t out ps bws, term_text u k um text size = Ret t /\ print_text u no_special k um text size = Ret out
  /\ length ps = length text /\ length bws = length text /\ Forall (fun p => 1 <= l_rows p) ps /\ sum (map l_rows ps) = length (txt_lines t) /\ aligned text ps /\ same_blocks text bws
  /\ forall tm, t_x tm = 0 -> t_pen tm = pen0 -> blank_from tm (t_y tm) ->
     exists full, without_ends k w (t_y tm) (length (txt_lines t)) tm (paper_run u w tm out) full
     /\ forall i l p bw, nth_error text i = Some l -> nth_error ps i = Some p -> nth_error bws i = Some bw ->
        looks_line u k full p bw l 0 (t_y tm + sum (map l_rows (firstn i ps))) w.
Proof.
  intros u k um text size U w Hw T Wh SL El NE. destruct (@printed_seen u k um text size U Hw T Wh SL El NE) as (t & out & ps & bws & A1 & A2 & A3 & A4 & A5 & A6 & A7 & A8 & A9). exists t, out, ps, bws. do 8 (split; [assumption|]).
  intros tm X P B. destruct (A9 tm X P B) as (_ & _ & _ & _ & _ & _ & full & Q). exists full. exact Q.
Qed.
Print Assumptions C108_printed.

(** ** The text of C106, printed on a terminal of 17 columns of which the blank cells have a background: the ones at the ends of the rows keep it *)
Definition blue_term : term := mkTerm (fun _ _ => Nothing (AnsiValue 17)) 0 3 pen0.
Definition printed_looks (k : MadSkin) (text : list MLine) : list (list (char * pen)) :=
  match print_text demo no_special k 1000 text (Some (17, 12)%N) with
  | Ret out => map (fun j => look_row (paper_run demo 17 blue_term out) 0 (3 + j) 17) (seq 0 7)
  | _ => []
  end.
Example C108_example : usual demo no_special skin_default /\ Forall (area_source demo skin_default 17) look_text /\ is_white demo 32%N = true /\ single_lines skin_default look_text
  /\ ellipsis_seen demo /\ Forall no_ellipsis look_text /\ t_x blue_term = 0 /\ t_pen blue_term = pen0 /\ blank_from blue_term 3
  /\ let code := mkPen (AnsiValue 249) (AnsiValue 235) in let bold := mkPen Reset Reset 4 in let border := (9474%N, mkPen (AnsiValue 239) Reset 0) in let blank := (32%N, pen0) in
     let kept := (32%N, mkPen Reset (AnsiValue 17) 0) in
     printed_looks skin_default look_text
     = [repeat (97%N, pen0) 6 ++ [blank] ++ repeat (98%N, bold) 5 ++ [(32%N, bold)] ++ repeat kept 4;
        repeat (99%N, code 16%N) 9 ++ repeat kept 8;
        repeat blank 7 ++ repeat (97%N, mkPen Reset Reset 36) 2 ++ repeat kept 8;
        [(98%N, code 0%N); (32%N, code 0%N); (32%N, code 0%N); (98%N, code 0%N)] ++ repeat kept 13;
        [(32%N, code 0%N); (99%N, code 0%N); (32%N, code 0%N); (32%N, code 0%N)] ++ repeat kept 13;
        [border; blank; (97%N, pen0); blank; border; (98%N, bold); (98%N, bold); blank; border] ++ repeat kept 8;
        repeat kept 17].
Proof.
  destruct C106_example as (X1 & _ & X2 & X3 & X4 & X5 & _).
  split; [exact X1|]. split; [exact X2|]. split; [exact X3|]. split.
  { split; [vm_compute; intros H; repeat destruct H as [H|H]; discriminate || contradiction|]. intros mc c M C. vm_compute in M.
    repeat destruct M as [<-|M]; try contradiction; cbn in C; repeat destruct C as [<-|C]; try contradiction; vm_compute; intros H; repeat destruct H as [H|H]; discriminate || contradiction. }
  split; [exact X4|]. split; [exact X5|]. split; [reflexivity|]. split; [reflexivity|]. split; [intros x y _; exists (AnsiValue 17); reflexivity|]. vm_compute. reflexivity.
Qed.
