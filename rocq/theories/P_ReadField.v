(** * What is read in an input field (C95) *)
From Verif Require Import Base L_Base Demo M_Content S_Content L_Content2 M_View S_View M_Input M_Area S_Area S_Paint S_Read L_Clean P_Paint P_Read.
From Verif Require Import S_Fit L_Fit L_View L_Render M_Style M_Fit S_Input L_Input L_Input2 P_Input.
Set Implicit Arguments.
Open Scope nat_scope.

Lemma screen_out u : forall l x y, Forall text_cmd l -> map s_char (screen u x y l) = out_text l.
Proof.
  induction l as [|c l IH]; intros x y H; [reflexivity|]. inversion H as [|? ? Hc Hl]; subst.
  destruct Hc as [(s & ->)|(cs & s & ->)]; cbn [screen]; rewrite map_app, put_text, (IH _ _ Hl); reflexivity.
Qed.
(** Each row of the area reads as the row which is drawn *)
Theorem C95_field_rows : forall u f out p, usual_widths u -> on_screen (if_area f) -> 1 <= text_width f -> no_tab_shown f -> (N.of_nat (nb_lines f) < 65536)%N ->
  display_on u f = Ret (out, p) ->
  exists sb, area_scrollbar (if_area f) (N.of_nat (py (if_scroll f)) mod U16) (N.of_nat (nb_lines f)) = Ret sb /\ forall j, j < height f ->
  exists row q, row_shown u f (scrollbar_style f) (text_width f) sb (N.of_nat j) row q
  /\ forall tm, read_row (term_run u tm out) (N.to_nat (a_left (if_area f))) (N.to_nat (a_top (if_area f)) + j) (N.to_nat (a_width (if_area f))) = placed_chars u (out_text row).
Proof.
  intros u f out p HU HS W1 NT NL ED. pose proof (clean_input _ _ ED) as Cl. destruct (@C71_display u f out p HU HS W1 NL ED) as (sb & rows & ps & Esb & Eo & Ep & L1 & L2 & HR). exists sb. split; [exact Esb|].
  pose proof Esb as Esb'. rewrite <- (N.mod_small (N.of_nat (nb_lines f)) U16 NL) in Esb'. destruct (@scrollbar_width f sb NL Esb') as (Ew & _).
  assert (Tl : forall i row q, nth_error rows i = Some row -> nth_error ps i = Some q ->
    tiles u (N.to_nat (a_top (if_area f)) + i) (N.to_nat (a_left (if_area f))) (screen u 0 0 row) (N.to_nat (a_left (if_area f)) + N.to_nat (a_width (if_area f))) /\ map s_char (screen u 0 0 row) = out_text row).
  { intros i row q Er Eq. pose proof (HR i row q Er Eq) as H. pose proof (row_shown_width HU NT W1 H) as Wd. destruct (row_shown_text H) as (cmds & -> & Hc). cbn [screen].
    change (out_text (MoveTo (a_left (if_area f)) (a_top (if_area f) + N.of_nat i) :: cmds)) with (out_text cmds) in *. split; [|apply screen_out, Hc].
    replace (N.to_nat (a_top (if_area f) + N.of_nat i)) with (N.to_nat (a_top (if_area f)) + i) by lia.
    replace (N.to_nat (a_left (if_area f)) + N.to_nat (a_width (if_area f))) with (N.to_nat (a_left (if_area f)) + sumw (chw u) (out_text cmds)); [apply screen_tiles; exact Hc|].
    rewrite Wd. destruct sb; lia. }
  intros j J. destruct (nth_error rows j) as [row|] eqn:Er; [|apply nth_error_None in Er; lia]. destruct (nth_error ps j) as [q|] eqn:Eq; [|apply nth_error_None in Eq; lia].
  exists row, q. split; [apply HR; assumption|]. intros tm.
  rewrite (@read_drawn u out tm (N.to_nat (a_left (if_area f))) (N.to_nat (a_top (if_area f))) (N.to_nat (a_width (if_area f))) (map (screen u 0 0) rows)) with (row := screen u 0 0 row).
  - destruct (Tl j row q Er Eq) as (_ & ->). reflexivity.
  - exact Cl.
  - rewrite Eo. cbn [screen]. apply screen_rows. eapply rows_text; [rewrite L1, L2; reflexivity|exact HR].
  - intros i r Ir. rewrite nth_error_map in Ir. destruct (nth_error rows i) as [ri|] eqn:Ei; [|discriminate Ir]. injection Ir as <-.
    destruct (nth_error ps i) as [qi|] eqn:Eqi; [apply (Tl i ri qi Ei Eqi)|]. apply nth_error_None in Eqi. assert (i < length rows) by (apply nth_error_Some; congruence). lia.
  - rewrite nth_error_map, Er. reflexivity.
Qed.
Lemma flagged_fst sel : forall p k, map fst (flagged sel k p) = p.
Proof. unfold flagged. induction p as [|c p IH]; intros k; [reflexivity|]. cbn [length seq map combine fst]. f_equal. apply IH. Qed.
Lemma styled_out n c : forall cells, out_text (styled n c cells) = map fst cells.
Proof. unfold out_text, styled. induction cells as [|x cells IH]; [reflexivity|]. cbn [map flat_map cmd_text app]. rewrite IH. reflexivity. Qed.
(** When the whole text is shown, each row reads as its line (or as its mask), followed by spaces *)
Theorem C95_field : forall u f out p, usual_widths u -> on_screen (if_area f) -> no_tab_shown f -> (N.of_nat (nb_lines f) < 65536)%N ->
  nb_lines f <= height f -> if_scroll f = mkPos 0 0 -> Forall (fun l => columns u (masked f l) < N.to_nat (a_width (if_area f))) (clines (if_content f)) -> 1 <= nb_lines f ->
  display_on u f = Ret (out, p) -> forall tm j, j < height f ->
  read_row (term_run u tm out) (N.to_nat (a_left (if_area f))) (N.to_nat (a_top (if_area f)) + j) (N.to_nat (a_width (if_area f)))
  = match nth_error (clines (if_content f)) j with
    | Some l => placed_chars u (masked f l) ++ repeat 32%N (N.to_nat (a_width (if_area f)) - columns u (masked f l))
    | None => repeat 32%N (N.to_nat (a_width (if_area f)))
    end.
Proof.
  intros u f out p HU HS NT NL NH SC FT N1 ED tm j J. assert (Tw : text_width f = N.to_nat (a_width (if_area f))) by (unfold text_width; rewrite (proj2 (Nat.ltb_ge _ _) NH); lia).
  assert (Sp : placed_chars u (repeat 32%N 1) = [32%N]) by (destruct HU as (H & _); unfold placed_chars; cbn [repeat filter]; rewrite H; reflexivity).
  assert (Sps : forall n, placed_chars u (repeat 32%N n) = repeat 32%N n).
  { induction n as [|n IH]; [reflexivity|]. destruct HU as (H & _). unfold placed_chars in *. cbn [repeat filter]. rewrite H. cbn [Nat.ltb Nat.leb]. f_equal. exact IH. }
  assert (W1 : 1 <= text_width f).
  { rewrite Tw. destruct (clines (if_content f)) as [|l ls] eqn:El; [unfold nb_lines in N1; rewrite El in N1; cbn in N1; lia|]. rewrite Forall_forall in FT. specialize (FT l (or_introl eq_refl)). lia. }
  destruct (@C95_field_rows u f out p HU HS W1 NT NL ED) as (sb & Esb & H). destruct (H j J) as (row & q & (content & bar & -> & HC & HB) & R). rewrite R. clear R H.
  change (out_text (MoveTo (a_left (if_area f)) (a_top (if_area f) + N.of_nat j) :: content ++ bar)) with (out_text (content ++ bar)). rewrite out_text_app.
  assert (B : bar = []).
  { destruct sb as [x|]; [|exact HB]. exfalso. rewrite <- (N.mod_small (N.of_nat (nb_lines f)) U16 NL) in Esb. apply scrollbar_lines in Esb. fold (nb_lines f) (height f) in Esb. unfold line_count in Esb. fold (nb_lines f) in Esb. lia. }
  subst bar. change (out_text []) with (@nil N). rewrite app_nil_r. rewrite SC in HC. cbn [px py] in HC. rewrite Nat.add_0_l, Nat2N.id, Tw in HC.
  destruct (nth_error (clines (if_content f)) j) as [l|] eqn:El.
  - cbn [Nat.ltb Nat.leb andb b2n app Nat.add] in HC. destruct HC as (k & cells & Fi & (pp & qq & mark & Esk & Ec & M) & -> & _). rewrite styled_out.
    assert (K0 : k = 0) by (destruct k as [|k]; [reflexivity|]; destruct Fi as (_ & Fi); specialize (Fi 0 ltac:(lia)); lia). subst k. cbn [skipn] in Esk.
    rewrite Forall_forall in FT. specialize (FT l (nth_error_In _ _ El)). rewrite Nat.sub_0_r in *. destruct qq as [|c qq].
    + destruct M as (M1 & M2 & ->). rewrite app_nil_r in Esk. subst pp. cbv zeta in Ec. rewrite Ec. cbn [app length] in *. rewrite Nat.add_0_r, !map_app, flagged_fst.
      rewrite (proj2 (Nat.ltb_lt _ _) FT). cbn [andb]. unfold placed_chars. rewrite filter_app. f_equal. fold (placed_chars u (map fst (if cursor_at_end f j l then [(32%N, true)] else []) ++ map fst (repeat (32%N, false) (N.to_nat (a_width (if_area f)) - columns u (masked f l) - length (if cursor_at_end f j l then [(32%N, true)] else []))))).
      rewrite map_repeat. cbn [fst]. destruct (cursor_at_end f j l); cbn [map fst length app].
      * rewrite <- (Sps (N.to_nat (a_width (if_area f)) - columns u (masked f l))). f_equal. replace (N.to_nat (a_width (if_area f)) - columns u (masked f l)) with (S (N.to_nat (a_width (if_area f)) - columns u (masked f l) - 1)) by lia. cbn [repeat]. f_equal. f_equal. lia.
      * rewrite Nat.sub_0_r. apply Sps.
    + exfalso. destruct M as (M1 & M2 & _). rewrite Esk in FT. unfold columns in *. rewrite map_app, sum_app in FT. cbn [map sum] in FT, M2. lia.
  - destruct HC as (-> & _). apply Sps.
Qed.
Print Assumptions C95_field_rows.
Print Assumptions C95_field.
(** Two lines in a field of three rows *)
Example C95_field_example : exists f out p, if_run demo (demo_field 8 3) [IfSetStr [97; 98; 10; 20013; 100]%N] = Ret f /\ display_on demo f = Ret (out, p)
  /\ usual_widths demo /\ on_screen (if_area f) /\ no_tab_shown f /\ nb_lines f <= height f /\ if_scroll f = mkPos 0 0
  /\ Forall (fun l => columns demo (masked f l) < 8) (clines (if_content f))
  /\ read_area (term_run demo full_term out) (if_area f) = [[97; 98; 32; 32; 32; 32; 32; 32]; [20013; 100; 32; 32; 32; 32; 32]; [32; 32; 32; 32; 32; 32; 32; 32]]%N.
Proof.
  do 3 eexists. split; [vm_compute; reflexivity|]. split; [vm_compute; reflexivity|]. split; [repeat split|]. split; [split; reflexivity|].
  split; [right; intros l [<-|[<-|[]]]; cbn; intuition discriminate|]. split; [vm_compute; lia|]. split; [reflexivity|].
  split; [repeat (constructor; [vm_compute; lia|]); constructor|]. vm_compute. reflexivity.
Qed.
